(** Independent vocabulary for the cache properties: an answer is a list of (label, chain) pairs. *)
From stdpp Require Import base list list_numbers numbers.
From Verif Require Import SpecBus.

(** the chains of an answer and the length of its longest chain *)
Definition chains_of (r : list (nat * list nat)) : list (list nat) := r.*2.
Definition longest (r : list (nat * list nat)) : nat := max_list (length <$> chains_of r).

(** the labels [l], each once, carry a clique *)
Definition clique_answer (nodes : list nat) (edges : list (nat * nat)) (l : list nat) (r : list (nat * list nat)) : Prop :=
  r.*1 = l /\ clique_embedding nodes edges (chains_of r).

(** the labels [N] and [M] carry the two sides of a biclique; the order of the pairs is that of a
    dict and does not matter *)
Definition biclique_answer (nodes : list nat) (edges : list (nat * nat)) (N M : list nat) (r : list (nat * list nat)) : Prop :=
  exists A B, length A = length N /\ length B = length M /\ r ≡ₚ zip N A ++ zip M B /\
    biclique_embedding nodes edges (length N) (length M) (A ++ B).
