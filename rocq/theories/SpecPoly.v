(** Independent vocabulary for the properties of polynomialembedder; the Chimera graph and its lines are
    those of [SpecBus] (the coordinate x of the code is the row, y the column). *)
From stdpp Require Import base list numbers.
From Verif Require Import SpecBus.

(** the qubits of a graph given by its couplers *)
Definition ends (edges : list (nat * nat)) : list nat := edges.*1 ++ edges.*2.
(** successive qubits of a chain are coupled *)
Definition wire (edges : list (nat * nat)) (c : list nat) : Prop :=
  forall i p q, c !! i = Some p -> c !! S i = Some q -> has_edge edges p q.
(** the number of qubits of a chain along an ell *)
Definition ell_len (e : ell) : nat := S (e_bot e - e_top e) + S (e_right e - e_left e).
(** ells of one length, each obtained from the one before by giving up a row and adding a column *)
Definition is_ells (m n len : nat) (L : list ell) : Prop :=
  (forall e, e ∈ L -> ell_in m n e /\ ell_len e = len) /\ (forall i a b, L !! i = Some a -> L !! S i = Some b -> peels a b).
(** [R] has an end of each missing coupler inside a cell *)
Definition covers (m n t : nat) (edges : list (nat * nat)) (R : list nat) : Prop :=
  forall a b, missing_coupler m n t (ends edges) edges a b -> a ∈ R \/ b ∈ R.
(** all sets of ends can be tried within the limit *)
Definition few_missing (m n t : nat) (edges : list (nat * nat)) (limit : nat) : Prop :=
  forall bad, NoDup bad -> (forall a b, (a, b) ∈ bad -> missing_coupler m n t (ends edges) edges a b) -> 2 ^ length bad <= limit.
(** no coupler between neighbouring qubits of a line is missing *)
Definition lines_intact (m n t : nat) (edges : list (nat * nat)) : Prop :=
  forall u w z k, w < nlines m n u -> S z < npositions m n u -> k < t ->
    line_qubit n t u w z k ∈ ends edges -> line_qubit n t u w (S z) k ∈ ends edges ->
    has_edge edges (line_qubit n t u w z k) (line_qubit n t u w (S z) k).
(** the first pair is before the second in lexicographic order *)
Definition lex_le (a b : nat * nat) : Prop := a.1 < b.1 \/ (a.1 = b.1 /\ a.2 <= b.2).
(** chain lengths of the two sides that the caller allows; None is no bound *)
Definition allowed (imbalance max_chain_length : option nat) (la lb : nat) : Prop :=
  (forall l, max_chain_length = Some l -> la <= l /\ lb <= l) /\ (forall d, imbalance = Some d -> la <= lb + d /\ lb <= la + d).
