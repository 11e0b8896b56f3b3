(** Independent vocabulary for the objective of p_norm. *)
From Coq Require Import QArith Qabs.
From stdpp Require Import base list numbers relations.

(** the sum of [f 0], ..., [f (n - 1)] *)
Notation total n f := (foldr Qplus 0%Q (f <$> seq 0 n)).
(** the 1-distance of nodes [i] and [j] when coordinate [k] of node [i] is [x i k] *)
Definition one_distance (dim : nat) (x : nat -> nat -> Q) (i j : nat) : Q := total dim (fun k => Qabs (x i k - x j k)).
(** coordinate [k] of node [i] is moved by [h], in a vector of all coordinates, node by node *)
Definition nudge (dim : nat) (v : nat -> Q) (i k : nat) (h : Q) (z : nat) : Q := if decide (z = i * dim + k) then (v z + h)%Q else v z.

(** [d] is the least number of steps from [v] to [w] *)
Definition hop_distance (adj : nat -> nat -> Prop) (v w d : nat) : Prop := nsteps adj d v w /\ forall d', nsteps adj d' v w -> d <= d'.
(** [lengths] is what nx.all_pairs_shortest_path_length says of a graph: for every node, once, the nodes that can be reached from
    it, each once, with their distances *)
Definition path_lengths (nodes : list nat) (adj : nat -> nat -> Prop) (lengths : list (nat * list (nat * Q))) : Prop :=
  lengths.*1 = nodes /\ NoDup nodes /\ (forall v w, adj v w -> v ∈ nodes /\ w ∈ nodes) /\
  forall v V, (v, V) ∈ lengths -> NoDup V.*1 /\ (forall w, rtc adj v w -> w ∈ V.*1) /\
    forall w x, (w, x) ∈ V -> exists d, hop_distance adj v w d /\ x = inject_Z (Z.of_nat d).

(** [d] is the greatest difference of a coordinate *)
Definition is_inf_distance (dim : nat) (x : nat -> nat -> Q) (i j : nat) (d : Q) : Prop :=
  (exists k, k < dim /\ (d == Qabs (x i k - x j k))%Q) /\ forall k, k < dim -> (Qabs (x i k - x j k) <= d)%Q.
