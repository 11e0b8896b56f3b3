(** Independent vocabulary of the property statements about graphs and embeddings.
    Nothing here refers to the model of the code. *)
From stdpp Require Import base list relations.

(** inside [S], every two members are joined by a path of members *)
Definition connected_in (adj : nat -> nat -> Prop) (S : nat -> Prop) : Prop :=
  forall x y, S x -> S y -> rtc (fun a b => adj a b /\ S a /\ S b) x y.

(** Source vertices are [0 .. n-1].  [ch v q] says that qubit [q] belongs to the chain of [v]. *)
Record minor_embedding (n : nat) (src tgt : nat -> nat -> Prop) (ch : nat -> nat -> Prop) : Prop := {
  me_nonempty : forall v, v < n -> exists q, ch v q;
  me_connected : forall v, v < n -> connected_in tgt (ch v);
  me_disjoint : forall u v q, u < n -> v < n -> ch u q -> ch v q -> u = v;
  me_edges : forall u v, u < n -> v < n -> src u v -> u <> v -> exists p q, ch u p /\ ch v q /\ tgt p q
}.

(** Two variables are joined by a target edge or share a qubit *)
Definition touching (tgt : nat -> nat -> Prop) (ch : nat -> nat -> Prop) (u v : nat) : Prop :=
  exists p q, ch u p /\ ch v q /\ (p = q \/ tgt p q).
