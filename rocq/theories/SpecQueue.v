(** What a minimum queue must do, independently of the implementation. *)
From stdpp Require Import base list numbers.
From Verif Require Import Base QueueModel QueueMem.

(** [a] may leave the queue before [b]: smaller distance, or equal distance and tie-breaker not larger *)
Definition before (a b : pnode) : Prop :=
  (pdist a < pdist b)%Z \/ (pdist a = pdist b /\ pdirt a <= pdirt b).

(** [behaves ops b out b']: starting from the bag [b], the operations [ops] may show [out] at the
    removals and leave the bag [b'] *)
Inductive behaves : list qop -> list pnode -> list pnode -> list pnode -> Prop :=
| bh_done b : behaves [] b [] b
| bh_push x ops b out b' : behaves ops (x :: b) out b' -> behaves (QPush x :: ops) b out b'
| bh_pop z ops b b1 out b' : b ≡ₚ z :: b1 -> (forall y, y ∈ b -> before z y) -> behaves ops b1 out b' ->
    behaves (QPop :: ops) b (z :: out) b'.

(** the number of insertions *)
Fixpoint pushes (ops : list qop) : nat :=
  match ops with [] => 0 | QPush _ :: ops => S (pushes ops) | QPop :: ops => pushes ops end.
(** nothing is removed from an empty queue, when [k] elements are there at the start *)
Fixpoint pops_ok (k : nat) (ops : list qop) : Prop :=
  match ops with
  | [] => True
  | QPush _ :: ops => pops_ok (S k) ops
  | QPop :: ops => match k with 0 => False | S k => pops_ok k ops end
  end.
