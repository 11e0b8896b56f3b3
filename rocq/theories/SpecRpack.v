(** Independent vocabulary for packings of rectangles with integer sides: a rectangle is a set of unit squares. *)
From stdpp Require Import base list numbers.
From Verif Require Import SpecLayoutGen.

(** the unit square with lower left corner [ab] lies in the rectangle *)
Definition covers (r : rectangle) (ab : Z * Z) : Prop :=
  let '((x, y), (w, h)) := r in (x <= ab.1 < x + w)%Z /\ (y <= ab.2 < y + h)%Z.
Definition overlap (r r' : rectangle) : Prop := exists ab, covers r ab /\ covers r' ab.
Definition sensible (r : rectangle) : Prop := let '(_, (w, h)) := r in (0 < w)%Z /\ (0 < h)%Z.
(** the pair [(i, j)] comes before the pair [(i', j')] *)
Definition before (i j i' j' : nat) : Prop := i < i' \/ (i = i' /\ j < j').
