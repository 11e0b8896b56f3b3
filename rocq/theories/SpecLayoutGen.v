(** Independent vocabulary for computed layouts. *)
From Coq Require Import QArith.
From stdpp Require Import base list numbers.
From Verif Require Import SpecLayout.

(** coordinate [i] of the points of [L'] is that of [L], stretched and moved, with the same order *)
Definition stretched (L L' : list (list Q)) (i : nat) : Prop :=
  exists a b, (0 < a)%Q /\ Forall2 (fun r r' => exists x x', r !! i = Some x /\ r' !! i = Some x' /\ (x' == a * x + b)%Q) L L'.
(** the extent of [L] in coordinate [i] is from [lo] to [hi] *)
Definition spans (L : list (list Q)) (i : nat) (lo hi : Q) : Prop := exists lo' hi', extent L i lo' hi' /\ (lo' == lo)%Q /\ (hi' == hi)%Q.

(** what the arguments [dim] and [center] mean: a box with [d] sides and centre [c]; two sides and the origin
    are the default *)
Definition box_arguments (dim : option nat) (center : option (list Q)) (d : nat) (c : list Q) : Prop :=
  length c = d /\ match dim with Some d' => d' = d | None => center = None -> d = 2 end /\
  match center with Some c' => c' = c | None => c = replicate d 0%Q end.

(** a rectangle (x, y, w, h) with sides [w] and [h] and lower left corner (x, y) *)
Notation rectangle := ((Z * Z) * (Z * Z))%type.
(** two rectangles have no inner point in common: there is a horizontal or vertical line between them *)
Definition apart (r r' : rectangle) : Prop :=
  let '((x, y), (w, h)) := r in let '((x', y'), (w', h')) := r' in
  (x + w <= x' \/ x' + w' <= x \/ y + h <= y' \/ y' + h' <= y)%Z.
Definition inside (p : list Q) (r : rectangle) : Prop :=
  let '((x, y), (w, h)) := r in exists a b, p = [a; b] /\
    (inject_Z x <= a <= inject_Z (x + w))%Q /\ (inject_Z y <= b <= inject_Z (y + h))%Q.
(** what rpack.pack does: corners for rectangles with the given positive sides, such that they do not overlap *)
Definition packs (rpack : list (Z * Z) -> list (Z * Z)) : Prop :=
  forall sides, (forall w h, (w, h) ∈ sides -> (0 < w)%Z /\ (0 < h)%Z) -> length (rpack sides) = length sides /\
    forall i j r r', i <> j -> zip (rpack sides) sides !! i = Some r -> zip (rpack sides) sides !! j = Some r' -> apart r r'.
(** a rotation of the points of the plane *)
Definition rigid (turn : list (list Q) -> list (list Q)) : Prop :=
  forall ps, (forall p, p ∈ ps -> length p = 2) -> length (turn ps) = length ps /\ (forall p, p ∈ turn ps -> length p = 2) /\
    forall i j p q p' q', ps !! i = Some p -> ps !! j = Some q -> turn ps !! i = Some p' -> turn ps !! j = Some q' -> (sqdist p' q' == sqdist p q)%Q.
(** the points lie on a horizontal or a vertical line *)
Definition flat (ps : list (list Q)) : Prop := exists k x x', k < 2 /\ extent ps k x x' /\ (x == x')%Q.
