(** Model of the helpers of minorminer/_extern/rpack/_core.pyx that check a packing of rectangles: [bbox_size],
    [packing_density] and [overlapping].  The C type [long] is [Z] (no overflow), the quotient of two integers
    is a rational number (no rounding).  An index that is out of range and a division by zero are errors. *)
From Coq Require Import QArith.
From stdpp Require Import base list numbers.
From Verif Require Import Base.

(** [l[i]] on a Python list; an IndexError if the list is too short *)
Definition item {A} (l : list A) (i : nat) : res A := match l !! i with Some a => Ok a | None => Err BadInit end.

(** _core.pyx 437-445 [bbox_size] *)
Definition bbox_size (sizes positions : list (Z * Z)) : res (Z * Z) :=
  foldM (fun m i =>
    let! wh := item sizes i in
    let! xy := item positions i in
    let mw := if (m.1 <? wh.1 + xy.1)%Z then (wh.1 + xy.1)%Z else m.1 in
    let mh := if (m.2 <? wh.2 + xy.2)%Z then (wh.2 + xy.2)%Z else m.2 in
    Ok (mw, mh)) (seq 0 (length sizes)) (0, 0)%Z.

(** 476-479 [packing_density] *)
Definition packing_density (sizes positions : list (Z * Z)) : res Q :=
  let! wh := bbox_size sizes positions in
  let area_bounding_box := (wh.1 * wh.2)%Z in
  let area_rectangles := foldl (fun s wh => (s + wh.1 * wh.2)%Z) 0%Z sizes in
  if (area_bounding_box =? 0)%Z then Err BadInit
  else Ok (inject_Z area_rectangles / inject_Z area_bounding_box)%Q.

(** 516-526, the inner loop of [overlapping] for the rectangle [i] *)
Fixpoint overlapping_row (sizes positions : list (Z * Z)) (i : nat) (w1 h1 x1 y1 : Z) (js : list nat) : res (option (nat * nat)) :=
  match js with
  | [] => Ok None
  | j :: js =>
    if j =? i then overlapping_row sizes positions i w1 h1 x1 y1 js else
    let! wh := item sizes j in
    let! xy := item positions j in
    let disjoint_in_x := (x1 + w1 <=? xy.1)%Z || (xy.1 + wh.1 <=? x1)%Z in
    let disjoint_in_y := (y1 + h1 <=? xy.2)%Z || (xy.2 + wh.2 <=? y1)%Z in
    if negb (disjoint_in_x || disjoint_in_y) then Ok (Some (i, j))
    else overlapping_row sizes positions i w1 h1 x1 y1 js
  end.
(** 513-527, the outer loop *)
Fixpoint overlapping_rows (sizes positions : list (Z * Z)) (is : list nat) : res (option (nat * nat)) :=
  match is with
  | [] => Ok None
  | i :: is =>
    let! wh := item sizes i in
    let! xy := item positions i in
    let! r := overlapping_row sizes positions i wh.1 wh.2 xy.1 xy.2 (seq 0 (length sizes)) in
    match r with Some ij => Ok (Some ij) | None => overlapping_rows sizes positions is end
  end.
(** 482-527 [overlapping] *)
Definition overlapping (sizes positions : list (Z * Z)) : res (option (nat * nat)) :=
  overlapping_rows sizes positions (seq 0 (length sizes)).
