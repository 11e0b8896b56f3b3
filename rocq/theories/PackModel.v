(** Model of the search for a box in minorminer/_extern/rpack: [grid_search_bbox] of rpackcore.c and [pack] of
    _core.pyx.  Simplifications: the results of qsort are arguments (any order of the rectangles); the amounts
    [delta] by which the height grows are arguments (any list of amounts; the search ends when it is used up).
    An exception is [None].  The C type [long] is [Z] (no overflow). *)
From Coq Require Import ZArith.
From stdpp Require Import base list numbers.
From Verif Require Import GridModel.

Definition max_of (l : list Z) : Z := foldr Z.max 0%Z l.
Definition sum_of (l : list Z) : Z := foldr Z.add 0%Z l.
(** the rectangles in the order [order], turned if [rotated] *)
Definition arranged (order : list nat) (rotated : bool) (sizes : list (Z * Z)) : list (Z * Z) :=
  flip rotated <$> omap (fun i => sizes !! i) order.
(** rpackcore.c 468-484, one round: [grid_w] if all rectangles find a place *)
Definition round (width height : Z) (rs : list (Z * Z)) : option Z :=
  match grid_pack width height rs with
  | Some ps => Some (max_of (zip_with (fun p s => (p.1 + s.1)%Z) ps rs))
  | None => None
  end.
(** 464-508, the loop; [best] is [(best_w, best_h)] *)
Fixpoint search_loop (max_width max_height min_width : Z) (rs : list (Z * Z)) (deltas : list Z)
    (height width area : Z) (best : Z * Z) : Z * (Z * Z) :=
  match deltas with
  | [] => (area, best)
  | delta :: deltas =>
    if (height <=? max_height)%Z && (min_width <=? width)%Z then
      let r := round width height rs in
      let best' := match r with Some gw => (gw, height) | None => best end in
      let area' := match r with Some gw => (height * gw)%Z | None => area end in
      if match r with Some _ => (area' <=? 1)%Z | None => false end then (area', best') else
      let height' := (height + delta)%Z in
      let w1 := (area' / height')%Z in
      let w2 := if (max_width <? w1)%Z then max_width else w1 in
      let w3 := if (w2 * height' =? area')%Z then (w2 - 1)%Z else w2 in
      search_loop max_width max_height min_width rs deltas height' w3 area' best'
    else (area, best)
  end.
(** 440-522 [grid_search_bbox] and _core.pyx 251-263 [search_bbox]: a box, or [None] for a negative status *)
Definition search_bbox (max_width max_height max_area : Z) (rs : list (Z * Z)) (deltas : list Z) : option (Z * Z) :=
  let min_width := max_of rs.*1 in
  let height := max_of rs.*2 in
  let w := (max_area / height)%Z in
  let width := if (max_width <? w)%Z then max_width else w in
  let '(area, best) := search_loop max_width max_height min_width rs deltas height width (max_area - 1) (width, height) in
  if (max_area - 1 =? area)%Z then None else Some best.
(** _core.pyx 349-354 and alike: a smaller box is taken, with the number of its case *)
Definition improve (case : nat) (box : option (Z * Z)) (st : Z * (nat * (Z * Z))) : Z * (nat * (Z * Z)) :=
  match box with
  | Some (w, h) => if (0 <? w * h)%Z && (w * h <? st.1)%Z then ((w * h)%Z, (case, (w, h))) else st
  | None => st
  end.
(** 320-333: the bound on a side; a negative argument means none *)
Definition bound (given sum largest : Z) : option Z :=
  if (given <? 0)%Z then Some sum else if (given =? 0)%Z then None else if (given <? largest)%Z then None else Some given.
(** 288-410 [pack]; [o 0], [o 1], [o 2], ..: what the calls of qsort return, in their order in the program *)
Definition pack (long_max : Z) (o : nat -> list nat) (ds : nat -> list Z) (sizes : list (Z * Z)) (given_width given_height : Z) : option (list (Z * Z)) :=
  match sizes with
  | [] => Some []
  | _ =>
    if existsb (fun wh => (wh.1 <=? 0)%Z || (wh.2 <=? 0)%Z) sizes then None else
    match bound given_width (sum_of sizes.*1) (max_of sizes.*1), bound given_height (sum_of sizes.*2) (max_of sizes.*2) with
    | Some mw, Some mh =>
      let st := (long_max, (0, (mw, mh))) in
      let st := improve 1 (search_bbox mw mh st.1 (arranged (o 0) false sizes) (ds 0)) st in
      let st := improve 2 (search_bbox mw mh st.1 (arranged (o 1) false sizes) (ds 1)) st in
      let st := improve 3 (search_bbox mh mw st.1 (arranged (o 1) true sizes) (ds 2)) st in
      let st := improve 4 (search_bbox mh mw st.1 (arranged (o 2) true sizes) (ds 3)) st in
      let '(case, (w, h)) := st.2 in
      match case with
      | 0 => pack_in (o 2) true mh mw sizes
      | 1 => pack_in (o 2) false w h sizes
      | 2 => pack_in (o 3) false w h sizes
      | 3 => pack_in (o 4) true w h sizes
      | _ => pack_in (o 2) true w h sizes
      end
    | _, _ => None
    end
  end.
