(** Model of the biclique search on Pegasus and Zephyr: BicliqueModel.v with the lines of FragModel.v and
    the lengths below.  Sources: include/busclique/util.hpp 349-366, 552-578; find_biclique.hpp. *)
From stdpp Require Import base list numbers gmap.
From Verif Require Import Base BusModel BicliqueModel FragModel.

(** util.hpp 355-366 [pegasus_spec_base::biclique_length]: the longest of the first six columns and rows *)
Definition pegasus_biclique_length (off : bool -> nat -> nat) : blength := fun y0 y1 x0 x1 =>
  let ym := y1 `min` (y0 + 5) in
  let xm := x1 `min` (x0 + 5) in
  let length := foldl (fun length x => pegasus_line_length off false x y0 y1 `max` length) 0 (seq x0 (S xm - x0)) in
  foldl (fun length y => pegasus_line_length off true y x0 x1 `max` length) length (seq y0 (S ym - y0)).

(** util.hpp 552-560 [zephyr_spec_base::line_length]; [k] is 0 or 1, and the callers below have
    [z0 >= k] and [z1 >= k] *)
Definition zephyr_line_length (z0 z1 k : nat) : nat := (z1 - k) / 2 - (z0 - k) / 2 + 1.
(** util.hpp 562-578 [biclique_length] *)
Definition zephyr_biclique_length (d : nat) : blength := fun y0 y1 x0 x1 =>
  let length := 0 in
  let length := if 0 <? y0 then length `max` zephyr_line_length y0 y1 1 else length in
  let length := if 0 <? x0 then length `max` zephyr_line_length x0 x1 1 else length in
  let length := if y1 + 1 <? 2 * d + 1 then length `max` zephyr_line_length y0 y1 0 else length in
  if x1 + 1 <? 2 * d + 1 then length `max` zephyr_line_length x0 x1 0 else length.

(** find_biclique.hpp 46-69 [best_bicliques] over the masked topologies *)
Definition pegasus_bicliques (d : nat) (off : bool -> nat -> nat) (masks : list (list N * list N)) :=
  best_bicliques (pegasus_topo d) (pegasus_line d off) (pegasus_biclique_length off) masks.
Definition zephyr_bicliques (d t : nat) (masks : list (list N * list N)) :=
  best_bicliques (zephyr_topo d t) (zephyr_line d t) (zephyr_biclique_length d) masks.
