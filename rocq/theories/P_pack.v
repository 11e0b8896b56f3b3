(** Packing of rectangles, with the search for a box: C84. *)
From Coq Require Import ZArith Lia.
From stdpp Require Import base list numbers list_numbers.
From Verif Require Import Base GridModel PackModel RpackModel SpecLayoutGen SpecRpack RpackProofs PackProofs P_grid P_rpack.

(** C84.  For all rectangles and all bounds, for all results of qsort and all amounts by which the height grows: if pack
    returns positions, there is one for each rectangle; no rectangle leaves the bounds (without a bound: the sum of
    the widths, the sum of the heights), and no two rectangles overlap. *)
Theorem C84_pack_partial : forall long_max o ds sizes given_width given_height ps,
  (forall k, o k ≡ₚ seq 0 (length sizes)) -> (forall k d, d ∈ ds k -> (0 <= d)%Z) ->
  pack long_max o ds sizes given_width given_height = Some ps ->
  length ps = length sizes /\
  (forall x y w h, ((x, y), (w, h)) ∈ zip ps sizes -> (0 < w)%Z /\ (0 < h)%Z /\ (0 <= x)%Z /\ (0 <= y)%Z /\
     ((0 <= given_width)%Z -> (x + w <= given_width)%Z) /\ ((0 <= given_height)%Z -> (y + h <= given_height)%Z) /\
     ((given_width < 0)%Z -> (x + w <= foldr Z.add 0 sizes.*1)%Z) /\ ((given_height < 0)%Z -> (y + h <= foldr Z.add 0 sizes.*2)%Z)) /\
  (forall i j r r', i <> j -> zip ps sizes !! i = Some r -> zip ps sizes !! j = Some r' -> apart r r' /\ ~ overlap r r').
Proof.
  intros long_max o ds sizes gw gh ps Ho Hd E. destruct (decide (sizes = [])) as [->|Hn].
  { injection E as <-. split; [done|]. split; [intros ? ? ? ? Hi; inversion Hi|done]. }
  destruct (pack_choice long_max o ds sizes gw gh ps Ho Hd Hn E) as (order & b & W & H & HO & HW & HH & Ep & B1 & B2).
  destruct (C84_packed_rectangles_are_apart_partial order b W H sizes ps HO HW HH Ep) as (L & I & A).
  split; [done|]. split; [|done]. intros x y w h Hi. destruct (I x y w h Hi) as (? & ? & ? & ? & HB).
  split; [done|]. split; [done|]. split; [done|]. split; [done|]. fold (sum_of sizes.*1). fold (sum_of sizes.*2).
  destruct b, (Z.ltb_spec gw 0), (Z.ltb_spec gh 0); simpl in HB; lia.
Qed.
Print Assumptions C84_pack_partial.

(** The check of packings (C83) finds nothing to complain about in what pack returns. *)
Theorem C84_check_of_pack : forall long_max o ds sizes given_width given_height ps,
  (forall k, o k ≡ₚ seq 0 (length sizes)) -> (forall k d, d ∈ ds k -> (0 <= d)%Z) ->
  pack long_max o ds sizes given_width given_height = Some ps -> overlapping sizes ps = Ok None.
Proof.
  intros long_max o ds sizes gw gh ps Ho Hd E. destruct (C84_pack_partial long_max o ds sizes gw gh ps Ho Hd E) as (L & I & A).
  destruct (overlapping_spec sizes ps L) as [[Eo _]|(i & j & _ & (Hn & r & r' & E1 & E2 & Hov) & _)]; [|done|].
  - intros [[x y] [w h]] Hr. destruct (I _ _ _ _ Hr) as (? & ? & _). done.
  - destruct (A i j r r' Hn E1 E2) as [_ Hno]. done.
Qed.
Print Assumptions C84_check_of_pack.

(** A bound that is less than the side of some rectangle is an error, and so is a side that is not positive. *)
Theorem C84_impossible : forall long_max o ds sizes given_width given_height w h, (w, h) ∈ sizes ->
  ((0 <= given_width < w) \/ (0 <= given_height < h) \/ w <= 0 \/ h <= 0)%Z ->
  pack long_max o ds sizes given_width given_height = None.
Proof.
  intros long_max o ds sizes gw gh w h Hi Hc. unfold pack. destruct sizes as [|s0 sizes0] eqn:Es; [inversion Hi|]. rewrite <- Es in *. clear Es s0 sizes0.
  assert (M1 : (w <= max_of sizes.*1)%Z) by (apply max_of_ge, elem_of_list_fmap; by exists (w, h)).
  assert (M2 : (h <= max_of sizes.*2)%Z) by (apply max_of_ge, elem_of_list_fmap; by exists (w, h)).
  destruct (existsb _ sizes) eqn:Eb; [done|].
  assert (Hp : (0 < w)%Z /\ (0 < h)%Z).
  { destruct (decide ((0 < w)%Z /\ (0 < h)%Z)) as [|Hn]; [done|]. exfalso.
    assert (E : existsb (fun wh => (wh.1 <=? 0)%Z || (wh.2 <=? 0)%Z) sizes = true); [|congruence].
    apply existsb_exists. exists (w, h). split; [by apply elem_of_list_In|]. simpl. apply orb_true_iff. rewrite !Z.leb_le. lia. }
  unfold bound. destruct Hc as [Hc|[Hc|Hc]]; [| |lia].
  - destruct (Z.ltb_spec gw 0); [lia|]. destruct (Z.eqb_spec gw 0); [done|]. destruct (Z.ltb_spec gw (max_of sizes.*1)); [done|lia].
  - destruct (Z.ltb_spec gh 0); [lia|].
    destruct (if (gw <? 0)%Z then Some (sum_of sizes.*1) else _); [|done].
    destruct (Z.eqb_spec gh 0); [done|]. destruct (Z.ltb_spec gh (max_of sizes.*2)); [done|lia].
Qed.
Print Assumptions C84_impossible.

(** the example of the documentation of rpack; with a bound on the width the rectangles are packed upwards *)
Definition some_orders (k : nat) : list nat := match k with 0 | 2 => [0; 1; 2; 3] | _ => [1; 0; 3; 2] end.
Example C84_orders : forall k, some_orders k ≡ₚ seq 0 4.
Proof. intros [|[|[|k]]]; simpl; try done; rewrite (Permutation_swap 0 1); repeat constructor. Qed.
Example C84_doc_pack : pack (2 ^ 63 - 1) some_orders (fun _ => repeat 1%Z 400) [(58, 206); (231, 176); (35, 113); (46, 109)]%Z (-1) (-1)
  = Some [(0, 0); (58, 0); (289, 0); (289, 113)]%Z.
Proof. vm_compute. done. Qed.
Example C84_narrow_pack : pack (2 ^ 63 - 1) some_orders (fun _ => repeat 1%Z 400) [(58, 206); (231, 176); (35, 113); (46, 109)]%Z 300 (-1)
  = Some [(0, 0); (58, 0); (58, 176); (93, 176)]%Z.
Proof. vm_compute. done. Qed.
