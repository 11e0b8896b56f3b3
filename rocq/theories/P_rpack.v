(** Checks of packings of rectangles: C83. *)
From Coq Require Import QArith Lia Lqa.
From stdpp Require Import base list numbers.
From Verif Require Import Base RpackModel SpecLayoutGen SpecRpack RpackProofs RpackProofs2.

(** C83.  For every list of rectangles with positive sides at any positions, overlapping returns None exactly if no two
    of them have a unit square in common, and else the first pair of indices of two rectangles that have one. *)
Theorem C83_overlapping : forall sizes positions, length positions = length sizes ->
  (forall r, r ∈ zip positions sizes -> sensible r) ->
  let overlap_at i j := i <> j /\ exists r r', zip positions sizes !! i = Some r /\ zip positions sizes !! j = Some r' /\ overlap r r' in
  exists o, overlapping sizes positions = Ok o /\
    match o with
    | None => forall i j, ~ overlap_at i j
    | Some (i, j) => overlap_at i j /\ forall i' j', overlap_at i' j' -> before i j i' j' \/ (i, j) = (i', j')
    end.
Proof.
  intros sizes positions Hl Hs F. destruct (overlapping_spec sizes positions Hl Hs) as [[E H]|(i & j & E & H & H1)].
  - exists None. split; [done|]. exact H.
  - exists (Some (i, j)). split; [done|]. split; [exact H|]. intros i' j' Hc.
    assert (D : before i j i' j' \/ (i, j) = (i', j') \/ before i' j' i j).
    { unfold before. destruct (lt_eq_lt_dec i i') as [[?| ->]|?]; [auto| |auto].
      destruct (lt_eq_lt_dec j j') as [[?| ->]|?]; auto. }
    destruct D as [D|[D|D]]; [auto|auto|]. destruct (H1 _ _ D Hc).
Qed.
Print Assumptions C83_overlapping.

(** bbox_size returns the sides of the smallest box at the origin in which all rectangles end. *)
Theorem C83_bounding_box : forall sizes positions, length positions = length sizes ->
  exists W H, bbox_size sizes positions = Ok (W, H) /\
    forall W' H', ((W <= W')%Z /\ (H <= H')%Z) <->
      ((0 <= W')%Z /\ (0 <= H')%Z /\ forall x y w h, ((x, y), (w, h)) ∈ zip positions sizes -> (x + w <= W')%Z /\ (y + h <= H')%Z).
Proof.
  intros sizes positions Hl. destruct (bbox_spec sizes positions Hl) as (W & H & E & HW & HH & Hf & Hm).
  exists W, H. split; [done|]. intros W' H'. split.
  - intros [? ?]. split; [lia|]. split; [lia|]. intros x y w h Hr. specialize (Hf _ Hr). simpl in Hf. lia.
  - intros (? & ? & Hr). apply Hm; [done..|]. intros [[x y] [w h]] Hin. by apply Hr.
Qed.
Print Assumptions C83_bounding_box.

(** If overlapping finds nothing and no position is negative, packing_density is the area of the rectangles divided by
    that of the bounding box; it is positive and at most 1, and 1 exactly if the rectangles fill the box. *)
Theorem C83_density : forall sizes positions, length positions = length sizes -> sizes <> [] ->
  (forall x y w h, ((x, y), (w, h)) ∈ zip positions sizes -> (0 <= x)%Z /\ (0 <= y)%Z /\ (0 < w)%Z /\ (0 < h)%Z) ->
  overlapping sizes positions = Ok None ->
  exists W H q, bbox_size sizes positions = Ok (W, H) /\ packing_density sizes positions = Ok q /\
    (q * inject_Z (W * H) == inject_Z (foldr (fun wh s => wh.1 * wh.2 + s)%Z 0%Z sizes))%Q /\ (0 < q <= 1)%Q /\
    ((q == 1)%Q <-> forall ab, covers ((0, 0), (W, H))%Z ab -> exists r, r ∈ zip positions sizes /\ covers r ab).
Proof.
  intros sizes positions Hl Hn Hr HO.
  assert (Hs : forall r, r ∈ zip positions sizes -> sensible r) by (intros [[x y] [w h]] H; simpl; destruct (Hr _ _ _ _ H); tauto).
  assert (HC : forall i j, ~ clash sizes positions i j).
  { destruct (overlapping_spec sizes positions Hl Hs) as [[_ H]|(i & j & E & _)]; [done|congruence]. }
  assert (Hp : forall x y wh, ((x, y), wh) ∈ zip positions sizes -> (0 <= x)%Z /\ (0 <= y)%Z).
  { intros x y [w h] H. destruct (Hr _ _ _ _ H) as (? & ? & _). done. }
  destruct (density_spec sizes positions Hl Hs Hp Hn HC) as (W & H & q & E & _ & Eq & Ha & Hq & Hf).
  exists W, H, q. split; [done|]. split; [done|]. split; [|done]. rewrite Ha.
  replace (foldr _ _ _) with (area sizes); [done|]. clear. induction sizes as [|wh l IH]; [done|].
  simpl. rewrite <- IH. unfold area at 1. simpl. rewrite area_acc. lia.
Qed.
Print Assumptions C83_density.
(** Rectangles at negative positions are outside the box: two squares of which one is at (-1, 0) have density 2. *)
Theorem C83_negative_position_refuted : exists sizes positions q, length positions = length sizes /\
  (forall r, r ∈ zip positions sizes -> sensible r) /\ overlapping sizes positions = Ok None /\
  packing_density sizes positions = Ok q /\ (q == 2)%Q.
Proof.
  exists [(1, 1); (1, 1)]%Z, [(-1, 0); (0, 0)]%Z, (2 # 1)%Q. split; [done|]. split; [|vm_compute; auto].
  intros r H. simpl in H. repeat (apply elem_of_cons in H as [->|H]); [simpl; lia..|inversion H].
Qed.
Print Assumptions C83_negative_position_refuted.

(** the examples of the documentation of rpack, and two squares that share a corner *)
Example C83_doc : let sizes := [(58, 206); (231, 176); (35, 113); (46, 109)]%Z in
  let positions := [(0, 0); (58, 0); (289, 0); (289, 113)]%Z in
  overlapping sizes positions = Ok None /\ bbox_size sizes positions = Ok (335, 222)%Z.
Proof. vm_compute. auto. Qed.
Example C83_squares : overlapping [(10, 10); (10, 10)]%Z [(0, 0); (10, 10)]%Z = Ok None /\
  overlapping [(10, 10); (10, 10)]%Z [(0, 0); (5, 5)]%Z = Ok (Some (0, 1)).
Proof. vm_compute. auto. Qed.
Example C83_later_pair : overlapping [(2, 2); (2, 2); (2, 2)]%Z [(0, 0); (5, 5); (6, 4)]%Z = Ok (Some (1, 2)).
Proof. vm_compute. auto. Qed.
