(** Packing of rectangles: C84. *)
From Coq Require Import ZArith Lia.
From stdpp Require Import base list numbers list_numbers.
From Verif Require Import GridModel SpecLayoutGen SpecRpack GridProofs GridProofs2.

Lemma flip_overlap (b : bool) p s p' s' : overlap (flip b p, flip b s) (flip b p', flip b s') <-> overlap (p, s) (p', s').
Proof.
  destruct b; [|done]. destruct p as [x y], s as [w h], p' as [x' y'], s' as [w' h']. unfold overlap, covers, flip. simpl.
  split; intros [[a c] ?]; exists (c, a); simpl in *; tauto.
Qed.
Lemma flip_flip b p : flip b (flip b p) = p.
Proof. by destruct b, p. Qed.

(** C84.  Whatever box, order and rotation the search of rpack.pack chooses, and whatever the rectangles are: if places are
    returned, there is one for each rectangle, all rectangles are in the box and no two of them overlap. *)
Theorem C84_packed_rectangles_are_apart_partial : forall order rotated W H sizes ps,
  order ≡ₚ seq 0 (length sizes) -> (0 < W)%Z -> (0 < H)%Z -> pack_in order rotated W H sizes = Some ps ->
  length ps = length sizes /\
  (forall x y w h, ((x, y), (w, h)) ∈ zip ps sizes -> (0 < w)%Z /\ (0 < h)%Z /\ (0 <= x)%Z /\ (0 <= y)%Z /\
     if rotated then (x + w <= H)%Z /\ (y + h <= W)%Z else (x + w <= W)%Z /\ (y + h <= H)%Z) /\
  forall i j r r', i <> j -> zip ps sizes !! i = Some r -> zip ps sizes !! j = Some r' -> apart r r' /\ ~ overlap r r'.
Proof.
  intros order b W H sizes ps HO HW HH. unfold pack_in. destruct (existsb _ _) eqn:Eb; [done|].
  assert (Hpos : forall w h, (w, h) ∈ sizes -> (0 < w)%Z /\ (0 < h)%Z).
  { intros w h Hi. destruct (decide ((0 < w)%Z /\ (0 < h)%Z)) as [|Hn]; [done|]. exfalso.
    assert (E : existsb (fun wh => (wh.1 <=? 0)%Z || (wh.2 <=? 0)%Z) sizes = true); [|congruence].
    apply existsb_exists. exists (w, h). split; [by apply elem_of_list_In|]. simpl. apply orb_true_iff. rewrite !Z.leb_le. lia. }
  destruct (mapM _ order) as [rs|] eqn:Ers; [|done]. apply mapM_Some in Ers.
  destruct (grid_pack W H (flip b <$> rs)) as [qs|] eqn:Eg; [|done]. intros Eps. apply mapM_Some in Eps.
  assert (Lrs := Forall2_length _ _ _ Ers). assert (Lps := Forall2_length _ _ _ Eps). rewrite seq_length in Lps.
  destruct (grid_pack_spec W H (flip b <$> rs) qs HW HH) as (G1 & G2 & G3).
  { intros w h Hi. apply elem_of_list_fmap in Hi as ([w0 h0] & E & [k Hk]%elem_of_list_lookup).
    destruct (Forall2_lookup_r _ _ _ _ _ Ers Hk) as (i & _ & Hi). apply elem_of_list_lookup_2 in Hi.
    destruct (Hpos _ _ Hi). destruct b; simpl in E; simplify_eq; done. }
  { done. }
  rewrite fmap_length in G1.
  assert (HN : NoDup order) by (rewrite HO; apply NoDup_seq).
  (* the rectangle [i] is the [k]-th in the grid *)
  assert (K : forall i p s, zip ps sizes !! i = Some (p, s) -> exists k, order !! k = Some i /\ zip qs (flip b <$> rs) !! k = Some (flip b p, flip b s)).
  { intros i p s Hi. apply lookup_zip_with_Some in Hi as (p0 & s0 & E & Hp & Hs). injection E as <- <-.
    destruct (Forall2_lookup_r _ _ _ _ _ Eps Hp) as (i' & Hi' & Ef). apply lookup_seq in Hi' as [-> _]. simpl in Ef.
    destruct (list_find _ _) as [[k [i' q]]|] eqn:El; [|done]. apply list_find_Some in El as (Hk & Hii & _). simpl in Hii. subst i'.
    injection Ef as <-. apply lookup_zip_with_Some in Hk as (? & ? & E & Hk & Hq). injection E as <- <-.
    exists k. split; [done|]. apply lookup_zip_with_Some. exists q, (flip b s). rewrite flip_flip. split; [done|]. split; [done|].
    destruct (Forall2_lookup_l _ _ _ _ _ Ers Hk) as (s' & Hs' & E'). rewrite list_lookup_fmap, Hs'. simpl.
    rewrite Hs in E'. by injection E' as <-. }
  split; [done|]. split.
  - intros x y w h [i Hi]%elem_of_list_lookup. destruct (K _ _ _ Hi) as (k & _ & Hk). apply elem_of_list_lookup_2 in Hk.
    apply lookup_zip_with_Some in Hi as (? & ? & E & _ & Hs). injection E as <- <-. apply elem_of_list_lookup_2 in Hs.
    destruct (Hpos _ _ Hs). destruct b; simpl in Hk; destruct (G2 _ _ _ _ Hk) as (? & ? & ? & ?); auto 8.
  - intros i j [p s] [p' s'] Hn Hi Hj. destruct (K _ _ _ Hi) as (k & Hk1 & Hk). destruct (K _ _ _ Hj) as (k' & Hk1' & Hk').
    assert (Ho : ~ overlap (p, s) (p', s')).
    { rewrite <- (flip_overlap b). apply (G3 k k'); [|done|done]. intros ->. congruence. }
    split; [|done]. apply lookup_zip_with_Some in Hi as (? & ? & E & _ & Hs). injection E as <- <-.
    apply lookup_zip_with_Some in Hj as (? & ? & E & _ & Hs'). injection E as <- <-.
    destruct p as [x y], s as [w h], p' as [x' y'], s' as [w' h'].
    apply elem_of_list_lookup_2, Hpos in Hs. apply elem_of_list_lookup_2, Hpos in Hs'. unfold apart.
    destruct (decide (x + w <= x' \/ x' + w' <= x \/ y + h <= y' \/ y' + h' <= y)%Z) as [|Hna]; [done|]. exfalso. apply Ho.
    exists (Z.max x x', Z.max y y'). unfold covers. simpl. lia.
Qed.
Print Assumptions C84_packed_rectangles_are_apart_partial.

(** A rectangle gets the first free place in the leftmost column where its first row is free as well; the
    places for the example of the documentation of rpack, and a grid in which rectangles are passed over *)
Example C84_doc : pack_in [0; 1; 2; 3] false 335 222 [(58, 206); (231, 176); (35, 113); (46, 109)]%Z
  = Some [(0, 0); (58, 0); (289, 0); (289, 113)]%Z.
Proof. vm_compute. done. Qed.
Example C84_jumps : pack_in [7; 0; 1; 2; 3; 4; 5; 6] true 7 6 [(3,3);(2,2);(2,2);(1,4);(1,1);(1,1);(1,2);(3,2)]%Z
  = Some [(3, 0); (0, 2); (2, 3); (4, 3); (2, 2); (5, 3); (0, 4); (0, 0)]%Z.
Proof. vm_compute. done. Qed.
(** there is no place in a box that is too small, and none for a rectangle without area *)
Example C84_too_small : pack_in [0; 1] false 3 3 [(2, 2); (2, 2)]%Z = None /\ pack_in [0] false 3 3 [(2, 0)]%Z = None.
Proof. vm_compute. done. Qed.
