(** The arithmetic of layouts. *)
From Coq Require Import QArith Qabs Qminmax Lqa Lia.
From stdpp Require Import base list numbers gmap.
From Verif Require Import Base NxModel PyCacheModel LayoutModel SpecLayout.

Ltac q2 := unfold Qdiv in *; change (/ 2)%Q with (1 # 2)%Q in *; lra.

Lemma fold_ext_lookup (f : Q -> Q -> Q) (L : list (list Q)) : forall r d, length r = d -> (forall q, q ∈ L -> length q = d) ->
  length (foldl (zip_with f) r L) = d /\
  forall i x, r !! i = Some x -> exists l, foldl (zip_with f) r L !! i = Some (foldl f x l) /\ Forall2 (fun q y => q !! i = Some y) L l.
Proof.
  induction L as [|q L IH]; intros r d Hr HL; cbn [foldl].
  - split; [done|]. intros i x Hx. exists []. split; [done|constructor].
  - assert (Hq : length q = d) by (apply HL; left).
    destruct (IH (zip_with f r q) d) as [H1 H2]; [rewrite zip_with_length; lia|intros; apply HL; by right|].
    split; [done|]. intros i x Hx. destruct (lookup_lt_is_Some_2 q i) as [y Hy]; [apply lookup_lt_Some in Hx; lia|].
    destruct (H2 i (f x y)) as (l & Hl & HF). { by rewrite lookup_zip_with, Hx; cbn; rewrite Hy. }
    exists (y :: l). split; [done|by constructor].
Qed.
Lemma fold_min_spec l : forall x, foldl Qmin x l ∈ x :: l /\ forall y, y ∈ x :: l -> (foldl Qmin x l <= y)%Q.
Proof.
  induction l as [|z l IH]; intros x; cbn [foldl].
  - split; [left|]. intros y ->%elem_of_list_singleton. lra.
  - destruct (IH (Qmin x z)) as [H1 H2]. pose proof (H2 _ ltac:(left)) as H3.
    assert (Hc : Qmin x z = x \/ Qmin x z = z) by (unfold Qmin, GenericMinMax.gmin; destruct (x ?= z)%Q; auto).
    pose proof (Q.le_min_l x z). pose proof (Q.le_min_r x z). split.
    + apply elem_of_cons in H1 as [H1|H1]; [|by do 2 right]. rewrite H1. destruct Hc as [->| ->]; [left|right; left].
    + intros y [->|[->|Hy]%elem_of_cons]%elem_of_cons; [lra|lra|]. apply H2. by right.
Qed.
Lemma fold_max_spec l : forall x, foldl Qmax x l ∈ x :: l /\ forall y, y ∈ x :: l -> (y <= foldl Qmax x l)%Q.
Proof.
  induction l as [|z l IH]; intros x; cbn [foldl].
  - split; [left|]. intros y ->%elem_of_list_singleton. lra.
  - destruct (IH (Qmax x z)) as [H1 H2]. pose proof (H2 _ ltac:(left)) as H3.
    assert (Hc : Qmax x z = x \/ Qmax x z = z) by (unfold Qmax, GenericMinMax.gmax; destruct (x ?= z)%Q; auto).
    pose proof (Q.le_max_l x z). pose proof (Q.le_max_r x z). split.
    + apply elem_of_cons in H1 as [H1|H1]; [|by do 2 right]. rewrite H1. destruct Hc as [->| ->]; [left|right; left].
    + intros y [->|[->|Hy]%elem_of_cons]%elem_of_cons; [lra|lra|]. apply H2. by right.
Qed.

Section box.
Context (L : list (list Q)) (d : nat) (HR : rectangular L d).
Lemma row_lookup r i : r ∈ L -> i < d -> exists x, r !! i = Some x.
Proof using HR. intros Hr Hi. apply lookup_lt_is_Some_2. by rewrite (proj2 HR). Qed.
Lemma layout_dim_ok : layout_dim L = d.
Proof using HR. destruct HR as [H1 H2]. destruct L as [|r L']; [done|]. apply H2. left. Qed.
Lemma center_extent : length (layout_center L) = d /\ forall i, i < d -> exists lo hi, extent L i lo hi /\ layout_center L !! i = Some ((lo + hi) / 2)%Q.
Proof using HR.
  destruct HR as [H1 H2]. destruct L as [|r L']; [done|]. unfold layout_center.
  assert (Hr : length r = d) by (apply H2; left). assert (HL : forall q, q ∈ L' -> length q = d) by (intros; apply H2; by right).
  destruct (fold_ext_lookup Qmin L' r d Hr HL) as [A1 A2]. destruct (fold_ext_lookup Qmax L' r d Hr HL) as [B1 B2]. split; [rewrite zip_with_length; lia|].
  intros i Hi. destruct (lookup_lt_is_Some_2 r i ltac:(lia)) as [x Hx]. destruct (A2 i x Hx) as (l & Hl & HF). destruct (B2 i x Hx) as (l' & Hl' & HF').
  assert (l' = l) as ->. { clear -HF HF'. revert l' HF'. induction HF as [|q y L' l Hq HF IH]; intros l' HF'; inversion HF'; subst; [done|]. f_equal; [congruence|auto]. }
  exists (foldl Qmin x l), (foldl Qmax x l). split; [|by rewrite lookup_zip_with, Hl; cbn; rewrite Hl'].
  destruct (fold_min_spec l x) as [M1 M2]. destruct (fold_max_spec l x) as [N1 N2].
  assert (Hin : forall y, y ∈ x :: l <-> exists q, q ∈ r :: L' /\ q !! i = Some y).
  { intros y. split.
    - intros [->|Hy]%elem_of_cons; [exists r; split; [left|done]|]. apply elem_of_list_lookup in Hy as [k Hk].
      destruct (Forall2_lookup_r _ _ _ _ _ HF Hk) as (q & Hq & E). exists q. split; [right; by eapply elem_of_list_lookup_2|done].
    - intros (q & [->|Hq]%elem_of_cons & E); [rewrite Hx in E; injection E as <-; left|]. apply elem_of_list_lookup in Hq as [k Hk].
      destruct (Forall2_lookup_l _ _ _ _ _ HF Hk) as (y' & Hy & E'). rewrite E in E'. injection E' as <-. right. by eapply elem_of_list_lookup_2. }
  split; [by apply Hin|]. split; [by apply Hin|]. intros q y Hq Hy. assert (y ∈ x :: l) by (apply Hin; eauto). split; [by apply M2|by apply N2].
Qed.
Lemma extent_unique i lo hi lo' hi' : extent L i lo hi -> extent L i lo' hi' -> (lo == lo' /\ hi == hi')%Q.
Proof.
  intros ((r1 & R1 & E1) & (r2 & R2 & E2) & H) ((r3 & R3 & E3) & (r4 & R4 & E4) & H').
  pose proof (H _ _ R3 E3). pose proof (H _ _ R4 E4). pose proof (H' _ _ R1 E1). pose proof (H' _ _ R2 E2). split; lra.
Qed.
Lemma center_ok : box_center L d (layout_center L).
Proof using HR.
  destruct center_extent as [H1 H2]. split; [done|]. intros i x Hx. destruct (H2 i) as (lo & hi & HE & E); [apply lookup_lt_Some in Hx; lia|].
  rewrite E in Hx. injection Hx as <-. exists lo, hi. split; [done|reflexivity].
Qed.
Lemma center_unique c i x : box_center L d c -> c !! i = Some x -> exists y, layout_center L !! i = Some y /\ (x == y)%Q.
Proof using HR.
  intros [H1 H2] Hx. destruct (H2 i x Hx) as (lo & hi & HE & E). destruct center_extent as [A1 A2].
  destruct (A2 i) as (lo' & hi' & HE' & E'); [apply lookup_lt_Some in Hx; lia|]. destruct (extent_unique _ _ _ _ _ HE HE') as [F1 F2].
  eexists. split; [exact E'|]. rewrite E, F1, F2. reflexivity.
Qed.
Lemma scale_abs : (forall r i x c, r ∈ L -> r !! i = Some x -> layout_center L !! i = Some c -> (Qabs (x - c) <= layout_scale L)%Q) /\
  (0 <= layout_scale L)%Q /\
  ((layout_scale L == 0)%Q \/ exists r i x c, r ∈ L /\ r !! i = Some x /\ layout_center L !! i = Some c /\ (Qabs (x - c) == layout_scale L)%Q).
Proof.
  unfold layout_scale. set (l := r ← L; zip_with (fun x c => Qabs (x - c)) r (layout_center L)). destruct (fold_max_spec l 0%Q) as [H1 H2]. split; [|split].
  - intros r i x c Hr Hx Hc. apply H2. right. apply elem_of_list_bind. exists r. split; [|done]. apply elem_of_list_lookup. exists i.
    rewrite lookup_zip_with, Hx. cbn. by rewrite Hc.
  - apply H2. left.
  - apply elem_of_cons in H1 as [H1|H1]; [left; rewrite H1; reflexivity|right]. remember (foldl Qmax 0%Q l) as s eqn:Es. clear Es. unfold l in H1.
    apply elem_of_list_bind in H1 as (r & Hr & HL). apply elem_of_list_lookup in Hr as [i Hi]. rewrite lookup_zip_with in Hi.
    apply bind_Some in Hi as (x & Hx & Hi). apply bind_Some in Hi as (c & Hc & [= <-]). exists r, i, x, c. split; [done|]. split; [done|]. split; [done|reflexivity].
Qed.
Lemma scale_ok : 0 < d -> box_scale L d (layout_scale L).
Proof using HR.
  intros Hd. destruct scale_abs as (A1 & A2 & A3). destruct center_extent as [C1 C2].
  assert (Hall : forall i lo hi, i < d -> extent L i lo hi -> ((hi - lo) / 2 <= layout_scale L)%Q).
  { intros i lo hi Hi HE. destruct (C2 i Hi) as (lo' & hi' & HE' & Hc). destruct (extent_unique _ _ _ _ _ HE HE') as [F1 F2].
    destruct HE' as (_ & (r & Hr & Hx) & _). pose proof (A1 r i hi' _ Hr Hx Hc) as H. pose proof (Qle_Qabs (hi' - (lo' + hi') / 2)). q2. }
  split; [done|]. destruct A3 as [A3|(r & i & x & c & Hr & Hx & Hc & E)].
  - destruct (C2 0 Hd) as (lo & hi & HE & _). exists 0, lo, hi. split; [done|]. split; [done|]. pose proof (Hall 0 lo hi Hd HE).
    destruct HE as (_ & (r & Hr & Hx) & H'). pose proof (H' r hi Hr Hx). q2.
  - assert (Hi : i < d). { apply lookup_lt_Some in Hc. lia. } destruct (C2 i Hi) as (lo & hi & HE & Hc'). rewrite Hc in Hc'. injection Hc' as ->.
    exists i, lo, hi. split; [done|]. split; [done|]. pose proof (Hall i lo hi Hi HE) as Hle. destruct HE as (_ & _ & H'). destruct (H' r x Hr Hx) as [B1 B2].
    assert (Qabs (x - (lo + hi) / 2) <= (hi - lo) / 2)%Q. { apply Qabs_Qle_condition. q2. } q2.
Qed.
End box.
Lemma scale_unique L d s s' : box_scale L d s -> box_scale L d s' -> (s == s')%Q.
Proof. intros (A & i & lo & hi & Hi & HE & E) (B & j & lo' & hi' & Hj & HE' & E'). pose proof (A j lo' hi' Hj HE'). pose proof (B i lo hi Hi HE). q2. Qed.

(** ** Moving a layout *)
Lemma moved_rows L L' a b d : moved L L' a b -> rectangular L d -> rectangular L' d.
Proof.
  intros HM [H1 H2]. split.
  - intros ->. apply Forall2_nil_inv_r in HM. done.
  - intros r Hr. apply elem_of_list_lookup in Hr as [k Hk]. destruct (Forall2_lookup_r _ _ _ _ _ HM Hk) as (r0 & Hr0 & E & _). rewrite <- E. apply H2. by eapply elem_of_list_lookup_2.
Qed.
Lemma moved_extent L L' a b d i lo hi : moved L L' a b -> rectangular L d -> (0 < a)%Q -> i < d -> extent L i lo hi ->
  exists lo' hi', extent L' i lo' hi' /\ (lo' == a * lo + b i)%Q /\ (hi' == a * hi + b i)%Q.
Proof.
  intros HM HR Ha Hi ((r1 & R1 & E1) & (r2 & R2 & E2) & H). pose proof (moved_rows _ _ _ _ _ HM HR) as HR'.
  assert (Hto : forall r x, r ∈ L -> r !! i = Some x -> exists r' x', r' ∈ L' /\ r' !! i = Some x' /\ (x' == a * x + b i)%Q).
  { intros r x Hr Hx. apply elem_of_list_lookup in Hr as [k Hk]. destruct (Forall2_lookup_l _ _ _ _ _ HM Hk) as (r' & Hr' & El & E).
    destruct (lookup_lt_is_Some_2 r' i) as [x' Hx']; [apply lookup_lt_Some in Hx; lia|]. exists r', x'. split; [by eapply elem_of_list_lookup_2|]. split; [done|by eapply E]. }
  destruct (Hto r1 lo R1 E1) as (r1' & lo' & R1' & E1' & El). destruct (Hto r2 hi R2 E2) as (r2' & hi' & R2' & E2' & Eh). exists lo', hi'. split; [|done].
  split; [eauto|]. split; [eauto|]. intros r' x' Hr' Hx'. apply elem_of_list_lookup in Hr' as [k Hk]. destruct (Forall2_lookup_r _ _ _ _ _ HM Hk) as (r & Hr & Elen & E).
  destruct (lookup_lt_is_Some_2 r i) as [x Hx]; [apply lookup_lt_Some in Hx'; lia|]. pose proof (E i x x' Hx Hx') as Ex.
  destruct (H r x ltac:(by eapply elem_of_list_lookup_2) Hx) as [B1 B2]. rewrite El, Eh, Ex. split; [|].
  - apply Qplus_le_compat; [|q2]. apply Qmult_le_l; q2.
  - apply Qplus_le_compat; [|q2]. apply Qmult_le_l; q2.
Qed.
Lemma moved_center L L' a b d c c' : moved L L' a b -> rectangular L d -> (0 < a)%Q -> box_center L d c -> length c' = d ->
  (forall i x x', c !! i = Some x -> c' !! i = Some x' -> (x' == a * x + b i)%Q) -> box_center L' d c'.
Proof.
  intros HM HR Ha [C1 C2] Hl Hc. split; [done|]. intros i x' Hx'. destruct (lookup_lt_is_Some_2 c i) as [x Hx]; [apply lookup_lt_Some in Hx'; lia|].
  destruct (C2 i x Hx) as (lo & hi & HE & E). destruct (moved_extent _ _ _ _ _ i lo hi HM HR Ha) as (lo' & hi' & HE' & E1 & E2); [apply lookup_lt_Some in Hx'; lia|done|].
  exists lo', hi'. split; [done|]. rewrite (Hc i x x' Hx Hx'), E, E1, E2. field.
Qed.
Lemma moved_scale L L' a b d s : moved L L' a b -> rectangular L d -> (0 < a)%Q -> box_scale L d s -> box_scale L' d (a * s).
Proof.
  intros HM HR Ha (A & i & lo & hi & Hi & HE & E). split.
  - intros j lo' hi' Hj HE'. destruct (center_extent L d HR) as [_ C2]. destruct (C2 j Hj) as (lo0 & hi0 & HE0 & _).
    destruct (moved_extent _ _ _ _ _ j lo0 hi0 HM HR Ha Hj HE0) as (lo1 & hi1 & HE1 & E1 & E2).
    destruct (extent_unique _ _ _ _ _ _ HE' HE1) as [F1 F2]. rewrite F1, F2, E1, E2. pose proof (A j lo0 hi0 Hj HE0) as Hle.
    assert ((a * hi0 + b j - (a * lo0 + b j)) / 2 == a * ((hi0 - lo0) / 2))%Q as -> by field. apply Qmult_le_l; q2.
  - destruct (moved_extent _ _ _ _ _ i lo hi HM HR Ha Hi HE) as (lo' & hi' & HE' & E1 & E2). exists i, lo', hi'. split; [done|]. split; [done|].
    rewrite E1, E2, <- E. field.
Qed.

(** ** The setters *)
Lemma set_scale_moved L d s : rectangular L d -> (0 < s)%Q -> (0 < layout_scale L)%Q ->
  exists L', set_scale L s = Ok L' /\ moved L L' (s / layout_scale L) (fun i => (1 - s / layout_scale L) * default 0 (layout_center L !! i))%Q.
Proof.
  intros HR Hs H0. unfold set_scale. replace (Qeq_bool s 0) with false by (symmetry; apply not_true_is_false; intros H%Qeq_bool_iff; q2).
  replace (Qeq_bool (layout_scale L) 0) with false by (symmetry; apply not_true_is_false; intros H%Qeq_bool_iff; q2).
  eexists. split; [reflexivity|]. destruct (center_extent L d HR) as [C1 _]. apply Forall2_fmap_r, Forall_Forall2_diag, Forall_forall.
  intros r Hr. pose proof (proj2 HR r Hr) as Hlen. split; [rewrite !zip_with_length; lia|].
  intros i x x' Hx Hx'. destruct (lookup_lt_is_Some_2 (layout_center L) i) as [c Hc]; [apply lookup_lt_Some in Hx; lia|].
  rewrite !lookup_zip_with, Hx, Hc in Hx'. cbn in Hx'. injection Hx' as <-. rewrite Hc. cbn. set (k := (s / layout_scale L)%Q). ring.
Qed.
Lemma set_center_moved L d c : rectangular L d -> length c = d -> 0 < d ->
  exists L', set_center L c = Ok L' /\ moved L L' 1 (fun i => default 0 (c !! i) - default 0 (layout_center L !! i))%Q.
Proof.
  intros HR Hc Hd. unfold set_center. replace (length c =? 0) with false by (symmetry; apply Nat.eqb_neq; lia).
  rewrite (layout_dim_ok L d HR), Hc, Nat.eqb_refl. eexists. split; [reflexivity|]. destruct (center_extent L d HR) as [C1 _].
  apply Forall2_fmap_r, Forall_Forall2_diag, Forall_forall. intros r Hr. pose proof (proj2 HR r Hr) as Hlen. split; [rewrite !zip_with_length; lia|].
  intros i x x' Hx Hx'. destruct (lookup_lt_is_Some_2 (layout_center L) i) as [y Hy]; [apply lookup_lt_Some in Hx; lia|].
  destruct (lookup_lt_is_Some_2 c i) as [z Hz]; [apply lookup_lt_Some in Hx; lia|].
  rewrite !lookup_zip_with, Hx, Hy in Hx'. cbn in Hx'. rewrite Hz in Hx'. cbn in Hx'. injection Hx' as <-. rewrite Hy, Hz. cbn. ring.
Qed.
Lemma set_scale_ok L d s : rectangular L d -> 0 < d -> (0 < s)%Q -> (0 < layout_scale L)%Q ->
  exists L', set_scale L s = Ok L' /\ rectangular L' d /\ box_scale L' d s /\ (forall c, box_center L d c -> box_center L' d c) /\
    exists b, moved L L' (s / layout_scale L) b.
Proof.
  intros HR Hd Hs H0. destruct (set_scale_moved L d s HR Hs H0) as (L' & E & HM). exists L'. split; [done|].
  assert (Ha : (0 < s / layout_scale L)%Q) by (apply Qlt_shift_div_l; q2).
  split; [by eapply moved_rows|]. split; [|split].
  - pose proof (moved_scale _ _ _ _ _ _ HM HR Ha (scale_ok L d HR Hd)) as [A (i & lo & hi & Hi & HE & B)].
    assert (Es : (s / layout_scale L * layout_scale L == s)%Q) by (field; q2). split.
    + intros j lo' hi' Hj HE'. rewrite <- Es. by eapply A.
    + exists i, lo, hi. split; [done|]. split; [done|]. by rewrite <- Es.
  - intros c Hc. eapply moved_center; [done|done|done|exact Hc|apply Hc|]. intros i x x' Hx Hx'. rewrite Hx in Hx'. injection Hx' as <-.
    destruct (center_unique L d HR c i x Hc Hx) as (y & Hy & E'). rewrite Hy. cbn. rewrite <- E'. ring.
  - by eexists.
Qed.
Lemma set_center_ok L d c : rectangular L d -> 0 < d -> length c = d ->
  exists L', set_center L c = Ok L' /\ rectangular L' d /\ box_center L' d c /\ (forall s, box_scale L d s -> box_scale L' d s) /\ exists b, moved L L' 1 b.
Proof.
  intros HR Hd Hc. destruct (set_center_moved L d c HR Hc Hd) as (L' & E & HM). exists L'. split; [done|].
  split; [by eapply moved_rows|]. split; [|split].
  - eapply moved_center; [done|done|lra|exact (center_ok L d HR)|done|]. intros i x x' Hx Hx'. cbv beta. rewrite Hx, Hx'. cbn. ring.
  - intros s Hs. pose proof (moved_scale _ _ _ _ _ _ HM HR ltac:(q2) Hs) as [A (i & lo & hi & Hi & HE & B)]. split.
    + intros j lo' hi' Hj HE'. rewrite <- (Qmult_1_l s). by eapply A.
    + exists i, lo, hi. split; [done|]. split; [done|]. by rewrite <- (Qmult_1_l s).
  - by eexists.
Qed.
(** a scale of 0 means that all points are the same *)
Lemma scale_zero L d : rectangular L d -> (layout_scale L == 0)%Q <-> forall r r' i x x', r ∈ L -> r' ∈ L -> r !! i = Some x -> r' !! i = Some x' -> (x == x')%Q.
Proof.
  intros HR. destruct (scale_abs L) as (A1 & A2 & A3). destruct (center_extent L d HR) as [C1 C2]. split.
  - intros E r r' i x x' Hr Hr' Hx Hx'. assert (Hi : i < d). { apply lookup_lt_Some in Hx. rewrite (proj2 HR r Hr) in Hx. done. }
    destruct (C2 i Hi) as (lo & hi & _ & Hc). pose proof (A1 r i x _ Hr Hx Hc) as H1. pose proof (A1 r' i x' _ Hr' Hx' Hc) as H2.
    apply Qabs_Qle_condition in H1, H2. q2.
  - intros H. destruct A3 as [A3|(r & i & x & c & Hr & Hx & Hc & E)]; [done|]. assert (Hi : i < d). { apply lookup_lt_Some in Hx. rewrite (proj2 HR r Hr) in Hx. done. }
    destruct (C2 i Hi) as (lo & hi & ((r1 & R1 & E1) & (r2 & R2 & E2) & _) & Hc'). rewrite Hc in Hc'. injection Hc' as ->.
    pose proof (H r r1 i x lo Hr R1 Hx E1) as F1. pose proof (H r r2 i x hi Hr R2 Hx E2) as F2. rewrite <- E.
    assert (Z0 : (x - (lo + hi) / 2 == 0)%Q) by q2. rewrite Z0. reflexivity.
Qed.
Lemma set_dim_ok L d d' : rectangular L d -> 0 < d -> d <= d' ->
  exists L', set_dim L d' = Ok L' /\ rectangular L' d' /\ (forall s, box_scale L d s -> box_scale L' d' s) /\
    Forall2 (fun r r' => take d r' = r /\ forall x, x ∈ drop d r' -> x = 0%Q) L L'.
Proof.
  intros HR Hd Hle. unfold set_dim. rewrite (layout_dim_ok L d HR). replace (d' =? 0) with false by (symmetry; apply Nat.eqb_neq; lia).
  replace (d' <? d) with false by (symmetry; apply Nat.ltb_ge; lia). eexists. split; [reflexivity|]. split; [|split].
  - destruct HR as [H1 H2]. split; [by destruct L|]. intros r Hr. apply elem_of_list_fmap in Hr as (r0 & -> & Hr0). rewrite app_length, replicate_length, (H2 r0 Hr0). lia.
  - assert (Hin : forall i, i < d -> forall lo hi, extent ((fun r => r ++ replicate (d' - d) 0%Q) <$> L) i lo hi <-> extent L i lo hi).
    { intros i Hi lo hi. assert (Hlk : forall r, r ∈ L -> (r ++ replicate (d' - d) 0%Q) !! i = r !! i).
      { intros r Hr. apply lookup_app_l. by rewrite (proj2 HR r Hr). }
      unfold extent. split.
      - intros ((r1 & R1 & E1) & (r2 & R2 & E2) & H). apply elem_of_list_fmap in R1 as (q1 & -> & R1). apply elem_of_list_fmap in R2 as (q2 & -> & R2).
        rewrite Hlk in E1, E2 by done. split; [eauto|]. split; [eauto|]. intros r x Hr Hx. eapply H; [apply elem_of_list_fmap; eauto|by rewrite Hlk].
      - intros ((r1 & R1 & E1) & (r2 & R2 & E2) & H). split; [|split].
        + eexists. split; [apply elem_of_list_fmap; by exists r1|]. by rewrite Hlk.
        + eexists. split; [apply elem_of_list_fmap; by exists r2|]. by rewrite Hlk.
        + intros r x Hr Hx. apply elem_of_list_fmap in Hr as (q & -> & Hq). rewrite Hlk in Hx by done. by eapply H. }
    intros s (A & i & lo & hi & Hi & HE & E). split.
    + intros j lo' hi' Hj HE'. destruct (decide (j < d)) as [Hlt|Hge]; [eapply A; [done|by apply Hin]|].
      assert (Hz : forall r x, r ∈ ((fun r => r ++ replicate (d' - d) 0%Q) <$> L) -> r !! j = Some x -> x = 0%Q).
      { intros r x Hr Hx. apply elem_of_list_fmap in Hr as (q & -> & Hq). rewrite lookup_app_r in Hx by (rewrite (proj2 HR q Hq); lia). by apply lookup_replicate in Hx as [-> _]. }
      destruct HE' as ((r1 & R1 & E1) & (r2 & R2 & E2) & _). rewrite (Hz _ _ R1 E1), (Hz _ _ R2 E2).
      destruct HE as (_ & (r3 & R3 & E3) & H). pose proof (H _ _ R3 E3). q2.
    + exists i, lo, hi. split; [lia|]. split; [by apply Hin|done].
  - apply Forall2_fmap_r, Forall_Forall2_diag, Forall_forall. intros r Hr. unfold compose. rewrite take_app_alt, drop_app_alt by (by rewrite (proj2 HR r Hr)). split; [done|].
    intros x Hx. apply elem_of_replicate in Hx as [-> _]. done.
Qed.

(** ** The constructor and the scaling of a placement *)
Lemma moved_refl L : moved L L 1 (fun _ => 0%Q).
Proof. apply Forall_Forall2_diag, Forall_forall. intros r _. split; [done|]. intros i x x' Hx Hx'. rewrite Hx in Hx'. injection Hx' as <-. ring. Qed.
Lemma moved_trans L1 L2 L3 a a' b b' : moved L1 L2 a b -> moved L2 L3 a' b' -> moved L1 L3 (a' * a) (fun i => a' * b i + b' i)%Q.
Proof.
  intros H1. revert L3. induction H1 as [|r1 r2 L1 L2 [E1 F1] H1 IH]; intros L3 H2; inversion H2 as [|? r3 ? L3' [E2 F2] H3]; subst; constructor; [|by apply IH].
  split; [congruence|]. intros i x z Hx Hz. destruct (lookup_lt_is_Some_2 r2 i) as [y Hy]; [apply lookup_lt_Some in Hx; lia|].
  rewrite (F2 i y z Hy Hz), (F1 i x y Hx Hy). ring.
Qed.
Lemma moved_same L L' a b a' b' : (a == a')%Q -> (forall i, b i == b' i)%Q -> moved L L' a b -> moved L L' a' b'.
Proof. intros Ha Hb HM. eapply Forall2_impl; [exact HM|]. intros r r' [E F]. split; [done|]. intros i x x' Hx Hx'. rewrite (F i x x' Hx Hx'), Ha, Hb. reflexivity. Qed.
Lemma box_scale_eq L d s s' : (s == s')%Q -> box_scale L d s -> box_scale L d s'.
Proof. intros E (A & i & lo & hi & Hi & HE & F). split; [intros; rewrite <- E; by eapply A|]. exists i, lo, hi. split; [done|]. split; [done|]. by rewrite <- E. Qed.
Lemma set_dim_same L d : rectangular L d -> 0 < d -> set_dim L d = Ok L.
Proof.
  intros HR Hd. unfold set_dim. rewrite (layout_dim_ok L d HR). replace (d =? 0) with false by (symmetry; apply Nat.eqb_neq; lia). rewrite Nat.ltb_irrefl, Nat.sub_diag.
  f_equal. cbn. rewrite <- (list_fmap_id L) at 2. apply list_fmap_ext. intros _ r _. apply app_nil_r.
Qed.
Lemma set_scale_copy L d : rectangular L d -> 0 < d -> exists L', set_scale L (layout_scale L) = Ok L' /\ moved L L' 1 (fun _ => 0%Q).
Proof.
  intros HR Hd. destruct (scale_abs L) as (_ & A2 & _). destruct (Qeq_bool (layout_scale L) 0) eqn:E.
  - unfold set_scale. rewrite E. eexists. split; [reflexivity|apply moved_refl].
  - assert (H0 : (0 < layout_scale L)%Q). { apply Qle_lteq in A2 as [?|A2]; [done|]. apply not_true_iff_false in E. exfalso. apply E. apply Qeq_bool_iff. by rewrite A2. }
    destruct (set_scale_moved L d (layout_scale L) HR H0 H0) as (L' & E' & HM). exists L'. split; [done|].
    assert (E1 : (layout_scale L / layout_scale L == 1)%Q) by (field; lra). eapply moved_same; [| |exact HM]; [exact E1|]. intros i. cbv beta. rewrite E1. ring.
Qed.
Lemma set_center_copy L d : rectangular L d -> 0 < d -> exists L', set_center L (layout_center L) = Ok L' /\ moved L L' 1 (fun _ => 0%Q).
Proof.
  intros HR Hd. destruct (center_extent L d HR) as [C1 _]. destruct (set_center_moved L d (layout_center L) HR C1 Hd) as (L' & E' & HM). exists L'. split; [done|].
  eapply moved_same; [| |exact HM]; [reflexivity|]. intros i. cbv beta. ring.
Qed.
Lemma copy_ok L d : rectangular L d -> 0 < d -> exists L', new_layout L None None None = Ok L' /\ moved L L' 1 (fun _ => 0%Q).
Proof.
  intros HR Hd. unfold new_layout. rewrite (layout_dim_ok L d HR), (set_dim_same L d HR Hd). cbn [rbind].
  destruct (set_scale_copy L d HR Hd) as (L1 & -> & M1). cbn [rbind]. destruct (set_center_copy L1 d (moved_rows _ _ _ _ _ M1 HR) Hd) as (L2 & -> & M2).
  exists L2. split; [done|]. eapply moved_same; [| |exact (moved_trans _ _ _ _ _ _ _ M1 M2)]; [ring|]. intros i. cbv beta. ring.
Qed.
Lemma moved_scale_unit L L' b d s : moved L L' 1 b -> rectangular L d -> box_scale L d s -> box_scale L' d s.
Proof. intros HM HR Hs. eapply box_scale_eq; [|eapply moved_scale; [exact HM|done|lra|exact Hs]]. ring. Qed.
Lemma scale_pos L d s : rectangular L d -> 0 < d -> box_scale L d s -> (layout_scale L == s)%Q.
Proof. intros HR Hd Hs. eapply scale_unique; [by apply scale_ok|done]. Qed.
Lemma new_layout_ok L d d' (s : option Q) (c : option (list Q)) : rectangular L d -> 0 < d -> d <= d' ->
  (forall x, s = Some x -> (0 < x)%Q /\ (0 < layout_scale L)%Q) -> (forall x, c = Some x -> length x = d') ->
  exists L', new_layout L (Some d') s c = Ok L' /\ rectangular L' d' /\ (forall x, c = Some x -> box_center L' d' x) /\
    match s with Some x => box_scale L' d' x | None => forall x, box_scale L d x -> box_scale L' d' x end /\
    exists L0 a b, Forall2 (fun r r0 => take d r0 = r /\ forall x, x ∈ drop d r0 -> x = 0%Q) L L0 /\ (0 < a)%Q /\ moved L0 L' a b.
Proof.
  intros HR Hd Hle Hs Hc. unfold new_layout. destruct d' as [|d0]; [lia|]. set (d' := S d0) in *.
  destruct (set_dim_ok L d d' HR Hd Hle) as (L1 & -> & R1 & S1 & F1). cbn [rbind].
  assert (Hd' : 0 < d') by lia.
  assert (exists L2, set_scale L1 (match s with Some s => if Qeq_bool s 0 then layout_scale L1 else s | None => layout_scale L1 end) = Ok L2 /\ rectangular L2 d' /\
    match s with Some x => box_scale L2 d' x | None => forall x, box_scale L d x -> box_scale L2 d' x end /\
    exists a b, (0 < a)%Q /\ moved L1 L2 a b) as (L2 & -> & R2 & S2 & a2 & b2 & A2 & M2).
  { destruct s as [x|].
    - destruct (Hs x eq_refl) as [Hx H0]. replace (Qeq_bool x 0) with false by (symmetry; apply not_true_is_false; intros H%Qeq_bool_iff; lra).
      destruct (set_scale_ok L1 d' x R1 Hd' Hx) as (L2 & E2 & R2 & B2 & _ & b & M2).
      { rewrite (scale_pos L1 d' (layout_scale L) R1 Hd'); [done|]. apply S1. by apply scale_ok. }
      exists L2. split; [done|]. split; [done|]. split; [done|]. exists (x / layout_scale L1)%Q, b. split; [|done]. apply Qlt_shift_div_l; [|lra].
      rewrite (scale_pos L1 d' (layout_scale L) R1 Hd'); [done|]. apply S1. by apply scale_ok.
    - destruct (set_scale_copy L1 d' R1 Hd') as (L2 & E2 & M2). exists L2. split; [done|]. split; [by eapply moved_rows|]. split.
      + intros x Hx. eapply moved_scale_unit; [exact M2|done|]. by apply S1.
      + exists 1%Q, (fun _ => 0%Q). split; [lra|done]. }
  cbn [rbind]. destruct c as [x|].
  - destruct (set_center_ok L2 d' x R2 Hd' (Hc x eq_refl)) as (L3 & E3 & R3 & B3 & S3 & b3 & M3). exists L3. split; [done|]. split; [done|]. split; [by intros ? [= <-]|]. split.
    + destruct s as [y|]; [by apply S3|]. intros y Hy. apply S3. by apply S2.
    + exists L1, (1 * a2)%Q, (fun i => 1 * b2 i + b3 i)%Q. split; [done|]. split; [lra|]. exact (moved_trans _ _ _ _ _ _ _ M2 M3).
  - destruct (set_center_copy L2 d' R2 Hd') as (L3 & E3 & M3). exists L3. split; [done|]. split; [by eapply moved_rows|]. split; [done|]. split.
    + destruct s as [y|]; [eapply moved_scale_unit; [exact M3|done|exact S2]|]. intros y Hy. eapply moved_scale_unit; [exact M3|done|by apply S2].
    + exists L1, (1 * a2)%Q, (fun i => 1 * b2 i + 0)%Q. split; [done|]. split; [lra|]. exact (moved_trans _ _ _ _ _ _ _ M2 M3).
Qed.
Lemma placement_ok LS LT d s t (ratio : option Q) : rectangular LS d -> rectangular LT d -> 0 < d -> box_scale LS d s -> box_scale LT d t -> (0 < t)%Q ->
  (forall r, ratio = Some r -> (0 < r <= 1)%Q /\ (0 < s)%Q) ->
  exists LS' LT' a b, placement_layouts LS LT ratio = Ok (LS', LT') /\ moved LT LT' 1 (fun _ => 0%Q) /\ (0 < a)%Q /\ moved LS LS' a b /\
    exists s', box_scale LS' d s' /\ (s' <= t)%Q /\ ((t < s)%Q -> (s' == t)%Q) /\
      ((s <= t)%Q -> match ratio with Some r => s' == r * t | None => s' == s end)%Q.
Proof.
  intros HRS HRT Hd HS HT Ht Hr. unfold placement_layouts. destruct (copy_ok LS d HRS Hd) as (S1 & -> & MS). destruct (copy_ok LT d HRT Hd) as (T1 & -> & MT).
  pose proof (moved_rows _ _ _ _ _ MS HRS) as RS. pose proof (moved_rows _ _ _ _ _ MT HRT) as RT. cbn [rbind]. rewrite (layout_dim_ok _ _ RS), (layout_dim_ok _ _ RT), Nat.eqb_refl. cbn [negb].
  pose proof (scale_pos S1 d s RS Hd (moved_scale_unit _ _ _ _ _ MS HRS HS)) as ES. pose proof (scale_pos T1 d t RT Hd (moved_scale_unit _ _ _ _ _ MT HRT HT)) as ET.
  assert (Hset : forall x, (0 < x)%Q -> (0 < layout_scale S1)%Q -> exists L' a b, set_scale S1 x = Ok L' /\ (0 < a)%Q /\ moved LS L' a b /\ box_scale L' d x).
  { intros x Hx H0. destruct (set_scale_ok S1 d x RS Hd Hx H0) as (L' & E & _ & B & _ & b & M). exists L', (x / layout_scale S1 * 1)%Q. eexists. split; [done|].
    split; [rewrite Qmult_1_r; apply Qlt_shift_div_l; lra|]. split; [exact (moved_trans _ _ _ _ _ _ _ MS M)|done]. }
  destruct (Qle_bool (layout_scale S1) (layout_scale T1)) eqn:Ele; cbn [negb].
  - apply Qle_bool_iff in Ele. destruct ratio as [r|].
    + destruct (Hr r eq_refl) as [[Hr1 Hr2] Hs]. replace (Qeq_bool r 0) with false by (symmetry; apply not_true_is_false; intros H%Qeq_bool_iff; lra).
      destruct (Hset (r * layout_scale T1)%Q) as (L' & a & b & -> & Ha & M & B).
      { rewrite ET. apply Qmult_lt_0_compat; lra. } { lra. }
      cbn [rbind]. exists L', T1, a, b. split; [done|]. split; [done|]. split; [done|]. split; [done|]. exists (r * layout_scale T1)%Q. split; [done|].
      split; [rewrite ET; rewrite <- (Qmult_1_l t) at 2; apply Qmult_le_compat_r; lra|]. split; [lra|]. intros _. by rewrite ET.
    + cbn [rbind]. exists S1, T1, 1%Q, (fun _ => 0%Q). split; [done|]. split; [done|]. split; [lra|]. split; [done|]. exists s. split; [by eapply moved_scale_unit|]. split; [lra|]. split; [lra|]. intros _. reflexivity.
  - assert (Hgt : (layout_scale T1 < layout_scale S1)%Q). { apply Qnot_le_lt. intros H%Qle_bool_iff. congruence. }
    destruct (Hset (layout_scale T1)) as (L' & a & b & -> & Ha & M & B); [lra|lra|]. cbn [rbind]. exists L', T1, a, b. split; [done|]. split; [done|]. split; [done|]. split; [done|].
    exists t. split; [eapply box_scale_eq; [exact ET|done]|]. split; [lra|]. split; [lra|]. lra.
Qed.
