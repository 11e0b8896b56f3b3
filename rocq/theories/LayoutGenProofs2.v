(** Packed components do not overlap and keep their shape. *)
From Coq Require Import QArith Qabs Qminmax Qround Lqa Lia.
From stdpp Require Import base list numbers.
From Verif Require Import Base NxModel PyCacheModel LayoutModel LayoutGenModel SpecLayout SpecLayoutGen LayoutProofs3 LayoutGenProofs.

Lemma concat_elem {A} (x : A) ls : x ∈ concat ls <-> exists i l, ls !! i = Some l /\ x ∈ l.
Proof.
  rewrite elem_of_list_In, in_concat. split.
  - intros (l & Hl & Hx). apply elem_of_list_In, elem_of_list_lookup in Hl as [i Hi]. exists i, l. split; [done|by apply elem_of_list_In].
  - intros (i & l & Hi & Hx). exists l. split; [apply elem_of_list_In; by eapply elem_of_list_lookup_2|by apply elem_of_list_In].
Qed.
Lemma concat_index {A} (ls : list (list A)) : forall i j a b x, NoDup (concat ls) -> ls !! i = Some a -> ls !! j = Some b -> x ∈ a -> x ∈ b -> i = j.
Proof.
  induction ls as [|l ls IH]; intros i j a b x HN Hi Hj Ha Hb; [done|]. cbn in HN. apply NoDup_app in HN as (N1 & N2 & N3).
  destruct i as [|i], j as [|j]; cbn in Hi, Hj.
  - done.
  - injection Hi as ->. exfalso. apply (N2 x Ha). apply concat_elem. eauto.
  - injection Hj as ->. exfalso. apply (N2 x Hb). apply concat_elem. eauto.
  - f_equal. by eapply IH.
Qed.
Lemma fst_index {A} (l : list (nat * A)) i j v p q : NoDup l.*1 -> l !! i = Some (v, p) -> l !! j = Some (v, q) -> i = j.
Proof. intros HN Hi Hj. eapply (NoDup_lookup l.*1 i j v HN); rewrite list_lookup_fmap; [by rewrite Hi|by rewrite Hj]. Qed.
Lemma sqdist2 a b a' b' : (sqdist [a; b] [a'; b'] == (a - a') * (a - a') + (b - b') * (b - b'))%Q.
Proof. cbn. ring. Qed.

Section pack.
Context (lay : list nat -> list (nat * list Q)) (turn : list (list Q) -> list (list Q)) (rpack : list (Z * Z) -> list (Z * Z)).
Context (Ht : rigid turn) (Hp : packs rpack).
Definition lays (c : list nat) : Prop := (lay c).*1 ≡ₚ c /\ forall p, p ∈ (lay c).*2 -> length p = 2.
Definition in_box (w h : Z) (p : list Q) : Prop := exists a b, p = [a; b] /\ (- (inject_Z w / 2) <= a <= inject_Z w / 2)%Q /\ (- (inject_Z h / 2) <= b <= inject_Z h / 2)%Q.
Definition same_shape (ps ps' : list (nat * list Q)) : Prop :=
  forall v w p q p' q', (v, p) ∈ ps -> (w, q) ∈ ps -> (v, p') ∈ ps' -> (w, q') ∈ ps' -> (sqdist p' q' == sqdist p q)%Q.

Lemma fit_box_ok ps : rectangular ps 2 -> exists ps' w h, fit_box ps = Ok (ps', (w, h)) /\ length ps' = length ps /\
  (forall p, p ∈ ps' -> in_box (Qceiling w) (Qceiling h) p) /\
  (flat ps <-> (Qceiling w <= 0 \/ Qceiling h <= 0)%Z) /\
  (forall i j p q p' q', ps !! i = Some p -> ps !! j = Some q -> ps' !! i = Some p' -> ps' !! j = Some q' -> (sqdist p' q' == sqdist p q)%Q).
Proof.
  intros HR. destruct (mins_maxs2 ps HR) as (x0 & y0 & x1 & y1 & E1 & E2 & Hx & Hy). unfold fit_box. rewrite E1, E2. eexists _, _, _. split; [reflexivity|].
  split; [by rewrite fmap_length|]. split.
  - intros p (q & -> & Hq)%elem_of_list_fmap. pose proof (proj2 HR q Hq) as Hl. destruct q as [|a [|b [|]]]; try done. cbn. eexists _, _. split; [reflexivity|].
    destruct Hx as (_ & _ & Hx). destruct Hy as (_ & _ & Hy). pose proof (Hx _ a Hq eq_refl). pose proof (Hy _ b Hq eq_refl).
    pose proof (Qle_ceiling (x1 - x0)). pose proof (Qle_ceiling (y1 - y0)).
    assert (D : forall z, (z / 2 == z * (1 # 2))%Q) by (intros; reflexivity). rewrite !D. split; lra.
  - split; [split|].
    { intros (k & x & x' & Hk & HE & Exx). assert (Hc0 : forall a b, (a == b)%Q -> (Qceiling (a - b) <= 0)%Z) by (intros a b Eab; rewrite Eab; setoid_replace (b - b)%Q with 0%Q by ring; done).
      destruct k as [|[|]]; [left|right|lia].
      - destruct (extent_unique _ _ _ _ _ _ HE Hx). apply Hc0. lra.
      - destruct (extent_unique _ _ _ _ _ _ HE Hy). apply Hc0. lra. }
    { assert (Hz : forall a b, (a <= b)%Q -> (Qceiling (b - a) <= 0)%Z -> (a == b)%Q).
      { intros a b Hab Hc. pose proof (Qle_ceiling (b - a)) as H1. assert (H2 : (inject_Z (Qceiling (b - a)) <= inject_Z 0)%Q) by (by rewrite <- Zle_Qle). change (inject_Z 0) with 0%Q in H2. lra. }
      assert (Lx : (x0 <= x1)%Q) by (destruct Hx as ((r & R1 & R2) & _ & Hx); by apply (Hx r x0)). assert (Ly : (y0 <= y1)%Q) by (destruct Hy as ((r & R1 & R2) & _ & Hy); by apply (Hy r y0)).
      intros [H|H]; [exists 0, x0, x1|exists 1, y0, y1]; (split; [lia|]; split; [done|]); by apply Hz. }
    intros i j p q p' q' Hi Hj Hi' Hj'. rewrite list_lookup_fmap in Hi', Hj'. rewrite Hi in Hi'. rewrite Hj in Hj'. cbn in Hi', Hj'. injection Hi' as <-. injection Hj' as <-.
    assert (Hlp : length p = 2) by (apply (proj2 HR); by eapply elem_of_list_lookup_2). assert (Hlq : length q = 2) by (apply (proj2 HR); by eapply elem_of_list_lookup_2).
    destruct p as [|a [|b [|]]]; try done. destruct q as [|a' [|b' [|]]]; try done. cbn [zip_with]. rewrite !sqdist2. ring.
Qed.

Lemma place_component_ok c : c <> [] -> NoDup c -> (2 < length c -> lays c) -> exists ps w h, place_component lay turn c = Ok (ps, (w, h)) /\
  ps.*1 ≡ₚ c /\ (forall p, p ∈ ps.*2 -> in_box w h p) /\ ((w <= 0 \/ h <= 0)%Z <-> 2 < length c /\ flat (turn (lay c).*2)) /\ (2 < length c -> same_shape (lay c) ps) /\
  (length c = 2 -> forall v w p q, v <> w -> (v, p) ∈ ps -> (w, q) ∈ ps -> (sqdist p q == 1)%Q).
Proof.
  intros H0 HN HL. destruct c as [|v1 [|v2 [|v3 c]]]; [done| | |].
  - exists [(v1, [0; 0]%Q)], 1%Z, 1%Z. split; [done|]. split; [done|]. split; [|split; [cbn [length]; split; intros ?; lia|split; [cbn [length]; lia|cbn [length]; lia]]].
    intros p ->%elem_of_list_singleton. exists 0%Q, 0%Q. split; [done|]. cbn. unfold Qle, Qdiv; cbn. lia.
  - exists [(v1, [- (1 # 2); 0]%Q); (v2, [1 # 2; 0]%Q)], 2%Z, 1%Z. split; [done|]. split; [done|]. split; [|split; [cbn [length]; split; intros ?; lia|split; [cbn [length]; lia|]]].
    + intros p Hp'. cbn in Hp'. apply elem_of_cons in Hp' as [->| ->%elem_of_list_singleton]; eexists _, _; (split; [reflexivity|]); unfold Qle, Qdiv; cbn; lia.
    + intros _ v w p q Hne [A|A%elem_of_list_singleton]%elem_of_cons [B|B%elem_of_list_singleton]%elem_of_cons; simplify_eq; reflexivity.
  - set (k := v1 :: v2 :: v3 :: c) in *. assert (Hk : 2 < length k) by (cbn; lia). destruct (HL Hk) as [L1 L2].
    destruct (Ht (lay k).*2 L2) as (T1 & T2 & T3).
    assert (Hlen : length (lay k) = length k) by (rewrite <- (fmap_length fst), L1; done).
    assert (HR : rectangular (turn (lay k).*2) 2). { split; [|done]. intros E. rewrite E in T1. rewrite fmap_length in T1. cbn [length] in T1. lia. }
    destruct (fit_box_ok _ HR) as (ps & w & h & E & F1 & F2 & F4 & F3).
    assert (Hz : length ((lay k).*1) = length ps) by (rewrite F1, T1, !fmap_length; done).
    exists (zip (lay k).*1 ps), (Qceiling w), (Qceiling h).
    split. { change (place_component lay turn k) with (let! r := fit_box (turn (lay k).*2) in Ok (zip (lay k).*1 r.1, (Qceiling r.2.1, Qceiling r.2.2))). rewrite E. done. }
    split; [by rewrite fst_zip by lia|]. split; [by rewrite snd_zip by lia|]. split; [rewrite F4; tauto|]. split; [|intros; lia].
    intros _ u u' p q p' q' Hu Hu' Hv Hv'.
    assert (HN1 : NoDup (lay k).*1) by (by rewrite L1).
    assert (HN2 : NoDup (zip (lay k).*1 ps).*1) by (by rewrite fst_zip by lia).
    assert (Hix : forall a x y, (a, x) ∈ lay k -> (a, y) ∈ zip (lay k).*1 ps -> exists i, (lay k).*2 !! i = Some x /\ ps !! i = Some y).
    { intros a x y Hx Hy. apply elem_of_list_lookup in Hx as [i Hi]. apply elem_of_list_lookup in Hy as [j Hj]. apply lookup_zip_with_Some in Hj as (a' & y' & Eq & Hj1 & Hj2). injection Eq as <- <-.
      assert (j = i) as ->. { eapply (NoDup_lookup _ _ _ a HN1); [done|]. rewrite list_lookup_fmap, Hi. done. }
      exists i. split; [by rewrite list_lookup_fmap, Hi|done]. }
    destruct (Hix u p p' Hu Hv) as (i & I1 & I2). destruct (Hix u' q q' Hu' Hv') as (j & J1 & J2).
    destruct (lookup_lt_is_Some_2 (turn (lay k).*2) i) as [tp Htp]; [rewrite T1; by eapply lookup_lt_Some|]. destruct (lookup_lt_is_Some_2 (turn (lay k).*2) j) as [tq Htq]; [rewrite T1; by eapply lookup_lt_Some|].
    rewrite (F3 i j tp tq p' q' Htp Htq I2 J2). by eapply T3.
Qed.

Definition placed (c : list nat) (b : list (nat * list Q) * (Z * Z)) : Prop :=
  b.1.*1 ≡ₚ c /\ (forall p, p ∈ b.1.*2 -> in_box b.2.1 b.2.2 p) /\ ((b.2.1 <= 0 \/ b.2.2 <= 0)%Z <-> 2 < length c /\ flat (turn (lay c).*2)) /\ (2 < length c -> same_shape (lay c) b.1) /\
  (length c = 2 -> forall v w p q, v <> w -> (v, p) ∈ b.1 -> (w, q) ∈ b.1 -> (sqdist p q == 1)%Q).
Lemma place_components_ok comps : (forall c, c ∈ comps -> c <> [] /\ NoDup c /\ (2 < length c -> lays c)) ->
  exists bs, place_components lay turn comps = Ok bs /\ Forall2 placed comps bs.
Proof.
  induction comps as [|c comps IH]; intros H; [exists []; split; [done|constructor]|]. destruct (H c ltac:(left)) as (H1 & H2 & H3).
  destruct (place_component_ok c H1 H2 H3) as (ps & w & h & E & HP). destruct IH as (bs & Ebs & HF); [intros; apply H; by right|].
  exists ((ps, (w, h)) :: bs). cbn [place_components]. rewrite E. cbn [rbind]. rewrite Ebs. split; [done|]. by constructor.
Qed.

Definition shifted (rp : Z * Z) (wh : Z * Z) (p : list Q) : list Q :=
  zip_with Qplus (zip_with Qplus p [inject_Z rp.1; inject_Z rp.2]) [(inject_Z wh.1 / 2)%Q; (inject_Z wh.2 / 2)%Q].
Lemma shift_box_elem rp b v p' : (v, p') ∈ shift_box rp b <-> exists p, (v, p) ∈ b.1 /\ p' = shifted rp b.2 p.
Proof.
  unfold shift_box. rewrite elem_of_list_fmap. split.
  - intros ([u p] & E & H). injection E as -> ->. eauto.
  - intros (p & H & ->). exists (v, p). done.
Qed.
Lemma shifted_inside rp w h p : in_box w h p -> inside (shifted rp (w, h) p) (rp, (w, h)).
Proof.
  intros (a & b & -> & H1 & H2). destruct rp as [x y]. cbn. eexists _, _. split; [reflexivity|]. rewrite !inject_Z_plus.
  assert (D : forall z, (z / 2 == z * (1 # 2))%Q) by (intros; reflexivity). rewrite !D in *. split; lra.
Qed.
Lemma shifted_dist rp wh w h p q : in_box w h p -> in_box w h q -> (sqdist (shifted rp wh p) (shifted rp wh q) == sqdist p q)%Q.
Proof. intros (a & b & -> & _) (a' & b' & -> & _). unfold shifted. cbn [zip_with]. rewrite !sqdist2. ring. Qed.

Lemma pack_ok comps : NoDup (concat comps) -> (forall c, c ∈ comps -> c <> [] /\ (2 < length c -> lays c /\ ~ flat (turn (lay c).*2))) ->
  exists L rects, pack_components lay turn rpack comps None = Ok L /\ L.*1 ≡ₚ concat comps /\ length rects = length comps /\
    (forall i j r r', i <> j -> rects !! i = Some r -> rects !! j = Some r' -> apart r r') /\
    (forall i c r v p, comps !! i = Some c -> rects !! i = Some r -> v ∈ c -> (v, p) ∈ L -> inside p r) /\
    (forall c, c ∈ comps -> 2 < length c -> same_shape (lay c) L) /\
    (forall c v w p q, c ∈ comps -> length c = 2 -> v ∈ c -> w ∈ c -> v <> w -> (v, p) ∈ L -> (w, q) ∈ L -> (sqdist p q == 1)%Q).
Proof.
  intros HN HC.
  assert (HNc : forall c, c ∈ comps -> NoDup c).
  { clear -HN. induction comps as [|c comps IH]; intros k Hk; [by apply elem_of_nil in Hk|]. cbn in HN. apply NoDup_app in HN as (N1 & N2 & N3). apply elem_of_cons in Hk as [->|Hk]; [done|by apply IH]. }
  destruct (place_components_ok comps) as (bs & Ebs & HF). { intros c Hc. destruct (HC c Hc) as [? H3]. split; [done|]. split; [auto|]. intros H4. by apply H3. }
  unfold pack_components. rewrite Ebs. cbn [rbind].
  assert (Hpos : forall w h, (w, h) ∈ bs.*2 -> (0 < w)%Z /\ (0 < h)%Z).
  { intros w h (b & Eb & Hb)%elem_of_list_fmap. apply elem_of_list_lookup in Hb as [j Hj]. destruct (Forall2_lookup_r _ _ _ _ _ HF Hj) as (c & Hc & _ & _ & Hf & _). rewrite <- Eb in Hf. cbn in Hf.
    assert (Hn : ~ (w <= 0 \/ h <= 0)%Z); [|lia]. intros [H5 H6]%Hf. destruct (HC c ltac:(by eapply elem_of_list_lookup_2)) as [_ H7]. by apply H7. }
  replace (existsb _ bs.*2) with false.
  2:{ symmetry. apply not_true_is_false. intros ([w h] & Hin%elem_of_list_In & Hb)%existsb_exists. destruct (Hpos w h Hin). cbn in Hb. apply orb_true_iff in Hb as [?%Z.leb_le|?%Z.leb_le]; lia. }
  destruct (Hp bs.*2 Hpos) as [P1 P2]. set (pos := rpack bs.*2) in *. clearbody pos. rewrite fmap_length in P1.
  pose proof (Forall2_length _ _ _ HF) as Hlb.
  exists (concat (zip_with shift_box pos bs)), (zip pos bs.*2). split; [done|].
  assert (Hk : (concat (zip_with shift_box pos bs)).*1 ≡ₚ concat comps).
  { clear -P1 HF. revert pos P1. induction HF as [|c b comps bs [Hb _] HF IH]; intros pos P1; destruct pos as [|rp pos]; try done.
    cbn. rewrite fmap_app. f_equiv; [|apply IH; cbn in P1; lia]. rewrite <- Hb. unfold shift_box. by rewrite <- list_fmap_compose. }
  split; [done|]. split. { rewrite zip_with_length, fmap_length. lia. } split; [exact P2|].
  (* where a node of component i is *)
  assert (HW : forall i c v p, comps !! i = Some c -> v ∈ c -> (v, p) ∈ concat (zip_with shift_box pos bs) -> exists rp b p0, pos !! i = Some rp /\ bs !! i = Some b /\ placed c b /\ (v, p0) ∈ b.1 /\ p = shifted rp b.2 p0).
  { intros i c v p Hi Hv Hin. apply concat_elem in Hin as (j & l & Hj & Hl). apply lookup_zip_with_Some in Hj as (rp & b & -> & Hj1 & Hj2).
    apply shift_box_elem in Hl as (p0 & Hb & ->). destruct (Forall2_lookup_r _ _ _ _ _ HF Hj2) as (c' & Hc' & HPl).
    assert (Hv' : v ∈ c'). { rewrite <- (proj1 HPl). apply elem_of_list_fmap. by exists (v, p0). }
    assert (j = i) as -> by (eapply concat_index; eauto). rewrite Hi in Hc'. injection Hc' as <-. exists rp, b, p0. done. }
  assert (HB : forall c b v p, placed c b -> (v, p) ∈ b.1 -> in_box b.2.1 b.2.2 p). { intros c b v p (_ & H & _) Hin. apply H. apply elem_of_list_fmap. by exists (v, p). }
  split; [|split].
  - intros i c r v p Hi Hr Hv Hin. destruct (HW i c v p Hi Hv Hin) as (rp & b & p0 & Hrp & Hb & HPl & H1 & ->).
    apply lookup_zip_with_Some in Hr as (rp' & wh & -> & Hr1 & Hr2). rewrite list_lookup_fmap, Hb in Hr2. cbn in Hr2. injection Hr2 as <-. rewrite Hrp in Hr1. injection Hr1 as <-.
    rewrite (surjective_pairing b.2). apply shifted_inside. by eapply HB.
  - intros c Hc Hlen v w p q p' q' Hv Hw Hv' Hw'. destruct (HC c Hc) as [_ HL]. destruct (HL Hlen) as [[HL1 _] _]. apply elem_of_list_lookup in Hc as [i Hi].
    assert (v ∈ c) by (rewrite <- HL1; apply elem_of_list_fmap; by exists (v, p)). assert (w ∈ c) by (rewrite <- HL1; apply elem_of_list_fmap; by exists (w, q)).
    destruct (HW i c v p' Hi ltac:(done) Hv') as (rp & b & p0 & Hrp & Hb & HPl & H1 & ->). destruct (HW i c w q' Hi ltac:(done) Hw') as (rp' & b' & q0 & Hrp' & Hb' & _ & H2 & ->).
    simplify_eq. rewrite (shifted_dist _ _ b.2.1 b.2.2) by (by eapply HB). eapply HPl; eauto.
  - intros c v w p q Hc Hlen Hvc Hwc Hne Hv Hw. apply elem_of_list_lookup in Hc as [i Hi].
    destruct (HW i c v p Hi ltac:(done) Hv) as (rp & b & p0 & Hrp & Hb & HPl & H1 & ->). destruct (HW i c w q Hi ltac:(done) Hw) as (rp' & b' & q0 & Hrp' & Hb' & _ & H2 & ->).
    simplify_eq. rewrite (shifted_dist _ _ b.2.1 b.2.2) by (by eapply HB). eapply HPl; eauto.
Qed.

Lemma pack_flat comps scale c : NoDup (concat comps) -> (forall c, c ∈ comps -> c <> [] /\ (2 < length c -> lays c)) ->
  c ∈ comps -> 2 < length c -> flat (turn (lay c).*2) -> pack_components lay turn rpack comps scale = Err BadInit.
Proof using Ht.
  intros HN HC Hc Hl Hf.
  assert (HNc : forall c, c ∈ comps -> NoDup c).
  { clear -HN. induction comps as [|c comps IH]; intros k Hk; [by apply elem_of_nil in Hk|]. cbn in HN. apply NoDup_app in HN as (N1 & N2 & N3). apply elem_of_cons in Hk as [->|Hk]; [done|by apply IH]. }
  destruct (place_components_ok comps) as (bs & Ebs & HF). { intros k Hk. destruct (HC k Hk). auto. }
  unfold pack_components. rewrite Ebs. cbn [rbind]. replace (existsb _ bs.*2) with true; [done|]. symmetry. apply existsb_exists.
  apply elem_of_list_lookup in Hc as [j Hj]. destruct (Forall2_lookup_l _ _ _ _ _ HF Hj) as (b & Hb & _ & _ & Hb2 & _). exists b.2. split.
  - apply elem_of_list_In, elem_of_list_fmap. exists b. split; [done|by eapply elem_of_list_lookup_2].
  - apply orb_true_iff. destruct (proj2 Hb2 (conj Hl Hf)); [left|right]; by apply Z.leb_le.
Qed.

(** with a scale, the packed layout is scaled about its centre *)
Lemma pack_scaled comps L s : NoDup (concat comps) -> (forall c, c ∈ comps -> c <> [] /\ (2 < length c -> lays c /\ ~ flat (turn (lay c).*2))) -> comps <> [] ->
  pack_components lay turn rpack comps None = Ok L -> (0 < s)%Q -> (exists r r', r ∈ L.*2 /\ r' ∈ L.*2 /\ (0 < sqdist r r')%Q) ->
  exists L' a b, pack_components lay turn rpack comps (Some s) = Ok L' /\ L'.*1 = L.*1 /\ box_scale L'.*2 2 s /\ (0 < a)%Q /\ moved L.*2 L'.*2 a b.
Proof.
  intros HN HC H0 EL Hs (r & r' & Hr & Hr' & Hd). destruct (pack_ok comps HN HC) as (L0 & rects & E0 & K & Hlr & _ & HI & _). rewrite EL in E0. injection E0 as <-.
  assert (H2 : forall q, q ∈ L.*2 -> length q = 2).
  { intros q ([v q'] & -> & Hq)%elem_of_list_fmap. cbn. assert (Hv : v ∈ concat comps) by (rewrite <- K; apply elem_of_list_fmap; by exists (v, q')).
    apply concat_elem in Hv as (i & c & Hi & Hv). destruct (lookup_lt_is_Some_2 rects i) as [[[x y] [w h]] Hrc]; [rewrite Hlr; by eapply lookup_lt_Some|].
    pose proof (HI i c _ v q' Hi Hrc Hv Hq) as HH. cbn in HH. destruct HH as (a & b & -> & _). done. }
  assert (HR : rectangular L.*2 2) by (split; [intros E; rewrite E in Hr; by apply elem_of_nil in Hr|done]).
  assert (Hsc : (0 < layout_scale L.*2)%Q).
  { destruct (scale_abs L.*2) as (_ & A2 & _). apply Qle_lteq in A2 as [A2|A2]; [done|]. exfalso. symmetry in A2. pose proof (proj1 (scale_zero L.*2 2 HR) A2) as HZ.
    pose proof (H2 r Hr) as Hlr1. pose proof (H2 r' Hr') as Hlr2. destruct r as [|x [|y [|]]]; try done. destruct r' as [|x' [|y' [|]]]; try done.
    pose proof (HZ _ _ 0 x x' Hr Hr' eq_refl eq_refl) as Z1. pose proof (HZ _ _ 1 y y' Hr Hr' eq_refl eq_refl) as Z2. rewrite sqdist2, Z1, Z2 in Hd. q2. }
  destruct (set_scale_ok L.*2 2 s HR ltac:(lia) Hs Hsc) as (L1 & E1 & _ & B1 & _ & b & M1).
  unfold pack_components in EL |- *. destruct (place_components lay turn comps) as [bs|e]; cbn [rbind] in EL |- *; [|done]. destruct (existsb _ bs.*2); [done|]. injection EL as EL. rewrite EL. clear EL.
  destruct L.*2 as [|z Lz] eqn:EL2; [by destruct (proj1 HR)|]. rewrite <- EL2 in *.
  unfold set_scale in E1. destruct (Qeq_bool s 0) eqn:Es; [apply Qeq_bool_iff in Es; q2|].
  destruct (Qeq_bool (layout_scale L.*2) 0) eqn:Eq; [apply Qeq_bool_iff in Eq; q2|]. injection E1 as <-.
  eexists _, (s / layout_scale L.*2)%Q, b. split; [reflexivity|]. split; [by rewrite <- list_fmap_compose|].
  rewrite <- list_fmap_compose. rewrite <- list_fmap_compose in B1, M1. split; [exact B1|]. split; [apply Qlt_shift_div_l; q2|exact M1].
Qed.
End pack.
