(** The cliques that [nativeCliqueEmbed] collects. *)
From stdpp Require Import base list numbers gmap.
From Verif Require Import Base NxModel PyCacheModel PolyModel SpecBus SpecPoly PolyProofs1 PolyProofs2.

Definition to_ell (R : rect) (XY : rect * rect) : ell :=
  let '(xmin, xmax, _, _) := R in let '((x0, _, _, _), (y0, _, ny0, ny1)) := XY in
  mkEll (Z.to_nat x0) (Z.to_nat y0) (Z.to_nat xmin) (Z.to_nat xmax) (Z.to_nat ny0) (Z.to_nat ny1).
Definition cap (P : eden) (e : ell) : nat :=
  nsegs P false (e_col e) (e_top e) (e_bot e) `min` nsegs P true (e_row e) (e_left e) (e_right e).

Inductive path (P : eden) (width : nat) : rect -> list ell -> nat -> Prop :=
| path_nil R : path P width R [] 0
| path_cons R XY L s : R ∈ rectangles P width -> XY ∈ steps P R -> path P width (step_next XY) L s ->
    path P width R (to_ell R XY :: L) (sval P R XY + s).

Lemma path_score P width R L s : path P width R L s ->
  s <= sum_list (cap P <$> L) /\ (intact P -> s = sum_list (cap P <$> L)).
Proof.
  induction 1 as [R|R XY L s HR HXY Hp IH]; [done|]. rewrite fmap_cons. simpl sum_list.
  pose proof (scores_of_step _ _ _ _ HR HXY) as Hsc. unfold sval. set (rest := sum_list (cap P <$> L)) in *. clearbody rest. unfold cap.
  destruct R as [[[xmin xmax] ymin] ymax], XY as [[[[x0 x1] nx0] nx1] [[[y0 y1] ny0] ny1]].
  destruct Hsc as (h & v & -> & -> & [S1 S2] & [S3 S4]). simpl. destruct IH as [IH1 IH2].
  split; [lia|]. intros Hi. rewrite IH2, S2, S4 by done. done.
Qed.
Lemma path_opt P width cwr R L s : table P width cwr (rectangles P width) -> path P width R L s -> s <= score_at cwr R.
Proof.
  intros [T1 T2]. induction 1 as [R|R XY L s HR HXY Hp IH]; [lia|].
  apply T1 in HR as [e He]. pose proof (T2 _ _ He) as Hg. unfold score_at. rewrite He. destruct e as [[[sc ell] par] num].
  destruct Hg as (_ & Hg & _). specialize (Hg _ HXY). unfold score_at in Hg, IH. lia.
Qed.

(** the ell of a step and the next one *)
Lemma to_ell_in P width R XY : R ∈ rectangles P width -> XY ∈ steps P R ->
  ell_in (ed_M P) (ed_N P) (to_ell R XY) /\ ell_len (to_ell R XY) = S width.
Proof.
  destruct R as [[[xmin xmax] ymin] ymax], XY as [X Y]. rewrite elem_of_rectangles, elem_of_steps.
  intros HR [[-> | ->] [(-> & H1 & H2)|(-> & H1 & H2)]]; unfold ell_in, ell_len; simpl; lia.
Qed.
Lemma to_ell_peels P width R XY XY' : R ∈ rectangles P width -> XY ∈ steps P R -> step_next XY ∈ rectangles P width -> XY' ∈ steps P (step_next XY) ->
  peels (to_ell R XY) (to_ell (step_next XY) XY').
Proof.
  destruct R as [[[xmin xmax] ymin] ymax], XY as [X Y], XY' as [X' Y']. rewrite elem_of_rectangles, elem_of_steps.
  intros HR [[-> | ->] [(-> & H1 & H2)|(-> & H1 & H2)]]; simpl step_next; rewrite elem_of_rectangles, elem_of_steps;
    intros HR' [[-> | ->] [(-> & H3 & H4)|(-> & H3 & H4)]]; unfold peels; simpl; lia.
Qed.
Lemma path_ells P width R L s : path P width R L s -> is_ells (ed_M P) (ed_N P) (S width) L.
Proof.
  induction 1 as [R|R XY L s HR HXY Hp [IH1 IH2]].
  - split; [intros e He; by apply elem_of_nil in He|done].
  - split.
    + intros e [-> |He]%elem_of_cons; [by apply to_ell_in|by apply IH1].
    + intros [|i] a b; simpl; [|apply IH2]. intros [= <-] Hb. inversion Hp as [|R' XY' L' s' HR' HXY']; subst; [done|].
      injection Hb as <-. by eapply to_ell_peels.
Qed.
(** and conversely *)
Lemma ell_step P width e : ell_in (ed_M P) (ed_N P) e -> ell_len e = S width -> exists R XY, R ∈ rectangles P width /\ XY ∈ steps P R /\ to_ell R XY = e.
Proof.
  destruct e as [row col top bot left right]. unfold ell_in, ell_len. simpl. intros (Hr & Hc & H1 & H2) Hl.
  set (X := if decide (row = top) then (Z.of_nat top, Z.of_nat bot, Z.of_nat top + 1, Z.of_nat bot)%Z else (Z.of_nat bot, Z.of_nat top, Z.of_nat top, Z.of_nat bot - 1)%Z).
  destruct (decide (col = left)) as [-> |Hne].
  - exists (Z.of_nat top, Z.of_nat bot, Z.of_nat left + 1, Z.of_nat right)%Z, (X, (Z.of_nat left + 1 - 1, Z.of_nat right, Z.of_nat left + 1 - 1, Z.of_nat right)%Z).
    split; [apply elem_of_rectangles; lia|]. split.
    + apply elem_of_steps. split; [unfold X; destruct (decide _); tauto|]. left. split; [done|lia].
    + unfold X. destruct (decide _); simpl; f_equal; lia.
  - exists (Z.of_nat top, Z.of_nat bot, Z.of_nat left, Z.of_nat right - 1)%Z, (X, (Z.of_nat right - 1 + 1, Z.of_nat left, Z.of_nat left, Z.of_nat right - 1 + 1)%Z).
    split; [apply elem_of_rectangles; lia|]. split.
    + apply elem_of_steps. split; [unfold X; destruct (decide _); tauto|]. right. split; [done|lia].
    + unfold X. destruct (decide _); simpl; f_equal; lia.
Qed.
(** a step can be chosen so that its next rectangle is the one of the next ell *)
Lemma ell_step_next P width a R' XY' : ell_in (ed_M P) (ed_N P) a -> ell_len a = S width -> R' ∈ rectangles P width -> XY' ∈ steps P R' ->
  peels a (to_ell R' XY') -> exists R XY, R ∈ rectangles P width /\ XY ∈ steps P R /\ to_ell R XY = a /\ step_next XY = R'.
Proof.
  destruct a as [row col top bot left right], R' as [[[xmin xmax] ymin] ymax], XY' as [X' Y']. unfold ell_in, ell_len. simpl e_row. simpl e_col. simpl e_top. simpl e_bot. simpl e_left. simpl e_right.
  rewrite elem_of_rectangles, elem_of_steps. intros (Hr & Hc & H1 & H2) Hl HR' [HX' HY'] Hp.
  assert (HL : Z.of_nat left = ymin /\ Z.of_nat right = ymax).
  { destruct HX' as [-> | ->], HY' as [(-> & H3 & H4)|(-> & H3 & H4)]; unfold peels in Hp; simpl in Hp; lia. }
  assert (HX : (Z.of_nat row = Z.of_nat top /\ xmin = Z.of_nat top + 1 /\ xmax = Z.of_nat bot)%Z \/ (Z.of_nat row = Z.of_nat bot /\ xmin = Z.of_nat top /\ xmax = Z.of_nat bot - 1)%Z).
  { clear HL H2 Hl Hc. assert (Hq : (row = top /\ Z.to_nat xmin = top + 1 /\ Z.to_nat xmax = bot) \/ (row = bot /\ Z.to_nat xmin = top /\ Z.to_nat xmax + 1 = bot)).
    { destruct HX' as [-> | ->], HY' as [(-> & H3 & H4)|(-> & H3 & H4)]; destruct Hp as [Hp _]; simpl in Hp; clear - Hp H1; lia. }
    clear Hp HX' HY'. lia. }
  destruct HL as [<- <-]. clear HX' HY' Hp.
  assert (HXX : exists X, (X = (Z.of_nat top, Z.of_nat bot, Z.of_nat top + 1, Z.of_nat bot) \/ X = (Z.of_nat bot, Z.of_nat top, Z.of_nat top, Z.of_nat bot - 1))%Z /\
     exists x1, X = (Z.of_nat row, x1, xmin, xmax)).
  { destruct HX as [(E & -> & ->)|(E & -> & ->)]; rewrite E; eexists; (split; [|by eexists]); [by left|by right]. }
  destruct HXX as (X & HX1 & x1 & ->).
  destruct Hc as [-> | ->].
  - exists (Z.of_nat top, Z.of_nat bot, Z.of_nat left + 1, Z.of_nat right)%Z, ((Z.of_nat row, x1, xmin, xmax), (Z.of_nat left + 1 - 1, Z.of_nat right, Z.of_nat left + 1 - 1, Z.of_nat right)%Z).
    split; [apply elem_of_rectangles; lia|]. split; [apply elem_of_steps; split; [done|]; left; split; [done|lia]|].
    split; simpl; [f_equal; lia|repeat f_equal; lia].
  - exists (Z.of_nat top, Z.of_nat bot, Z.of_nat left, Z.of_nat right - 1)%Z, ((Z.of_nat row, x1, xmin, xmax), (Z.of_nat right - 1 + 1, Z.of_nat left, Z.of_nat left, Z.of_nat right - 1 + 1)%Z).
    split; [apply elem_of_rectangles; lia|]. split; [apply elem_of_steps; split; [done|]; right; split; [done|lia]|].
    split; simpl; [f_equal; lia|repeat f_equal; lia].
Qed.
Lemma ells_path P width L : L <> [] -> is_ells (ed_M P) (ed_N P) (S width) L ->
  exists R XY s, R ∈ rectangles P width /\ XY ∈ steps P R /\ L !! 0 = Some (to_ell R XY) /\ path P width R L s.
Proof.
  induction L as [|a L IH]; [done|]. intros _ [H1 H2]. destruct (H1 a) as [Ha1 Ha2]; [left|].
  destruct L as [|b L].
  - destruct (ell_step P width a Ha1 Ha2) as (R & XY & HR & HXY & <-). eexists R, XY, _. split_and!; [done|done|done|]. apply path_cons; [done|done|]. constructor.
  - destruct IH as (R' & XY' & s & HR' & HXY' & Hb & Hp); [done| |].
    { split; [intros e He; apply H1; by right|intros i; apply (H2 (S i))]. }
    injection Hb as ->.
    destruct (ell_step_next P width a R' XY' Ha1 Ha2 HR' HXY') as (R & XY & HR & HXY & <- & <-); [by apply (H2 0)|].
    eexists R, XY, _. split_and!; [done|done|done|]. by apply path_cons.
Qed.

(** ** Chains *)
Definition chain_of (e : ell) (v h : nat) : list cq :=
  line_of true (Z.of_nat (e_row e)) (Z.of_nat (e_left e) + Z.of_nat (e_right e) - Z.of_nat (e_col e)) (Z.of_nat (e_col e)) v ++
  line_of false (Z.of_nat (e_col e)) (Z.of_nat (e_row e)) (Z.of_nat (e_top e) + Z.of_nat (e_bot e) - Z.of_nat (e_row e)) h.
Definition bundle_of (P : eden) (e : ell) (b : list (list cq)) : Prop :=
  exists hs vs, NoDup hs /\ NoDup vs /\
    (forall k, k ∈ hs -> k < ed_L P /\ seg P false (e_col e) (e_top e) (e_bot e) k) /\
    (forall k, k ∈ vs -> k < ed_L P /\ seg P true (e_row e) (e_left e) (e_right e) k) /\
    length hs `min` length vs = cap P e /\ b = zip_with (fun h v => chain_of e v h) hs vs.
Lemma zip_with_fmap2 {A B C D E} (f : C -> D -> E) (g : A -> C) (h : B -> D) l k : zip_with f (g <$> l) (h <$> k) = zip_with (fun a b => f (g a) (h b)) l k.
Proof. revert k. induction l as [|a l IH]; intros [|b k]; simpl; try done. by rewrite <- IH. Qed.

Lemma bundle_ks P u w a b l : (0 <= a)%Z -> (0 <= b)%Z -> l ≡ₚ bundle P u w a b ->
  exists ks, NoDup ks /\ l = line_of u w a b <$> ks /\ length ks = nsegs P u (Z.to_nat w) (Z.to_nat (Z.min a b)) (Z.to_nat (Z.max a b)) /\
    forall k, k ∈ ks -> k < ed_L P /\ seg P u (Z.to_nat w) (Z.to_nat (Z.min a b)) (Z.to_nat (Z.max a b)) k.
Proof.
  intros Ha Hb Hl.
  assert (H : forall l' : list (list cq), (forall x, x ∈ l' -> x ∈ bundle P u w a b) -> exists ks : list nat, l' = line_of u w a b <$> ks /\
    forall k, k ∈ ks -> k < ed_L P /\ seg P u (Z.to_nat w) (Z.to_nat (Z.min a b)) (Z.to_nat (Z.max a b)) k).
  { induction l' as [|x l' IH]; intros Hin; [exists []; split; [done|]; intros k Hk; by apply elem_of_nil in Hk|].
    destruct IH as (ks & -> & Hks); [intros; apply Hin; by right|].
    destruct (proj1 (elem_of_bundle P u w a b x Ha Hb)) as (k & Hk & -> & Hs); [apply Hin; left|].
    exists (k :: ks). split; [done|]. intros k' [-> |Hk']%elem_of_cons; auto. }
  destruct (H l) as (ks & -> & Hks); [intros x; by rewrite Hl|]. exists ks.
  split; [|split; [done|split; [|done]]].
  - eapply (NoDup_fmap_1 (line_of u w a b)). rewrite Hl. apply NoDup_bundle.
  - rewrite <- bundle_length by done. rewrite <- Hl. by rewrite fmap_length.
Qed.

Section bundles.
  Context (shuf : nat -> list (list cq) -> list (list cq)) (random_bundles : bool).
  Hypothesis (Hshuf : forall i l, shuf i l ≡ₚ l).
  Lemma ell_bundle_ok P width R XY g : R ∈ rectangles P width -> XY ∈ steps P R ->
    exists b g', ell_bundle shuf random_bundles P (step_ell XY) g = (b, g') /\ bundle_of P (to_ell R XY) b.
  Proof using Hshuf.
    intros HR HXY. destruct R as [[[xmin xmax] ymin] ymax], XY as [[[[x0 x1] nx0] nx1] [[[y0 y1] ny0] ny1]].
    apply elem_of_rectangles in HR. apply elem_of_steps in HXY as [HX HY]. unfold ell_bundle. simpl step_ell. cbn iota beta.
    set (b0 := if random_bundles then _ else _).
    assert (Hb0 : exists hl vl g', b0 = (hl, vl, g') /\ hl ≡ₚ bundle P false y0 x0 x1 /\ vl ≡ₚ bundle P true x0 y1 y0).
    { unfold b0. destruct random_bundles; eexists _, _, _; (split; [reflexivity|]); rewrite ?Hshuf; done. }
    destruct Hb0 as (hl & vl & g' & -> & Hhl & Hvl). eexists _, _. split; [reflexivity|].
    assert (Hx : (0 <= x0 /\ 0 <= x1 /\ Z.min x0 x1 = xmin /\ Z.max x0 x1 = xmax)%Z /\ (x1 = xmin + xmax - x0)%Z).
    { destruct HX as [HX|HX]; injection HX as -> -> -> ->; lia. }
    assert (Hy : (0 <= y0 /\ 0 <= y1 /\ Z.min y0 y1 = ny0 /\ Z.max y0 y1 = ny1)%Z /\ (y1 = ny0 + ny1 - y0)%Z).
    { destruct HY as [[HY ?]|[HY ?]]; injection HY as -> -> -> ->; lia. }
    destruct Hx as [(Hx0 & Hx1 & Hxa & Hxb) Hxx], Hy as [(Hy0 & Hy1 & Hya & Hyb) Hyy].
    destruct (bundle_ks P false y0 x0 x1 hl Hx0 Hx1 Hhl) as (hs & Hh1 & -> & Hh2 & Hh3).
    destruct (bundle_ks P true x0 y1 y0 vl Hy1 Hy0 Hvl) as (vs & Hv1 & -> & Hv2 & Hv3).
    rewrite (Z.min_comm y1 y0), (Z.max_comm y1 y0), Hya, Hyb in Hv2, Hv3. rewrite Hxa, Hxb in Hh2, Hh3.
    exists hs, vs. split_and!; [done|done|done|done| |].
    - unfold cap, to_ell. simpl. by rewrite Hh2, Hv2.
    - rewrite zip_with_fmap2. unfold chain_of, to_ell. simpl.
      rewrite !Z2Nat.id by lia. rewrite <- Hxx, <- Hyy. done.
  Qed.
  Lemma collect_ok P width cwr : table P width cwr (rectangles P width) -> forall fuel R cl g, R ∈ rectangles P width -> (rw R + 2 <= Z.of_nat fuel)%Z ->
    exists L bs g', collect shuf random_bundles fuel P cwr (Some R) cl g = Ok (cl ++ concat bs, g') /\
      path P width R L (score_at cwr R) /\ Forall2 (bundle_of P) L bs.
  Proof using Hshuf.
    intros [T1 T2]. induction fuel as [|fuel IH]; intros R cl g HR Hf.
    { pose proof (rw_rectangles _ _ _ HR). lia. }
    pose proof HR as [e He]%T1. pose proof (T2 _ _ He) as Hg. destruct e as [[[sc el] par] num].
    cbn [collect]. change (Some R ≫= (cwr !!.)) with (cwr !! R). rewrite He. unfold score_at at 1. rewrite He.
    destruct Hg as (_ & _ & Hg). destruct (steps P R) as [|XY0 XYs] eqn:Es.
    - destruct Hg as (-> & -> & ->). exists [], [], g. split; [|split; constructor]. rewrite app_nil_r. by destruct fuel.
    - rewrite <- Es in Hg. destruct Hg as (XY & HXY & -> & -> & ->).
      destruct (ell_bundle_ok P width R XY g HR HXY) as (b & g1 & -> & Hb).
      destruct (decide (0 < rw R)%Z) as [Hw|Hw].
      + destruct (IH (step_next XY) (cl ++ b) g1) as (L & bs & g' & -> & Hp & HF).
        * by eapply step_next_in.
        * rewrite (step_next_rw _ _ _ HXY). lia.
        * exists (to_ell R XY :: L), (b :: bs), g'. split; [simpl; by rewrite <- app_assoc|]. split; [by apply path_cons|by constructor].
      + assert (Hn : cwr !! step_next XY = None).
        { destruct (cwr !! step_next XY) eqn:E; [|done]. exfalso. assert (Hin : step_next XY ∈ rectangles P width) by (apply T1; eauto).
          apply rw_rectangles in Hin. rewrite (step_next_rw _ _ _ HXY) in Hin. lia. }
        exists [to_ell R XY], [b], g1. split.
        * destruct fuel; simpl; rewrite Hn; by rewrite app_nil_r.
        * unfold score_at. rewrite Hn. split; [apply path_cons; [done|done|constructor]|by repeat constructor].
  Qed.
End bundles.

Definition isum (P : eden) (L : list ell) : nat := sum_list (cap P <$> L).
(** [nativeCliqueEmbed] *)
Lemma native_ok rnd shuf rb P width g : (forall i l, shuf i l ≡ₚ l) ->
  exists score cl g' L bs, native_clique_embed rnd shuf rb P width g = Ok (score, cl, g') /\
    is_ells (ed_M P) (ed_N P) (S width) L /\ Forall2 (bundle_of P) L bs /\ cl = concat bs /\
    (score = None <-> forall e, ~ (ell_in (ed_M P) (ed_N P) e /\ ell_len e = S width)) /\
    (score = None -> L = []) /\
    (forall s, score = Some s -> s <= isum P L /\
      (intact P -> s = isum P L /\ forall L', is_ells (ed_M P) (ed_N P) (S width) L' -> isum P L' <= s)).
Proof.
  intros Hshuf. unfold native_clique_embed.
  destruct (native_fold_ok rnd P width g) as (cwr & maxscore & count & key & g1 & -> & Ht & B1 & B2 & B3). cbn [rbind].
  assert (Hnone : maxscore = None -> forall R, R ∈ rectangles P width -> steps P R = []).
  { intros Hm R HR. destruct (decide (steps P R = [])) as [|Hne]; [done|]. destruct (proj1 (proj1 Ht R) HR) as [e He].
    destruct (B3 R e HR He Hne) as (m & Hm' & _). congruence. }
  destruct (rectangles P width) as [|R0 Rs] eqn:ER.
  - destruct (B1 eq_refl) as [-> ->]. rewrite <- ER in *.
    exists None, [], g1, [], []. split; [by destruct (width + 3)|]. split; [split; [intros e He; by apply elem_of_nil in He|done]|].
    split; [constructor|]. split; [done|]. split; [|split; [done|intros ? [=]]]. split; [intros _|done].
    intros e [He1 He2]. destruct (ell_step P width e He1 He2) as (R & XY & HR & _). rewrite ER in HR. by apply elem_of_nil in HR.
  - rewrite <- ER in *. destruct B2 as (R & e & -> & HR & He & Hms); [by rewrite ER|].
    destruct (collect_ok shuf rb Hshuf P width cwr Ht (width + 3) R [] g1 HR) as (L & bs & g' & Hc & Hp & HF).
    { apply rw_rectangles in HR. lia. }
    rewrite Hc. cbn [rbind]. exists maxscore, (concat bs), g', L, bs. split; [done|]. split; [by eapply path_ells|]. split; [done|]. split; [done|].
    assert (Hse : score_at cwr R = e.1.1.1) by (unfold score_at; rewrite He; by destruct e as [[[? ?] ?] ?]).
    split; [|split].
    + split.
      * intros Hm e' [He1 He2]. destruct (ell_step P width e' He1 He2) as (R' & XY & HR' & HXY & _). rewrite (Hnone Hm R' HR') in HXY. by apply elem_of_nil in HXY.
      * intros Hno. rewrite Hms. unfold opt_score. destruct (steps P R) as [|XY XYs] eqn:Es; [done|]. exfalso.
        apply (Hno (to_ell R XY)). apply (to_ell_in P width); [done|]. rewrite Es. left.
    + intros Hm. pose proof (Hnone Hm R HR) as Hs. inversion Hp as [|R' XY L' s' HR' HXY]; [done|]. subst. rewrite Hs in HXY. by apply elem_of_nil in HXY.
    + intros s Hs. assert (s = score_at cwr R) as ->.
      { rewrite Hse. rewrite Hs in Hms. unfold opt_score in Hms. destruct (steps P R); congruence. }
      destruct (path_score _ _ _ _ _ Hp) as [Hle Heq]. split; [done|]. intros Hi. split; [by apply Heq|].
      intros L' HL'. destruct (decide (L' = [])) as [-> |Hne]; [unfold isum; simpl; lia|].
      destruct (ells_path P width L' Hne HL') as (R' & XY' & s' & HR' & HXY' & _ & Hp').
      destruct (path_score _ _ _ _ _ Hp') as [_ Heq']. unfold isum. rewrite <- Heq' by done.
      pose proof (path_opt _ _ _ _ _ _ Ht Hp') as Hle'. etrans; [exact Hle'|].
      destruct (proj1 (proj1 Ht R') HR') as [e' He'].
      destruct (B3 R' e' HR' He') as (m & Hm & Hle2); [intros E; rewrite E in HXY'; by apply elem_of_nil in HXY'|].
      assert (m = score_at cwr R) as -> by congruence.
      unfold score_at at 1. rewrite He'. by destruct e' as [[[? ?] ?] ?].
Qed.
