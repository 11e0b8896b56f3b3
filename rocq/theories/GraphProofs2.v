(** Proofs about the construction of components. *)
From stdpp Require Import base list numbers relations sorting.
From Verif Require Import Base GraphModel SpecGraph GraphProofs.

Lemma swapv_ok l i j : i < length l -> j < length l ->
  exists l', swapv l i j = Ok l' /\ l' ≡ₚ l /\
    forall k, l' !! k = if decide (k = j) then l !! i else if decide (k = i) then l !! j else l !! k.
Proof.
  intros Hi Hj. unfold swapv.
  destruct (lookup_lt_is_Some_2 l i Hi) as [x Ex]. destruct (lookup_lt_is_Some_2 l j Hj) as [y Ey].
  rewrite (vget_ok _ _ _ Ex), (vget_ok _ _ _ Ey). simpl. rewrite vset_ok by done. simpl.
  rewrite vset_ok by by rewrite insert_length. eexists; split; [done|]. split.
  - symmetry. destruct (decide (i = j)) as [->|N].
    + rewrite list_insert_insert. assert (x = y) by congruence. subst. by rewrite list_insert_id.
    + apply Permutation_inj. split; [by rewrite !insert_length|].
      exists (fun k => if decide (k = i) then j else if decide (k = j) then i else k). split.
      * intros a b. repeat case_decide; subst; congruence.
      * intros k. destruct (decide (k = i)) as [->|].
        { rewrite list_lookup_insert by by rewrite insert_length. done. }
        destruct (decide (k = j)) as [->|].
        { rewrite list_lookup_insert_ne by done. rewrite list_lookup_insert by done. done. }
        rewrite !list_lookup_insert_ne by done. done.
  - intros k. destruct (decide (k = j)) as [->|].
    { rewrite list_lookup_insert by by rewrite insert_length. done. }
    rewrite list_lookup_insert_ne by done. destruct (decide (k = i)) as [->|].
    { rewrite list_lookup_insert by done. done. }
    by rewrite list_lookup_insert_ne.
Qed.

Lemma part_ok reserve R fuel l front back :
  (forall x, x ∈ l -> reserve x = Ok (R x)) -> back <= length l -> front <= back -> back - front <= fuel ->
  (forall k x, l !! k = Some x -> k < front -> R x = false) ->
  (forall k x, l !! k = Some x -> back <= k -> R x = true) ->
  exists l' b, part_reserved fuel reserve l front back = Ok (l', b) /\ l' ≡ₚ l /\ b <= length l' /\
    forall k x, l' !! k = Some x -> R x = true <-> b <= k.
Proof.
  revert l front back. induction fuel as [|fuel IH]; intros l front back T Hb Hf Hfu F1 F2.
  - simpl. rewrite decide_False by lia. exists l, back. split; [done|]. split; [done|]. split; [done|].
    intros k x E. split; [|eauto]. intros Rx. destruct (decide (back <= k)) as [|N]; [done|].
    rewrite (F1 k x E) in Rx; [done|lia].
  - simpl. case_decide as D.
    2:{ exists l, back. split; [done|]. split; [done|]. split; [done|].
        intros k x E. split; [|eauto]. intros Rx. destruct (decide (back <= k)) as [|N]; [done|].
        rewrite (F1 k x E) in Rx; [done|lia]. }
    destruct (lookup_lt_is_Some_2 l front) as [x Ex]; [lia|]. rewrite (vget_ok _ _ _ Ex). simpl.
    rewrite T by by eapply elem_of_list_lookup_2. simpl. destruct (R x) eqn:Rx.
    + destruct (swapv_ok l front (back - 1)) as (l1 & -> & P & K); [lia..|]. simpl.
      destruct (IH l1 front (back - 1)) as (l' & b & -> & P' & Lb & H).
      * intros y Hy. apply T. by rewrite <- P.
      * rewrite P. lia.
      * lia.
      * lia.
      * intros k y. rewrite K. repeat case_decide; subst; try lia. intros E Hk. eauto.
      * intros k y. rewrite K. repeat case_decide; subst.
        -- intros E _. congruence.
        -- lia.
        -- intros E Hk. apply (F2 k y E). lia.
      * exists l', b. split; [done|]. split; [by rewrite P'|]. done.
    + destruct (IH l (front + 1) back) as (l' & b & -> & P' & Lb & H).
      * done.
      * done.
      * lia.
      * lia.
      * intros k y E Hk. destruct (decide (k = front)) as [->|]; [congruence|]. apply (F1 k y E). lia.
      * done.
      * exists l', b. done.
Qed.

(** writing labels and indices of one component *)
Lemma label_ok n c (l idx lab : list nat) : NoDup l -> (forall x, x ∈ l -> x < n) -> length idx = n -> length lab = n ->
  exists idx' lab', foldM (fun '(idx, lab) '(j, x) =>
          let! lab := vset lab x j in
          let! idx := vset idx x c in Ok (idx, lab)) (rev (imap pair l)) (idx, lab) = Ok (idx', lab') /\
    length idx' = n /\ length lab' = n /\
    (forall j x, l !! j = Some x -> idx' !! x = Some c /\ lab' !! x = Some j) /\
    (forall x, x ∉ l -> idx' !! x = idx !! x /\ lab' !! x = lab !! x).
Proof.
  intros ND B Li La.
  assert (IM : forall j x, (j, x) ∈ rev (imap pair l) <-> l !! j = Some x).
  { intros j x. rewrite elem_of_list_In, <- in_rev, <- elem_of_list_In, elem_of_lookup_imap. split.
    - intros (i & y & [= -> ->] & E). done.
    - intros E. eauto. }
  edestruct (foldM_inv (fun '(idx, lab) '(j, x) =>
          let! lab := vset lab x j in
          let! idx := vset idx x c in Ok (idx, lab))
    (fun dn '(idx', lab') => length idx' = n /\ length lab' = n /\
       (forall j x, (j, x) ∈ dn -> idx' !! x = Some c /\ lab' !! x = Some j) /\
       (forall x, x ∉ dn.*2 -> idx' !! x = idx !! x /\ lab' !! x = lab !! x)) (rev (imap pair l)) (idx, lab))
    as ([idx' lab'] & E & L1 & L2 & K1 & K2).
  - split; [done|]. split; [done|]. split; [|done]. intros j x []%elem_of_nil.
  - intros dn [j x] rest [i1 l1] El (L1 & L2 & K1 & K2).
    assert (Hx : l !! j = Some x) by (apply IM; rewrite El; set_solver).
    assert (x < n) by (apply B; by eapply elem_of_list_lookup_2).
    rewrite vset_ok by lia. cbn [rbind]. rewrite vset_ok by lia. cbn [rbind]. eexists; split; [done|].
    cbv beta iota; rewrite !insert_length. split; [done|]. split; [done|]. split.
    + intros k y [Hd|[= -> ->]%elem_of_list_singleton]%elem_of_app.
      * destruct (decide (y = x)) as [->|N].
        { assert (Hk : l !! k = Some x) by (apply IM; rewrite El; set_solver).
          assert (k = j) as -> by (eapply NoDup_lookup; eauto).
          rewrite !list_lookup_insert by lia. done. }
        rewrite !list_lookup_insert_ne by done. eauto.
      * rewrite !list_lookup_insert by lia. done.
    + intros y Hy. rewrite fmap_app in Hy.
      assert (y <> x) by (intros ->; apply Hy; set_solver).
      rewrite !list_lookup_insert_ne by done. apply K2. set_solver.
  - exists idx', lab'. split; [done|]. split; [done|]. split; [done|]. split.
    + intros j x Hj. apply K1, IM, Hj.
    + intros x Hx. apply K2. intros ([j y] & -> & Hj)%elem_of_list_fmap. apply IM in Hj. apply Hx. by eapply elem_of_list_lookup_2.
Qed.

Lemma comp_loop_ok reserve R n cs c (idx lab : list nat) :
  (forall x, x < n -> reserve x = Ok (R x)) ->
  NoDup (concat cs) -> (forall x, x ∈ concat cs -> x < n) -> length idx = n -> length lab = n ->
  exists idx' lab' rs out, comp_loop reserve cs c idx lab = Ok (idx', lab', rs, out) /\
    length idx' = n /\ length lab' = n /\ length rs = length out /\ length out <= length cs /\
    (forall i l m, cs !! i = Some l -> out !! i = Some m -> m ≡ₚ l /\ l <> []) /\
    (forall l, cs !! length out = Some l -> l = []) /\
    (forall i m r, out !! i = Some m -> rs !! i = Some r -> r <= length m /\
        forall x j, m !! j = Some x -> R x = true <-> length m - r <= j) /\
    (forall i m j x, out !! i = Some m -> m !! j = Some x -> idx' !! x = Some (c + i) /\ lab' !! x = Some j) /\
    (forall x, x ∉ concat cs -> idx' !! x = idx !! x /\ lab' !! x = lab !! x).
Proof.
  intros T. revert c idx lab. induction cs as [|l cs IH]; intros c idx lab ND B Li La; simpl.
  { do 4 eexists; split; [done|]. simpl. repeat (split; [done|]). done. }
  simpl in ND, B. apply NoDup_app in ND as (ND1 & ND2 & ND3). case_decide as D.
  { apply nil_length_inv in D as ->. do 4 eexists; split; [done|]. split; [done|]. split; [done|]. split; [done|]. split; [simpl; lia|].
    split; [done|]. split; [by intros l [= <-]|]. done. }
  destruct (part_ok reserve R (length l) l 0 (length l)) as (m & b & -> & P & Lb & H); [|done|lia|lia| | |].
  { intros x Hx. apply T, B. set_solver. }
  { lia. }
  { intros k x E%lookup_lt_Some. lia. }
  cbn [rbind].
  destruct (label_ok n c m idx lab) as (i1 & l1 & -> & L1 & L2 & K1 & K2); [by rewrite P| |done|done|].
  { intros x. rewrite P. intros. apply B. set_solver. }
  cbn [rbind].
  destruct (IH (S c) i1 l1) as (i2 & l2 & rs & out & -> & M1 & M2 & M3 & M4 & Q1 & Q2 & Q3 & Q4 & Q5); [done| |done|done|].
  { intros x Hx. apply B. set_solver. }
  cbn [rbind]. do 4 eexists; split; [done|]. split; [done|]. split; [done|]. split; [simpl; lia|]. split; [simpl; lia|].
  split.
  { intros [|i] l' m'; simpl; [|apply Q1]. intros [= <-] [= <-]. split; [done|]. by intros ->. }
  split; [done|]. split.
  { intros [|i] m' r; simpl; [|apply Q3]. intros [= <-] [= <-]. split; [lia|]. intros x j E. rewrite (H _ _ E). lia. }
  split.
  - intros [|i] m' j x; simpl.
    + intros [= <-] E. assert (x ∈ l) by (rewrite <- P; by eapply elem_of_list_lookup_2).
      destruct (Q5 x) as [-> ->]; [by apply ND2|]. rewrite Nat.add_0_r. eauto.
    + intros Em E. destruct (Q4 i m' j x Em E) as [-> ->]. split; [f_equal; lia|done].
  - intros x Hx. destruct (Q5 x) as [-> ->]; [set_solver|]. apply K2. rewrite P. set_solver.
Qed.

(** the node count of a graph built by [gpush] is its largest label plus one *)
Definition tight (g : graph) : Prop := forall m, gn g <= m <-> forall a b, (a, b) ∈ ge g -> a < m /\ b < m.
Lemma tight_push g a b : tight g -> tight (gpush g a b).
Proof.
  intros T m. simpl. specialize (T m). split.
  - intros H x y [Hx|[= -> ->]%elem_of_list_singleton]%elem_of_app; [|lia]. apply T; [lia|done].
  - intros H. assert (gn g <= m) by (apply T; intros x y Hx; apply H; set_solver).
    specialize (H a b ltac:(set_solver)). lia.
Qed.

Lemma distribute_ok g (idx lab : list nat) k : graph_wf g -> length idx = gn g -> length lab = gn g ->
  (forall x c, idx !! x = Some c -> c < k) ->
  exists gs, distribute g idx lab k = Ok gs /\ length gs = k /\
    forall c gc, gs !! c = Some gc -> tight gc /\
      forall i j, (i, j) ∈ ge gc <-> exists a b, (a, b) ∈ ge g /\ idx !! a = Some c /\ lab !! a = Some i /\ lab !! b = Some j.
Proof.
  intros W Li La B. unfold distribute.
  edestruct (foldM_inv (fun gs '(a, b) =>
      let! c := vget idx a in
      let! la := vget lab a in
      let! lb := vget lab b in
      let! gc := vget gs c in
      vset gs c (gpush gc la lb))
    (fun es gs => length gs = k /\ forall c gc, gs !! c = Some gc -> tight gc /\
      forall i j, (i, j) ∈ ge gc <-> exists a b, (a, b) ∈ es /\ idx !! a = Some c /\ lab !! a = Some i /\ lab !! b = Some j)
    (rev (ge g)) (replicate k (mkGraph 0 []))) as (gs & -> & L & K).
  - split; [apply replicate_length|]. intros c gc (-> & _)%lookup_replicate. split.
    + intros m. simpl. split; [|lia]. intros _ a b []%elem_of_nil.
    + intros i j. simpl. split; [intros []%elem_of_nil|]. intros (a & b & []%elem_of_nil & _).
  - intros dn [a b] rest gs El [L K].
    assert (Hab : (a, b) ∈ ge g).
    { apply elem_of_list_In, in_rev. rewrite El. apply in_or_app. right. by left. }
    destruct (W _ _ Hab) as [Ha Hb].
    destruct (lookup_lt_is_Some_2 idx a) as [c Ec]; [lia|]. rewrite (vget_ok _ _ _ Ec). cbn [rbind].
    destruct (lookup_lt_is_Some_2 lab a) as [la Ea]; [lia|]. rewrite (vget_ok _ _ _ Ea). cbn [rbind].
    destruct (lookup_lt_is_Some_2 lab b) as [lb Eb]; [lia|]. rewrite (vget_ok _ _ _ Eb). cbn [rbind].
    destruct (lookup_lt_is_Some_2 gs c) as [gc Eg]; [rewrite L; eauto|]. rewrite (vget_ok _ _ _ Eg). cbn [rbind].
    rewrite vset_ok by (rewrite L; eauto). eexists; split; [done|]. rewrite insert_length. split; [done|].
    intros c' gc'. destruct (decide (c' = c)) as [->|N].
    + rewrite list_lookup_insert by (rewrite L; eauto). intros [= <-]. destruct (K _ _ Eg) as [T KK].
      split; [by apply tight_push|]. intros i j. simpl. rewrite elem_of_app, elem_of_list_singleton, KK. split.
      * intros [(x & y & ? & ?)|[= -> ->]]; [exists x, y; split; [set_solver|done]|].
        exists a, b. split; [set_solver|done].
      * intros (x & y & [H|[= -> ->]%elem_of_list_singleton]%elem_of_app & Q1 & Q2 & Q3); [left; eauto 10|]. right. congruence.
    + rewrite list_lookup_insert_ne by done. intros Eg'. destruct (K _ _ Eg') as [T KK]. split; [done|].
      intros i j. rewrite KK. split.
      * intros (x & y & ? & ?). exists x, y. split; [set_solver|done].
      * intros (x & y & [H|[= -> ->]%elem_of_list_singleton]%elem_of_app & Q1 & Q2 & Q3); [eauto 10|]. congruence.
  - eexists; split; [done|]. split; [done|]. intros c gc Eg. destruct (K _ _ Eg) as [T KK]. split; [done|].
    intros i j. rewrite KK. split; intros (a & b & H & ?); exists a, b; (split; [|done]);
      [apply elem_of_list_In, in_rev, elem_of_list_In, H|apply elem_of_list_In; rewrite <- in_rev; by apply elem_of_list_In].
Qed.

Lemma elem_of_concat {A} (x : A) ls : x ∈ concat ls <-> exists i l, ls !! i = Some l /\ x ∈ l.
Proof.
  induction ls as [|l ls IH]; simpl.
  - rewrite elem_of_nil. split; [done|]. by intros (i & l & ? & _).
  - rewrite elem_of_app, IH. split.
    + intros [H|(i & m & E & H)]; [by exists 0, l|by exists (S i), m].
    + intros ([|i] & m & E & H); simpl in E; [left; congruence|right; eauto].
Qed.
Lemma NoDup_concat_lookup {A} (ls : list (list A)) :
  (forall i l, ls !! i = Some l -> NoDup l) ->
  (forall i j l m x, ls !! i = Some l -> ls !! j = Some m -> x ∈ l -> x ∈ m -> i = j) -> NoDup (concat ls).
Proof.
  induction ls as [|l ls IH]; intros H1 H2; simpl; [constructor|].
  apply NoDup_app. split; [by apply (H1 0)|]. split.
  - intros x Hx (i & m & E & Hm)%elem_of_concat. by specialize (H2 0 (S i) l m x eq_refl E Hx Hm).
  - apply IH.
    + intros i m E. by apply (H1 (S i)).
    + intros i j m m' x E E' Hx Hx'. by specialize (H2 (S i) (S j) m m' x E E' Hx Hx') as [= ->].
Qed.
Lemma concat_perm {A} (l1 l2 : list (list A)) : l1 ≡ₚ l2 -> concat l1 ≡ₚ concat l2.
Proof.
  induction 1; simpl; [done|by f_equiv| |by etrans].
  rewrite !(assoc (++)). by rewrite (Permutation_app_comm y x).
Qed.

Lemma sorted_lookup (l : list (list nat)) : StronglySorted (fun a b => length b <= length a) l ->
  forall i j a b, i <= j -> l !! i = Some a -> l !! j = Some b -> length b <= length a.
Proof.
  induction 1 as [|x l S IH F]; intros i j a b Hij Ea Eb; [done|].
  destruct i as [|i], j as [|j]; simpl in *; try lia.
  - assert (a = b) by congruence. by subst.
  - injection Ea as ->. rewrite Forall_lookup in F. eauto.
  - eapply (IH i j); eauto; lia.
Qed.

Lemma rtc_step_out {A} (R : relation A) x y : rtc R x y -> x <> y -> exists z, R x z.
Proof. destruct 1; [done|]. eauto. Qed.

Theorem components_ok srt g reserve R : graph_wf g -> sorts_by_size srt ->
  (forall x, x < gn g -> reserve x = Ok (R x)) ->
  exists cp, components srt g reserve = Ok cp /\ decomposition g R cp.
Proof.
  intros W Hs T. unfold components.
  destruct (uf_all_ok g W) as (par & rank & -> & Lr & U). cbn [rbind].
  destruct (collect_ok _ _ _ U) as (cs & -> & Lc & K). cbn [rbind].
  destruct U as (Lp & Tot & C). destruct (Hs cs) as [P S].
  assert (ND : NoDup (concat (srt cs))).
  { rewrite (concat_perm _ _ P). apply NoDup_concat_lookup.
    - intros i l E. apply (K _ _ E).
    - intros i j l m x E E' Hx Hm. apply (K _ _ E) in Hx as [_ Hx]. apply (K _ _ E') in Hm as [_ Hm]. by eapply Root_det. }
  assert (IN : forall x, x ∈ concat (srt cs) <-> x < gn g).
  { intros x. rewrite (concat_perm _ _ P), elem_of_concat. split.
    - intros (i & l & E & Hx). by apply (K _ _ E) in Hx as [? _].
    - intros Hx. destruct (Tot x Hx) as [r Hr]. pose proof (Root_lt _ _ _ Hr) as [_ L].
      destruct (lookup_lt_is_Some_2 cs r) as [l E]; [lia|]. exists r, l. split; [done|]. by apply (K _ _ E). }
  destruct (comp_loop_ok reserve R (gn g) (srt cs) 0 par rank) as (idx & lab & rs & out & -> & L1 & L2 & L3 & L4 & Q1 & Q2 & Q3 & Q4 & _);
    [done|done| |done|done|].
  { intros x. by rewrite IN. }
  cbn [rbind].
  (* every nonempty component is kept *)
  assert (AL : forall i l x, srt cs !! i = Some l -> x ∈ l -> exists m, out !! i = Some m /\ m ≡ₚ l).
  { intros i l x E Hx. destruct (decide (i < length out)) as [Hi|Hi].
    - destruct (lookup_lt_is_Some_2 out i Hi) as [m Em]. exists m. split; [done|]. by apply (Q1 i).
    - pose proof (lookup_lt_Some _ _ _ E) as Hl. destruct (lookup_lt_is_Some_2 (srt cs) (length out)) as [l0 E0]; [lia|].
      assert (length l <= length l0) by (eapply (sorted_lookup _ S (length out) i); eauto; lia).
      rewrite (Q2 _ E0) in H. destruct l; [set_solver|simpl in H; lia]. }
  assert (OC : forall i m, out !! i = Some m -> exists l r, srt cs !! i = Some l /\ m ≡ₚ l /\ cs !! r = Some l).
  { intros i m E. pose proof (lookup_lt_Some _ _ _ E) as Hl. destruct (lookup_lt_is_Some_2 (srt cs) i) as [l El]; [lia|].
    assert (l ∈ cs) as [r Er]%elem_of_list_lookup by (rewrite <- P; by eapply elem_of_list_lookup_2).
    exists l, r. split; [done|]. split; [by apply (Q1 i)|done]. }
  assert (LOC : forall x, x < gn g -> exists i m j, out !! i = Some m /\ m !! j = Some x).
  { intros x Hx. apply IN, elem_of_concat in Hx as (i & l & E & Hx). destruct (AL _ _ _ E Hx) as (m & Em & Pm).
    assert (x ∈ m) as [j Ej]%elem_of_list_lookup by by rewrite Pm. eauto. }
  assert (BI : forall x c, idx !! x = Some c -> c < length out).
  { intros x c E. assert (x < gn g) as Hx by (rewrite <- L1; by eapply lookup_lt_Some).
    destruct (LOC x Hx) as (i & m & j & Em & Ej). destruct (Q4 _ _ _ _ Em Ej) as [E' _].
    simpl in E'. assert (c = i) as -> by congruence. by eapply lookup_lt_Some. }
  destruct (distribute_ok g idx lab (length out) W L1 L2 BI) as (gs & -> & Lg & G). cbn [rbind].
  eexists; split; [done|].
  assert (INg : forall i m x, out !! i = Some m -> x ∈ m -> x < gn g).
  { intros i m x Em Hx. destruct (OC _ _ Em) as (l & r & El & Pm & Er). rewrite Pm in Hx. by apply (K _ _ Er). }
  assert (PATH : forall x y c j d k l m, out !! c = Some l -> l !! j = Some x -> out !! d = Some m -> m !! k = Some y ->
     c = d <-> rtc (edge g) x y).
  { intros x y c j d k l m Ec Ej Ed Ek.
    destruct (OC _ _ Ec) as (lc & r & El & Pc & Er). destruct (OC _ _ Ed) as (ld & s & El' & Pd & Es).
    assert (Hx : x ∈ lc) by (rewrite <- Pc; by eapply elem_of_list_lookup_2).
    assert (Hy : y ∈ ld) by (rewrite <- Pd; by eapply elem_of_list_lookup_2).
    destruct (K _ _ Er) as [_ K1]. destruct (K _ _ Es) as [_ K2].
    pose proof (proj1 (K1 x) Hx) as [_ Rx]. pose proof (proj1 (K2 y) Hy) as [_ Ry].
    change (rtc (edge g) x y) with (rtc (eset (ge g)) x y). rewrite <- eset_rev, <- (C _ _ _ _ Rx Ry). split.
    - intros ->. assert (ld = lc) by congruence. subst. apply (K1 y) in Hy as [_ Hy]. exact (Root_det _ _ _ _ Hy Ry).
    - intros ->. assert (ld = lc) by congruence. subst.
      assert (Hy' : y ∈ l) by by rewrite Pc. apply elem_of_list_lookup in Hy' as [j' Ej'].
      pose proof (Q4 _ _ _ _ Ec Ej') as [E1 _]. pose proof (Q4 _ _ _ _ Ed Ek) as [E2 _]. simpl in *. congruence. }
  assert (EDG : forall c gc i j, gs !! c = Some gc ->
     edge gc i j <-> exists x y, (exists l, out !! c = Some l /\ l !! i = Some x) /\ (exists l, out !! c = Some l /\ l !! j = Some y) /\ edge g x y).
  { intros c gc i j Eg. destruct (G _ _ Eg) as [_ GG].
    assert (FW : forall i j, (i, j) ∈ ge gc -> exists x y, (exists l, out !! c = Some l /\ l !! i = Some x) /\ (exists l, out !! c = Some l /\ l !! j = Some y) /\ (x, y) ∈ ge g).
    { clear i j. intros i j (a & b & Hab & Ea & La & Lb)%GG. destruct (W _ _ Hab) as [Ha Hb].
      destruct (LOC a Ha) as (ca & ma & ja & Em & Ej). destruct (LOC b Hb) as (cb & mb & jb & Em' & Ej').
      destruct (Q4 _ _ _ _ Em Ej) as [X1 X2]. destruct (Q4 _ _ _ _ Em' Ej') as [Y1 Y2]. simpl in X1, Y1.
      assert (ca = c) as -> by congruence. assert (ja = i) as -> by congruence. assert (jb = j) as -> by congruence.
      assert (c = cb) as <-. { eapply (PATH a b); eauto. apply rtc_once. by left. }
      exists a, b. eauto 10. }
    assert (BW : forall i j x y, (exists l, out !! c = Some l /\ l !! i = Some x) -> (exists l, out !! c = Some l /\ l !! j = Some y) -> (x, y) ∈ ge g -> (i, j) ∈ ge gc).
    { clear i j. intros i j x y (l & El & Ei) (m & Em & Ej) H. apply GG.
      destruct (Q4 _ _ _ _ El Ei) as [X1 X2]. destruct (Q4 _ _ _ _ Em Ej) as [Y1 Y2]. exists x, y. done. }
    split.
    - intros [H|H]; apply FW in H as (x & y & ? & ? & ?); [exists x, y|exists y, x]; (split; [done|]; split; [done|]);
        [by left|by right].
    - intros (x & y & Hx & Hy & [H|H]); [left|right]; eauto. }
  split; simpl.
  - intros x Hx. destruct (LOC x Hx) as (i & m & j & Em & Ej). exists i, j, m. done.
  - intros x c j (l & El & Ej). destruct (Q4 _ _ _ _ El Ej). split; [|done].
    eapply INg; [done|]. by eapply elem_of_list_lookup_2.
  - done.
  - intros x y c j d k (l & ? & ?) (m & ? & ?). eauto.
  - intros c l El. destruct (OC _ _ El) as (lc & r & E & Pc & Er). destruct (Q1 _ _ _ E El) as [Pm Nl].
    intros ->. apply Nl. symmetry. by apply Permutation_nil_l.
  - intros c d l m Hcd El Em. destruct (OC _ _ El) as (lc & r & E & Pc & Er). destruct (OC _ _ Em) as (ld & s & E' & Pd & Es).
    rewrite Pc, Pd. eapply (sorted_lookup _ S c d); eauto. lia.
  - intros c l r El Er. by apply (Q3 c).
  - intros c gc i j Eg. unfold located. simpl. by apply EDG.
  - intros c gc l Eg El. destruct (G _ _ Eg) as [TT GG]. split; [intros a b; by apply TT|]. split; [|split].
    + apply TT. intros a b Hab.
      assert (EE : edge gc a b) by by left. apply (EDG _ _ _ _ Eg) in EE as (x & y & (l1 & E1 & J1) & (l2 & E2 & J2) & _).
      assert (l1 = l) as -> by congruence. assert (l2 = l) as -> by congruence. split; by eapply lookup_lt_Some.
    + intros H2. apply Nat.le_antisymm.
      { apply TT. intros a b Hab.
        assert (EE : edge gc a b) by by left. apply (EDG _ _ _ _ Eg) in EE as (x & y & (l1 & E1 & J1) & (l2 & E2 & J2) & _).
        assert (l1 = l) as -> by congruence. assert (l2 = l) as -> by congruence. split; by eapply lookup_lt_Some. }
      destruct (decide (length l <= gn gc)) as [|N]; [done|exfalso].
      assert (GT : gn gc <= length l - 1) by lia. rewrite (TT (length l - 1)) in GT.
      destruct (lookup_lt_is_Some_2 l (length l - 1)) as [x Ex]; [lia|].
      destruct (lookup_lt_is_Some_2 l 0) as [y Ey]; [lia|].
      assert (ND' : NoDup l).
      { destruct (OC _ _ El) as (lc & r & E & Pc & Er). rewrite Pc. apply (K _ _ Er). }
      assert (x <> y). { intros ->. assert (length l - 1 = 0) by (eapply NoDup_lookup; eauto). lia. }
      assert (RT : rtc (edge g) x y) by (eapply PATH; eauto).
      destruct (rtc_step_out _ _ _ RT H) as [z Hz].
      assert (Hzn : z < gn g) by (destruct Hz as [Hz|Hz]; destruct (W _ _ Hz); done).
      destruct (LOC z Hzn) as (cz & mz & jz & Ez & Jz).
      assert (c = cz) as <- by (eapply (PATH x z); eauto; by apply rtc_once).
      assert (ED : edge gc (length l - 1) jz).
      { apply (EDG _ _ _ _ Eg). exists x, z. eauto 10. }
      destruct ED as [ED|ED]; apply GT in ED; lia.
    + split; [|].
      * intros Z. destruct (ge gc) as [|[a b] es] eqn:Ee; [done|]. exfalso.
        assert (ZZ : gn gc <= 0) by lia. rewrite (TT 0) in ZZ. specialize (ZZ a b). rewrite Ee in ZZ. specialize (ZZ ltac:(set_solver)). lia.
      * intros Z. apply Nat.le_0_r, TT. rewrite Z. intros a b []%elem_of_nil.
Qed.
