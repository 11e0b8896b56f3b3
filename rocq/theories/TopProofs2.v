(** The whole run. *)
From stdpp Require Import base list numbers gmap relations sorting.
From Verif Require Import Base ChainModel ChainProofs ChainProofs2 EmbModel Spec SpecEmb EmbProofs EmbProofs2 EmbProofs3 EmbProofs4 EmbProofs5 EmbProofs6 EmbOps EmbProofs7 EmbProofs8 EmbProofs9
  QueueModel PathModel Wp PrepProofs RunProofs1 RunProofs3 RunProofs4 RunProofs5
  GraphModel SpecGraph GraphProofs GraphProofs2 ParamModel ParamProofs ParamProofs2 SpecTop TopProofs.

Lemma histogram_fmap {A B} (f : A -> nat) (g : B -> nat) xs ys h :
  f <$> xs ≡ₚ g <$> ys -> histogram f xs h -> histogram g ys h.
Proof.
  intros P (H1 & H2 & H3).
  assert (Cn : forall X (k : X -> nat) l i, length (List.filter (fun a => Nat.eqb (k a) i) l) = length (List.filter (fun n => Nat.eqb n i) (k <$> l))).
  { intros X k l i. induction l as [|x l IH]; [done|]. rewrite fmap_cons; simpl; destruct (Nat.eqb (k x) i); simpl; rewrite IH; done. }
  assert (Pf : forall i l l', l ≡ₚ l' -> length (List.filter (fun n => Nat.eqb n i) l) = length (List.filter (fun n => Nat.eqb n i) l')).
  { intros i l l' Hp. induction Hp; simpl; repeat (destruct (Nat.eqb _ i)); simpl; congruence. }
  split; [|split].
  - intros i x Hi. rewrite (H1 i x Hi). by rewrite Cn, (Cn _ g), (Pf _ _ _ P).
  - intros b Hb. assert (g b ∈ f <$> xs) as Hg by (rewrite P; apply elem_of_list_fmap; eauto).
    apply elem_of_list_fmap in Hg as (a & -> & Ha). auto.
  - intros L. destruct (H3 L) as (a & Ha & Ea). assert (f a ∈ g <$> ys) as Hf by (rewrite <- P; apply elem_of_list_fmap; eauto).
    apply elem_of_list_fmap in Hf as (b & Eb & Hb). exists b. split; [done|]. congruence.
Qed.

Section top.
Context (vg qg : graph) (p : params) (o : oracle) (G : good_input vg qg p o).
Context (pp : processed) (PO : pp_ok vg qg p pp).
Notation cp := (pp_comps pp).
Notation nv0 := (pp_nvars pp - pp_nfixed pp).
Notation nq0 := (pp_qubits pp - pp_reserved pp).
Notation top_pb := (top_pb pp).
Context {D0 : nat -> nat -> Prop}.
Notation F0 := (mkFD (fixmap (pp_fixed pp)) D0).
Notation E0 := (nbr (pp_vnbrs pp)).
Notation result_of := (result_of vg pp).

Lemma top_vn_ok : vn_ok top_pb E0 (pp_vnbrs pp).
Proof. clear D0. split; [apply (top_vn_wf vg qg p pp PO)|done]. Qed.

Lemma top_init_vn vn : vn_ok top_pb E0 vn -> dom_ok top_pb E0 D0 (pp_initial pp) -> 0 < nq0 -> exists init, emb_init top_pb vn (pp_fixed pp) (pp_initial pp) = Ok init /\
  einv top_pb E0 F0 init /\ wexact init /\
  (forall v i, pp_screw pp !! v = Some i -> forall q, (exists j, located cp q 0 j /\ in_chain init i j) <-> starting p v q) /\
  (forall v C, (v, C) ∈ pp_initial pp -> connected_in (adjq top_pb) (in_chain init v) -> linkedto init v v) /\
  (forall v C u, (v, C) ∈ pp_initial pp -> E0 v u -> touching (adjq top_pb) (in_chain init) v u -> linkedto init v u).
Proof.
  intros VO HD0 H0. pose proof (top_pb_wf vg qg p o G pp PO) as PW. pose proof VO as [VW VE].
  pose proof (top_chain_input vg qg p o G pp PO H0) as CI. pose proof (chain_input_dom _ _ _ _ _ CI HD0) as IP.
  destruct (emb_init_spec top_pb E0 F0 vn (pp_fixed pp) (pp_initial pp) PW VW (fun a b => proj1 (VE a b)) IP) as (init & Hi & I & H1 & H2).
  destruct (emb_init_wexact top_pb E0 vn (pp_fixed pp) (pp_initial pp) init PW VO CI Hi) as [_ W].
  destruct (emb_init_complete top_pb E0 F0 vn (pp_fixed pp) (pp_initial pp) PW VW (fun a b => proj1 (VE a b)) IP) as (init' & Hi' & C1 & C2).
  rewrite Hi in Hi'. injection Hi' as <-. exists init. split; [done|]. split; [done|]. split; [done|]. split; [|split; [done|intros v C u HC Ev; apply (C2 v C u HC); by apply VE]].
  destruct (po_fixed _ _ _ _ PO) as (FC & FN & FK). destruct (po_initial _ _ _ _ PO) as (IC & IN & IK).
  intros v i Hvi q. split.
  - intros (j & Lj & Hin).
    destruct (decide (i ∈ (pp_fixed pp ++ pp_initial pp).*1)) as [Hk|Nk].
    + apply elem_of_list_fmap in Hk as ([i' D] & -> & Hk). simpl in *. destruct (H1 _ _ Hk) as (c & Hc & Qc).
      apply (in_chain_qin _ _ _ _ Hc), Qc in Hin.
      assert (exists v' C, (v', C) ∈ p_fixed p ++ p_initial p /\ pp_screw pp !! v' = Some i' /\ Forall2 (fun x j => located cp x 0 j) C D) as (v' & C & HC & Hs & Hf).
      { apply elem_of_app in Hk as [Hk|Hk]; [apply FK in Hk|apply IK in Hk]; destruct Hk as (v' & C & ? & ? & ?); exists v', C; rewrite elem_of_app; auto. }
      assert (v' = v) as -> by (by eapply screw_inj). exists C. split; [done|].
      apply (relabel_in _ _ _ _ PO _ _ _ Hf) in Hin as (x & Hx & Lx). assert (x = q) as -> by (by eapply located_inj). done.
    + destruct (H2 i Nk) as (c & Hc & Sz). { simpl. rewrite (top_nv _ _ _ _ PO). by eapply screw_lt. }
      apply (in_chain_qin _ _ _ _ Hc) in Hin. by apply (qin_size c j) in Hin.
  - intros (C & HC & Hq).
    assert (exists D, (i, D) ∈ pp_fixed pp ++ pp_initial pp /\ Forall2 (fun x j => located cp x 0 j) C D) as (D & HD & Hf).
    { assert (exists D, Forall2 (fun x j => located cp x 0 j) C D) as [D HD].
      { assert (CQ : forall q, q ∈ C -> exists j, located cp q 0 j).
        { apply elem_of_app in HC as [HC|HC]; [by apply (FC v C HC)|by apply (IC v C HC)]. }
        clear HC Hq. induction C as [|q' C IH]; [exists []; constructor|]. destruct IH as [DD HD]; [intros; apply CQ; by right|].
        destruct (CQ q') as [j Hj]; [by left|]. exists (j :: DD). by constructor. }
      exists D. split; [|done]. apply elem_of_app in HC as [HC|HC]; apply elem_of_app; [left; apply FK|right; apply IK]; eauto. }
    destruct (H1 _ _ HD) as (c & Hc & Qc).
    apply elem_of_list_lookup in Hq as [k Hk]. destruct (Forall2_lookup_l _ _ _ _ _ Hf Hk) as (j & Hj & Lj).
    exists j. split; [done|]. apply (in_chain_qin _ _ _ _ Hc), Qc. by eapply elem_of_list_lookup_2.
Qed.

Lemma top_init : dom_ok top_pb E0 D0 (pp_initial pp) -> 0 < nq0 -> exists init, emb_init top_pb (pp_vnbrs pp) (pp_fixed pp) (pp_initial pp) = Ok init /\
  einv top_pb E0 F0 init /\ wexact init /\
  (forall v i, pp_screw pp !! v = Some i -> forall q, (exists j, located cp q 0 j /\ in_chain init i j) <-> starting p v q) /\
  (forall v C, (v, C) ∈ pp_initial pp -> connected_in (adjq top_pb) (in_chain init v) -> linkedto init v v) /\
  (forall v C u, (v, C) ∈ pp_initial pp -> E0 v u -> touching (adjq top_pb) (in_chain init) v u -> linkedto init v u).
Proof. intros HD0 H0. apply (top_init_vn _ top_vn_ok HD0 H0). Qed.

(** labels of a free chain; edges of the target graph between labels *)
Lemma edge_adj x y i j : located cp x 0 i -> located cp y 0 j -> j < nq0 -> x <> y -> edge qg x y -> adjq top_pb i j.
Proof. clear D0.
  intros Lx Ly Hj N EE. destruct (top_main vg qg p o G pp PO) as (R & gc & l & D & HR & Eg & El & Eq & Hr & Hl & Hres).
  destruct (po_qn _ _ _ _ PO) as [Lq Kq]. specialize (Kq gc Eg).
  left. change (nbr (pp_qnbrs pp) i j). apply Kq. split; [intros ->; apply N; by eapply located_inj|]. split; [done|].
  apply (dc_edges _ _ _ D _ _ _ _ Eg). eauto.
Qed.

Lemma linked_start e init b : pb e = top_pb -> 0 < nq0 ->
  einv top_pb E0 F0 init -> wexact init ->
  (forall v i, pp_screw pp !! v = Some i -> forall q, (exists j, located cp q 0 j /\ in_chain init i j) <-> starting p v q) ->
  (forall v C, (v, C) ∈ pp_initial pp -> connected_in (adjq top_pb) (in_chain init v) -> linkedto init v v) ->
  (forall v C u, (v, C) ∈ pp_initial pp -> E0 v u -> touching (adjq top_pb) (in_chain init) v u -> linkedto init v u) ->
  linked top_pb (pp_vnbrs pp) init = Ok b -> b = true <-> good_start vg qg p.
Proof.
  intros Ep H0 I W St LC LT Hl.
  destruct (linked_spec top_pb (pp_vnbrs pp) init) as (b' & Hl' & Hb).
  { by rewrite (ei_len _ _ _ _ I). } { apply (vnw_len _ _ (top_vn_wf vg qg p pp PO)). }
  rewrite Hl in Hl'. injection Hl' as <-. rewrite Hb. clear Hb Hl b. split.
  - intros Lk.
    destruct (get_chains vg qg p o G pp PO init H0) as (cs & _ & Rs).
    { rewrite (ei_len _ _ _ _ I). simpl. apply (top_nv _ _ _ _ PO). }
    { intros v c Hc. rewrite <- (top_nq vg qg p o G pp PO). by apply (ei_below _ _ _ _ I v c Hc). }
    assert (OE : overlapping_embedding vg qg p cs).
    { eapply (full_result vg qg p o G pp PO e); eauto. split; [by rewrite Ep|]. split; [done|]. intros u Hu. rewrite Ep in Hu. destruct (Lk u Hu) as [L1 L2]. split; [done|].
      intros v Ev _. by apply L2. }
    destruct Rs as (Lcs & Ncs & Rcs).
    assert (HS : forall v q, v < gn vg -> has_qubit cs v q <-> starting p v q).
    { intros v q Hv. destruct (screw_ex _ _ _ _ PO v Hv) as [i Hi]. rewrite Rcs, <- (St v i Hi q). split.
      - intros (i' & j & Hi' & ? & ?). assert (i' = i) as -> by congruence. eauto.
      - intros (j & ? & ?). eauto. }
    split.
    + intros v Hv. destruct (lookup_lt_is_Some_2 cs v) as [C HC]; [lia|]. destruct (oe_nodup _ _ _ _ OE v C HC) as (_ & NE & _).
      destruct C as [|q C]; [done|]. exists q. apply (HS v q Hv). exists (q :: C). split; [done|by left].
    + intros v Hv Nf x y Hx Hy. apply (HS v x Hv) in Hx. apply (HS v y Hv) in Hy.
      pose proof (oe_connected _ _ _ _ OE v Hv Nf x y Hx Hy) as R. eapply rtc_subrel; [|exact R].
      intros a b (? & ? & ?). split; [done|]. split; by apply HS.
    + intros u v EE N Nf. destruct (oe_edges _ _ _ _ OE u v EE N Nf) as (x & y & Hx & Hy & Hxy).
      assert (u < gn vg /\ v < gn vg) as [Hu Hv]. { destruct EE as [EE|EE]; destruct (gi_vg _ _ _ _ G _ _ EE); done. }
      exists x, y. split; [by apply HS|]. split; [by apply HS|done].
  - intros [G1 G2 G3] i Hi. simpl in Hi.
    destruct (unscrew_ex vg qg p pp PO i) as [v Hv]; [pose proof (top_nv _ _ _ _ PO); lia|].
    assert (Nf : ~ is_fixed p v) by (by apply (screw_free vg qg p pp PO v i Hv)).
    assert (Lv : v < gn vg) by apply (screw_lt vg qg p pp PO _ _ Hv).
    assert (exists D, (i, D) ∈ pp_initial pp) as [D HD].
    { destruct (G1 v Lv) as (q & C & HC & Hq). apply elem_of_app in HC as [HC|HC]; [destruct Nf; by exists C|].
      destruct (po_initial _ _ _ _ PO) as (IC & IN & IK). destruct (IC v C HC) as [_ CQ].
      assert (exists D, Forall2 (fun x j => located cp x 0 j) C D) as [D HD].
      { clear HC Hq. induction C as [|q' C IH]; [exists []; constructor|]. destruct IH as [DD HD]; [intros; apply CQ; by right|].
        destruct (CQ q') as [j Hj]; [by left|]. exists (j :: DD). by constructor. }
      exists D. apply IK. eauto. }
    destruct (lookup_lt_is_Some_2 (chains init) i) as [c Hc].
    { rewrite (ei_len _ _ _ _ I). simpl. lia. }
    assert (Bi : forall j, in_chain init i j -> j < nq0).
    { intros j Hj. apply (in_chain_qin _ _ _ _ Hc) in Hj. by apply (ei_bound _ _ _ _ I i c j Hc Hj). }
    assert (Loc : forall k w j, pp_screw pp !! w = Some k -> in_chain init k j -> exists x, located cp x 0 j /\ starting p w x).
    { intros k w j Hw Hj. destruct (top_main vg qg p o G pp PO) as (R & gc & l & D' & HR & Eg & El & Eq & Hr & Hl & Hres).
      specialize (Hl ltac:(lia)). pose proof Hj as (ck & Hck & Qj).
      destruct (lookup_lt_is_Some_2 l j) as [x Hx].
      { rewrite <- Hl, <- (top_nq vg qg p o G pp PO). apply (ei_below _ _ _ _ I k ck Hck). by apply pm_is_Some. }
      exists x. assert (Lx : located cp x 0 j) by by exists l. split; [done|]. apply (St w k Hw). eauto. }
    split.
    + apply (LC i D HD). intros jx jy Hx Hy. destruct (Loc i v jx Hv Hx) as (x & Lx & Sx). destruct (Loc i v jy Hv Hy) as (y & Ly & Sy).
      specialize (G2 v Lv Nf x y Sx Sy). clear Sx Hx. revert jx Lx. induction G2 as [x|x z y (A1 & A2 & A3) _ IH]; intros jx Lx.
      * destruct (po_dec _ _ _ _ PO) as (R & D' & _). destruct (located_det _ _ _ _ _ _ _ _ D' Lx Ly) as [_ ->]. constructor.
      * destruct (proj2 (St v i Hv _) A3) as (jz & Lz & Iz). destruct (decide (x = z)) as [->|Nxz].
        { destruct (po_dec _ _ _ _ PO) as (R & D' & _). destruct (located_det _ _ _ _ _ _ _ _ D' Lx Lz) as [_ ->]. by apply IH. }
        destruct (proj2 (St v i Hv _) A2) as (jx' & Lx' & Ix).
        destruct (po_dec _ _ _ _ PO) as (R & D' & _). destruct (located_det _ _ _ _ _ _ _ _ D' Lx Lx') as [_ ->].
        eapply rtc_l; [|by apply IH]. split; [|done]. apply (edge_adj x z); auto.
    + intros k Ek. apply (LT i D k HD Ek). destruct (po_vn _ _ _ _ PO) as (_ & _ & Kv).
      apply Kv in Ek as (Nik & v' & w & Hv' & Hw & _ & EE). assert (v' = v) as -> by (by eapply screw_inj).
      assert (Nvw : v <> w) by (intros ->; congruence).
      destruct (G3 v w EE Nvw) as (x & y & Sx & Sy & Hxy); [tauto|].
      apply (St v i Hv) in Sx as (jx & Lx & Ix). apply (St w k Hw) in Sy as (jy & Ly & Iy).
      exists jx, jy. split; [done|]. split; [done|].
      destruct (decide (x = y)) as [->|Nxy].
      { left. destruct (po_dec _ _ _ _ PO) as (R & D' & _). by destruct (located_det _ _ _ _ _ _ _ _ D' Lx Ly). }
      right. destruct Hxy as [|Hxy]; [done|]. apply adjq_sym. apply (edge_adj y x); auto. destruct Hxy; [right|left]; done.
Qed.

Lemma top_safe e m : pb e = top_pb -> wtab e = o_wtab o m -> safe_input vg qg p o ->
  ((Z.of_nat (gn vg) * Z.of_nat (gn qg) < 4294967296)%Z -> (0 < m < 4294967296)%Z /\ (Z.of_nat nq0 <= m)%Z /\
        forall l, l ∈ pp_vnbrs pp -> (Z.of_nat (length l) * Z.of_nat nq0 <= m)%Z) -> safe_env e E0.
Proof. clear D0.
  intros Ep Ew S Hm. destruct (Hm (si_product _ _ _ _ S)) as (Pm & Qm & Dm). split.
  - rewrite Ep. simpl.
    assert (DD : forall v, Decision (exists i, pp_screw pp !! v = Some i /\ i < nv0)).
    { intros v. destruct (pp_screw pp !! v) as [i|]; [|right; by intros (? & ? & _)].
      destruct (decide (i < nv0)); [left; eauto|right; intros (? & [= <-] & ?); done]. }
    pose (fv := base.filter (fun v => exists i, pp_screw pp !! v = Some i /\ i < nv0) (seq 0 (gn vg))).
    assert (L : length fv <= 64).
    { apply (si_free _ _ _ _ S).
      - apply NoDup_filter, NoDup_seq.
      - intros v [(i & Hi & Li) Hv%elem_of_seq]%elem_of_list_filter. split; [lia|]. by apply (screw_free vg qg p pp PO v i Hi). }
    etrans; [|exact L]. rewrite <- (seq_length nv0 0), <- (fmap_length (fun v => default 0 (pp_screw pp !! v)) fv).
    apply submseteq_length, NoDup_submseteq; [apply NoDup_seq|]. intros i Hi%elem_of_seq.
    pose proof (top_nv _ _ _ _ PO) as Nv.
    destruct (unscrew_ex vg qg p pp PO i ltac:(lia)) as [w Hw]. apply elem_of_list_fmap. exists w. rewrite Hw. split; [done|].
    apply elem_of_list_filter. split; [exists i; split; [done|lia]|]. apply elem_of_seq. pose proof (screw_lt vg qg p pp PO _ _ Hw). lia.
  - exists (max_distance / m)%Z. rewrite Ep. simpl.
    assert (M0 : (0 <= max_distance / m)%Z) by (apply Z.div_pos; [done|lia]).
    assert (M1 : (m * (max_distance / m) <= max_distance)%Z) by (apply Z.mul_div_le; lia).
    split; [done|]. split; [nia|]. split.
    + intros mm c Hc Hmm. rewrite Ew. apply Z.div_le_lower_bound; [lia|]. rewrite Z.mul_comm. by apply (si_table _ _ _ _ S).
    + intros u l Hu Nl Hl. 
      destruct (lookup_lt_is_Some_2 (pp_vnbrs pp) u) as [l' Hl'].
      { destruct (po_vn _ _ _ _ PO) as (Lv & _). rewrite Lv. pose proof (top_nv _ _ _ _ PO). lia. }
      assert (length l <= length l').
      { apply submseteq_length, NoDup_submseteq; [done|]. intros v Hv. apply Hl in Hv as (l2 & H2 & ?). by assert (l2 = l') as -> by congruence. }
      specialize (Dm l' ltac:(by eapply elem_of_list_lookup_2)). rewrite Z.mul_assoc. etrans; [|exact M1].
      apply Z.mul_le_mono_nonneg_r; [done|]. etrans; [|exact Dm]. apply Z.mul_le_mono_nonneg_r; lia.
Qed.

Lemma top_heuristic_at (sf : bool) e m init s curr last : (sf = true -> safe_env e E0) -> pb e = top_pb -> 0 < nq0 -> wtab e = o_wtab o m ->
  chain_fuel e = o_fuel o -> chainlength_patience e = p_chainlength_patience p ->
  einv top_pb E0 F0 init -> wexact init -> rinv e E0 s -> abl e (best s) -> abl e curr -> abl e last ->
  wpo (fun x => runerr sf (interactive e) x \/ (x = BadInit /\ (skip_init e = true -> linked top_pb (vn s) init = Ok false)))
    (heuristic_embedding e init s curr last) (heur_post e E0 F0 init s).
Proof.
  intros Hsf Ep H0 Ew Ef Epa I W R Ab1 Ab2 Ab3.
  pose proof (top_nv _ _ _ _ PO) as Nv. pose proof (top_nq vg qg p o G pp PO) as Nq.
  pose proof (comp_le vg qg p o G pp PO) as Qb.
  pose proof (gi_size _ _ _ _ G) as Sz.
  eapply wpr_weak.
  2: { intros x Hx. rewrite <- Ep. exact Hx. }
  apply heuristic_spec; rewrite ?Ep; auto.
  - apply (top_pb_wf vg qg p o G pp PO).
  - by apply (top_even vg qg p o G pp PO).
  - simpl. unfold max_distance. lia.
  - intros m' c Hc. rewrite Ew. by apply (gi_wt _ _ _ _ G).
  - simpl. apply (top_fix vg qg p o G pp PO H0).
  - simpl. rewrite Nv. apply (gi_v0 _ _ _ _ G).
  - unfold fuel_ok, BB. rewrite Ep, Ef, Epa. simpl. pose proof (gi_fuel _ _ _ _ G) as Fu.
    etrans; [|exact Fu]. apply Z.mul_le_mono_nonneg_l; [lia|]. apply Z.add_le_mono_r.
    etrans; [apply Z.pow_le_mono_l; split; [lia|]|apply Z.pow_le_mono_r; lia]. lia.
  - intros v Hv. by apply (top_fne vg qg p o G pp PO).
Qed.

Lemma top_heuristic (sf : bool) e m init : (sf = true -> safe_env e E0) -> make_env pp p o = Ok e -> pb e = top_pb -> 0 < nq0 -> wtab e = o_wtab o m ->
  interactive e = p_interactive p -> chain_fuel e = o_fuel o -> chainlength_patience e = p_chainlength_patience p ->
  einv top_pb E0 F0 init -> wexact init ->
  wpo (fun x => runerr sf (p_interactive p) x \/ (x = BadInit /\ (skip_init e = true -> linked top_pb (pp_vnbrs pp) init = Ok false)))
    (heuristic_embedding e init (pathfinder_new e (pp_vnbrs pp)) (emb_new (pb e)) (emb_new (pb e)))
    (heur_post e E0 F0 init (pathfinder_new e (pp_vnbrs pp))).
Proof.
  intros Hsf He Ep H0 Ew Ei Ef Epa I W. rewrite <- Ei. eapply wpr_weak.
  2: { intros x Hx. rewrite <- (top_vn_new pp e). exact Hx. }
  apply (top_heuristic_at sf e m init); auto.
  - by apply (top_new_rinv vg qg p o G pp PO).
  - rewrite top_best_new. apply new_abl.
  - apply new_abl.
  - apply new_abl.
Qed.

(** what the final best embedding says about the returned chains *)
Lemma top_final e s' cs : pb e = top_pb -> 0 < nq0 -> binv e E0 F0 s' -> result_of (best s') cs ->
  overlapping_embedding vg qg p cs /\ (embedded (md s') = true <-> disjoint_chains cs) /\
  (embedded (md s') = true -> forall fv, free_vars vg p fv -> histogram (chain_len cs) fv (stats s')).
Proof.
  intros Ep H0 [Fu St] Rs. split; [by eapply (full_result vg qg p o G pp PO e)|].
  pose proof (disjoint_result vg qg p o G pp PO e _ _ Ep H0 Fu Rs) as Dj.
  pose proof Fu as (I & W & _).
  destruct (statistics_einv (pb e) E0 F0 (best s') I W) as (b & h & Es & _ & Hb & Ht & _).
  rewrite St in Es. injection Es as <- <-. split.
  - rewrite Hb, <- Dj, Ep. simpl. split; intros H q Hq; specialize (H q Hq); rewrite users_sumind in *; lia.
  - intros Em fv [Nfv Hfv]. specialize (Ht Em). rewrite Ep in Ht. simpl in Ht.
    eapply histogram_fmap; [|exact Ht].
    rewrite Ep in I. destruct Rs as (Lcs & Ncs & _).
    set (sc := fun v => default 0 (pp_screw pp !! v)).
    assert (Hsc : forall v, v ∈ fv -> v < gn vg /\ pp_screw pp !! v = Some (sc v) /\ sc v < nv0).
    { intros v [Hv Nf]%Hfv. destruct (screw_ex _ _ _ _ PO v Hv) as [i Hi]. unfold sc. rewrite Hi. simpl.
      split; [done|]. split; [done|]. by apply (screw_free vg qg p pp PO v i Hi). }
    assert (Pm : sc <$> fv ≡ₚ seq 0 nv0).
    { apply NoDup_Permutation.
      - apply NoDup_fmap_2_strong; [|done]. intros x y Hx Hy Exy. destruct (Hsc x Hx) as (_ & Sx & _). destruct (Hsc y Hy) as (_ & Sy & _).
        rewrite Exy in Sx. by eapply screw_inj.
      - apply NoDup_seq.
      - intros i. rewrite elem_of_list_fmap, elem_of_seq. split.
        + intros (v & -> & Hv). destruct (Hsc v Hv) as (_ & _ & ?). lia.
        + intros Hi. destruct (unscrew_ex vg qg p pp PO i) as [v Hv]; [pose proof (top_nv _ _ _ _ PO); lia|].
          exists v. split; [unfold sc; by rewrite Hv|]. apply Hfv. split; [apply (screw_lt vg qg p pp PO _ _ Hv)|].
          apply (screw_free vg qg p pp PO v i Hv). lia. }
    rewrite <- Pm, <- list_fmap_compose.
    assert (Eq : chain_size (best s') ∘ sc <$> fv = chain_len cs <$> fv); [|by rewrite Eq].
    apply list_fmap_ext. intros k v Hk. apply elem_of_list_lookup_2 in Hk. destruct (Hsc v Hk) as (Lv & Sv & _).
    unfold compose, chain_size, chain_len. destruct (lookup_lt_is_Some_2 cs v) as [C HC]; [lia|]. rewrite HC.
    destruct (lookup_lt_is_Some_2 (chains (best s')) (sc v)) as [c Hc].
    { rewrite (ei_len _ _ _ _ I). simpl. rewrite (top_nv _ _ _ _ PO). apply (screw_lt vg qg p pp PO _ _ Sv). }
    rewrite Hc. symmetry. destruct (Ncs v C HC) as [_ Nc]. by apply (Nc (sc v)).
Qed.
End top.

Lemma valid_iff vg cp p : valid_chains vg cp p <-> input_valid vg cp p.
Proof.
  unfold valid_chains, input_valid, chains_in. split.
  - intros [Hv H]. split; [|split; [|split; [|done]]]; intros v C HC; apply H; rewrite !elem_of_app; auto.
  - intros (H1 & H2 & H3 & Hv). split; [done|]. intros v C. rewrite !elem_of_app. intros [H|[H|H]]; auto.
Qed.

Lemma nodup_same_length (l l' : list nat) : NoDup l -> NoDup l' -> (forall x, x ∈ l <-> x ∈ l') -> length l = length l'.
Proof. intros N N' H. by rewrite (NoDup_Permutation l l' N N' H). Qed.

Lemma find_embedding_spec' (sf : bool) vg qg p o : good_input vg qg p o -> (sf = true -> safe_input vg qg p o) ->
  exists cp R, decomposition qg R cp /\ (forall q, q < gn qg -> R q = true <-> in_fixed p q) /\
  (~ valid_chains vg cp p -> find_embedding vg qg p o = Err Corrupt) /\
  (valid_chains vg cp p -> p_skip_init p = true -> ~ good_start vg qg p ->
     find_embedding vg qg p o = Err BadInit \/ (find_embedding vg qg p o = Err TooSmall /\ too_small vg qg cp p)) /\
  wpo (fun x => (x = Overflow /\ sf = false) \/ (x = Cancelled /\ p_interactive p = false) \/
                (x = BadInit /\ (p_skip_init p = true -> ~ good_start vg qg p)) \/
                (x = Corrupt /\ ~ valid_chains vg cp p) \/ (x = TooSmall /\ too_small vg qg cp p))
    (find_embedding vg qg p o)
    (fun r => valid_chains vg cp p /\ outcome vg qg p r /\
       (p_skip_init p = true -> good_start vg qg p /\ kept_or_improved vg qg p r)).
Proof.
  intros G Hsf. destruct (process_spec vg qg p (o_sort o) (good_input_ok _ _ _ _ G) (gi_sort _ _ _ _ G)) as (cp & R & D & HR & Hp).
  exists cp, R. split; [done|]. split; [done|]. unfold find_embedding.
  setoid_rewrite <- (valid_iff vg cp p) in Hp.
  destruct Hp as [(pp & -> & V & PO & Ec)|[-> NV]]; cbn [rbind]; [split; [tauto|]|split; [done|]].
  2: { simpl. split; [tauto|]. auto 6. }
  subst cp.
  destruct (top_env vg qg p o G pp PO) as [[-> TS]|(e & m & He & Ep & H0 & Ew & Esk & Ei & Ef & Epa & Hmm)]; cbn [rbind]; [simpl; split; [auto|auto 7]|].
  rewrite He. cbn [rbind]. pose proof (top_init (D0 := fun _ _ => True) vg qg p o G pp PO (conj (fun _ _ _ _ _ => I) (fun _ _ _ _ _ => I)) H0) as (init & Hi & I & W & St & LC & LT).
  rewrite Ep, Hi. cbn [rbind]. rewrite <- Ep.
  split.
  { intros _ Sk NG. left. unfold heuristic_embedding. cbv zeta. rewrite Esk, Sk. 
    change (vn (reset_mood e (pathfinder_new e (pp_vnbrs pp)))) with (vn (pathfinder_new e (pp_vnbrs pp))). rewrite top_vn_new.
    destruct (linked_spec (top_pb pp) (pp_vnbrs pp) init) as (b & Hl & _).
    { by rewrite (ei_len _ _ _ _ I). } { apply (vnw_len _ _ (top_vn_wf vg qg p pp PO)). }
    rewrite Ep, Hl. cbn [rbind]. destruct b; [|done].
    destruct NG. by apply (linked_start vg qg p o G pp PO e init true Ep H0 I W St LC LT Hl). }
  eapply wpr_step.
  { eapply wpr_weak; [eapply (top_heuristic vg qg p o G pp PO sf); eauto; intros Es; eapply (top_safe vg qg p o pp PO); eauto|]. intros x [[Hx|[-> Hx]]|[-> Hx]]; [by left|by right; left|].
    right; right; left. split; [done|]. intros Sk GS. rewrite <- Esk in Sk. specialize (Hx Sk).
    pose proof (linked_start vg qg p o G pp PO e init false Ep H0 I W St LC LT Hx) as Z. by apply Z in GS. }
  intros [[[ok s] c1] c2] (R' & A1 & A2 & Hpost). cbv beta iota.
  assert (Lb : length (chains (best s)) = gn vg /\ forall v c, chains (best s) !! v = Some c -> below c (pp_qubits pp)).
  { rewrite <- (top_nq vg qg p o G pp PO), <- (top_nv _ _ _ _ PO). destruct Hpost as [(_ & _ & ->)|((Fu & _) & _)].
    - rewrite top_best_new. pose proof (new_abl e) as [L1 _ _ L2]. rewrite Ep in L1, L2. rewrite Ep. done.
    - destruct Fu as (If & _ & _). rewrite Ep in If. split; [apply (ei_len _ _ _ _ If)|apply (ei_below _ _ _ _ If)]. }
  destruct Lb as [Lb1 Lb2]. destruct (get_chains vg qg p o G pp PO (best s) H0 Lb1 Lb2) as (cs & Hcs & Rs).
  assert (Out : (p_return_overlap p = true \/ ok = true) -> outcome vg qg p (ok, Some cs)).
  { intros Hr. split; [done|]. simpl. destruct Hpost as [(Sk & -> & Hb)|(B & -> & _)].
    - right. split; [done|]. split; [congruence|]. rewrite top_best_new in Hb.
      destruct Rs as (Lcs & _ & Rcs). apply list_eq. intros v. destruct (decide (v < gn vg)) as [Hv|Hv].
      + rewrite lookup_replicate_2 by done. destruct (lookup_lt_is_Some_2 cs v) as [C HC]; [lia|]. rewrite HC. f_equal.
        destruct C as [|q C]; [done|]. exfalso. assert (HQ : has_qubit cs v q) by (exists (q :: C); split; [done|by left]).
        apply Rcs in HQ as (i & j & _ & _ & (c & Hc & Q)). rewrite Hb in Hc. simpl in Hc. apply lookup_replicate in Hc as [-> _]. by destruct Q.
      + rewrite (lookup_ge_None_2 cs) by lia. symmetry. apply lookup_ge_None_2. rewrite replicate_length. lia.
    - left. destruct (top_final vg qg p o G pp PO e s cs Ep H0 B Rs) as (OE & Dj & _). done. }
  assert (Start : p_skip_init p = true -> good_start vg qg p /\
     forall cs0 fv, start_chains vg p cs0 -> free_vars vg p fv -> disjoint_chains cs0 -> ok = true /\
       ((forall v q, has_qubit cs v q <-> has_qubit cs0 v q) \/
       (exists h h0, histogram (chain_len cs) fv h /\ histogram (chain_len cs0) fv h0 /\ hist_lt h h0))).
  { intros Sk. destruct Hpost as [(Sk' & _)|(B & -> & Hsk)]; [congruence|].
    rewrite Esk in Hsk. destruct (Hsk Sk) as (s1 & b1 & B1 & C1 & Pr).
    assert (Lb' : length (chains init) = gn vg /\ forall v c, chains init !! v = Some c -> below c (pp_qubits pp)).
    { rewrite <- (top_nq vg qg p o G pp PO), <- (top_nv _ _ _ _ PO). split; [apply (ei_len _ _ _ _ I)|apply (ei_below _ _ _ _ I)]. }
    destruct Lb' as [Lb1' Lb2']. destruct (get_chains vg qg p o G pp PO init H0 Lb1' Lb2') as (ci & _ & Ri).
    assert (Ri1 : result_of vg pp (best s1) ci). { unfold result_of, in_chain in Ri |- *. rewrite C1. exact Ri. }
    destruct (top_final vg qg p o G pp PO e s1 ci Ep H0 B1 Ri1) as (OE & Dj & Hh).
    assert (HS : forall v q, v < gn vg -> has_qubit ci v q <-> starting p v q).
    { intros v q Hv. destruct (screw_ex _ _ _ _ PO v Hv) as [i Hi']. destruct Ri as (_ & _ & Rc). rewrite Rc, <- (St v i Hi' q). split.
      - intros (i' & j & Hi2 & ? & ?). assert (i' = i) as -> by congruence. eauto.
      - intros (j & ? & ?). eauto. }
    split.
    - destruct (linked_spec (top_pb pp) (pp_vnbrs pp) init) as (b & Hl & Hb).
      { by rewrite (ei_len _ _ _ _ I). } { apply (vnw_len _ _ (top_vn_wf vg qg p pp PO)). }
      apply (linked_start vg qg p o G pp PO e init b Ep H0 I W St LC LT Hl). apply Hb.
      intros u Hu. destruct B1 as [(I1 & _ & Gd) _]. destruct (Gd u) as [G1 G2]; [by rewrite Ep|].
      assert (LL : forall a b, linkedto (best s1) a b -> linkedto init a b) by (intros a b'; unfold linkedto; by rewrite C1).
      split; [by apply LL|]. intros v Ev. apply LL, G2; [done|].
      pose proof (oe_nodup _ _ _ _ OE) as NE. pose proof (vnw_range _ _ (top_vn_wf vg qg p pp PO) _ _ Ev) as Lv. simpl in Lv. rewrite (top_nv _ _ _ _ PO) in Lv.
      destruct (unscrew_ex vg qg p pp PO v Lv) as [w Hw]. pose proof (screw_lt vg qg p pp PO _ _ Hw) as [Lw _].
      destruct (lookup_lt_is_Some_2 ci w) as [C HC]; [destruct Ri as (-> & _); done|]. destruct (NE w C HC) as (_ & NEC & _).
      destruct C as [|q C]; [done|]. assert (HQ : has_qubit ci w q) by (exists (q :: C); split; [done|by left]).
      destruct Ri1 as (_ & _ & Rc). apply Rc in HQ as (i & j & Hwi & _ & (c & Hc & Q)). assert (i = v) as -> by congruence.
      exists c. split; [done|]. by apply (qin_size c j).
    - intros cs0 fv [L0 S0] Fv DJ.
      assert (E0 : forall v C C', cs0 !! v = Some C -> ci !! v = Some C' -> forall q, q ∈ C <-> q ∈ C').
      { intros v C C' HC HC' q. assert (Hv : v < gn vg) by (rewrite <- L0; by eapply lookup_lt_Some).
        destruct (S0 v C HC) as [_ ->]. rewrite <- (HS v q Hv). split; [|intros ?; by exists C'].
        intros (C2 & HC2 & Hq). congruence. }
      assert (EQ : forall v q, has_qubit ci v q <-> has_qubit cs0 v q).
      { destruct Ri as (Lci & _). intros v q. split.
        - intros (C & HC & Hq). destruct (lookup_lt_is_Some_2 cs0 v) as [C0 HC0]; [rewrite L0, <- Lci; by eapply lookup_lt_Some|].
          exists C0. split; [done|]. by apply (E0 v C0 C HC0 HC).
        - intros (C & HC & Hq). destruct (lookup_lt_is_Some_2 ci v) as [C0 HC0]; [rewrite Lci, <- L0; by eapply lookup_lt_Some|].
          exists C0. split; [done|]. by apply (E0 v C C0 HC HC0). }
      assert (Em : embedded (md s1) = true).
      { apply Dj. intros u v q Hu Hv. apply (DJ u v q); by apply EQ. }
      destruct (prog_emb _ _ _ (Pr Em) Em) as [Em' Hp]. split; [done|].
      destruct b1.
      + right. exists (stats s), (stats s1). destruct (top_final vg qg p o G pp PO e s cs Ep H0 B Rs) as (_ & _ & Hh').
        split; [by apply Hh'|]. split; [|done].
        eapply histogram_fmap; [|by apply (Hh Em)].
        assert (Eq : chain_len ci <$> fv = chain_len cs0 <$> fv); [|by rewrite Eq].
        apply list_fmap_ext. intros k v Hk. apply elem_of_list_lookup_2 in Hk. apply Fv in Hk as [Hv _]. unfold chain_len.
        destruct Ri as (Lci & Nci & _). destruct (lookup_lt_is_Some_2 ci v) as [C HC]; [lia|]. destruct (lookup_lt_is_Some_2 cs0 v) as [C0 HC0]; [lia|].
        rewrite HC, HC0. apply nodup_same_length; [by apply (Nci v C)|by apply (S0 v C0)|]. intros q. symmetry. by apply (E0 v C0 C).
      + left. destruct Hp as [Hb _]. intros v q. rewrite <- EQ. destruct Rs as (_ & _ & Rc), Ri1 as (_ & _ & Rc1). by rewrite Rc, Rc1, Hb. }
  destruct (p_return_overlap p || ok) eqn:Hr; cbn [rbind].
  - rewrite Hcs. cbn [rbind]. simpl. split; [done|]. split; [apply Out; by apply orb_prop in Hr|].
    intros Sk. destruct (Start Sk) as [GS K]. split; [done|]. intros cs0 fv H1 H2 H3. destruct (K cs0 fv H1 H2 H3) as [-> Hk].
    split; [done|]. exists cs. done.
  - simpl. apply orb_false_elim in Hr as [Hr1 Hr2]. split; [done|]. split; [done|].
    intros Sk. destruct (Start Sk) as [GS K]. split; [done|]. intros cs0 fv H1 H2 H3. destruct (K cs0 fv H1 H2 H3) as [Hk _]. congruence.
Qed.

Lemma find_embedding_spec vg qg p o : good_input vg qg p o ->
  exists cp R, decomposition qg R cp /\ (forall q, q < gn qg -> R q = true <-> in_fixed p q) /\
  (~ valid_chains vg cp p -> find_embedding vg qg p o = Err Corrupt) /\
  (valid_chains vg cp p -> p_skip_init p = true -> ~ good_start vg qg p ->
     find_embedding vg qg p o = Err BadInit \/ (find_embedding vg qg p o = Err TooSmall /\ too_small vg qg cp p)) /\
  wpo (fun x => x = Overflow \/ (x = Cancelled /\ p_interactive p = false) \/
                (x = BadInit /\ (p_skip_init p = true -> ~ good_start vg qg p)) \/
                (x = Corrupt /\ ~ valid_chains vg cp p) \/ (x = TooSmall /\ too_small vg qg cp p))
    (find_embedding vg qg p o)
    (fun r => valid_chains vg cp p /\ outcome vg qg p r /\
       (p_skip_init p = true -> good_start vg qg p /\ kept_or_improved vg qg p r)).
Proof.
  intros G. destruct (find_embedding_spec' false vg qg p o G) as (cp & R & D & HR & H1 & H2 & W); [done|].
  exists cp, R. repeat (split; [done|]). eapply wpr_weak; [exact W|]. intros x [[-> _]|H]; [by left|by right].
Qed.
Lemma safe_no_overflow vg qg p o : good_input vg qg p o -> safe_input vg qg p o -> find_embedding vg qg p o <> Err Overflow.
Proof.
  intros G S E. destruct (find_embedding_spec' true vg qg p o G) as (cp & R & D & HR & H1 & H2 & W); [done|].
  rewrite E in W. simpl in W. naive_solver.
Qed.
