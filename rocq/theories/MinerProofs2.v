(** The invariant of a miner object and one call. *)
From stdpp Require Import base list numbers gmap relations sorting.
From Verif Require Import Base ChainModel ChainProofs ChainProofs2 EmbModel Spec SpecEmb EmbProofs EmbProofs2 EmbProofs3 EmbProofs4 EmbProofs5 EmbProofs6 EmbOps EmbProofs7 EmbProofs8 EmbProofs9
  QueueModel PathModel Wp PrepProofs RunProofs1 RunProofs3 RunProofs4 RunProofs5 QuickProofs
  GraphModel SpecGraph GraphProofs GraphProofs2 ParamModel ParamProofs ParamProofs2 SpecTop TopProofs TopProofs2 MinerModel SpecMiner MinerProofs.

Lemma filter_down (f : nat -> bool) n : forall a, (forall v w, f w = true -> f v = false -> w < v) ->
  exists k, k <= n /\ List.filter f (seq a n) = seq a k.
Proof.
  induction n as [|n IH]; intros a H; simpl; [by exists 0|].
  destruct (f a) eqn:Fa.
  - destruct (IH (S a) H) as (k & Lk & ->). exists (S k). split; [lia|done].
  - exists 0. split; [lia|]. simpl. clear IH. 
    assert (K : forall m b, a <= b -> List.filter f (seq b m) = []); [|apply K; lia].
    induction m as [|m IHm]; intros b Hb; simpl; [done|]. destruct (f b) eqn:Fb; [|apply IHm; lia].
    specialize (H a b Fb Fa). lia.
Qed.

Lemma input_vars_ok n vf vs : length vf = n ->
  (exists U, input_vars n vf vs = Ok U /\ (forall v, v ∈ vs -> v < n) /\ forall v, v ∈ U <-> v ∈ vs /\ vf !! v = Some false) \/
  (input_vars n vf vs = Err Corrupt /\ exists v, v ∈ vs /\ n <= v).
Proof.
  intros L. unfold input_vars.
  enough (K : forall rest dn U, vs = dn ++ rest -> (forall v, v ∈ dn -> v < n) -> (forall v, v ∈ U <-> v ∈ dn /\ vf !! v = Some false) ->
     (exists U', foldM (fun U v => if decide (n <= v) then Err Corrupt else let! f := vget vf v in if negb f then Ok (U ++ [v]) else Ok U) rest U = Ok U' /\
        (forall v, v ∈ vs -> v < n) /\ forall v, v ∈ U' <-> v ∈ vs /\ vf !! v = Some false) \/
     (foldM (fun U v => if decide (n <= v) then Err Corrupt else let! f := vget vf v in if negb f then Ok (U ++ [v]) else Ok U) rest U = Err Corrupt /\ exists v, v ∈ vs /\ n <= v)).
  { apply (K vs [] []); [done|by intros v []%elem_of_nil|]. intros v. split; [by intros []%elem_of_nil|by intros [[]%elem_of_nil _]]. }
  induction rest as [|v rest IH]; intros dn U Ev Hd HU.
  { left. rewrite app_nil_r in Ev. subst dn. eauto. }
  simpl. case_decide as Hv.
  { right. split; [done|]. exists v. split; [|done]. rewrite Ev. set_solver. }
  destruct (lookup_lt_is_Some_2 vf v) as [f Ef]; [lia|]. rewrite (vget_ok _ _ _ Ef). cbn [rbind].
  assert (E1 : vs = (dn ++ [v]) ++ rest) by (by rewrite <- app_assoc).
  assert (E2 : forall w, w ∈ dn ++ [v] -> w < n) by (intros w [Hw| ->%elem_of_list_singleton]%elem_of_app; [auto|lia]).
  destruct f; simpl; apply (IH (dn ++ [v])); auto; intros w.
  - rewrite HU, elem_of_app, elem_of_list_singleton. split; [tauto|]. intros [[?| ->] ?]; [done|congruence].
  - rewrite !elem_of_app, !elem_of_list_singleton, HU. split; [|tauto]. intros [?| ->]; tauto.
Qed.

Lemma input_vars_nodup n vf vs U : input_vars n vf vs = Ok U -> NoDup vs -> NoDup U.
Proof.
  unfold input_vars. intros H ND.
  assert (K : forall l W U, foldM (fun U v => if decide (n <= v) then Err Corrupt else let! f := vget vf v in if negb f then Ok (U ++ [v]) else Ok U) l W = Ok U ->
     NoDup (W ++ l) -> NoDup U).
  { clear. induction l as [|v l IH]; intros W U; simpl; [intros [= <-]; by rewrite app_nil_r|]. case_decide; [done|].
    destruct (vget vf v) as [f|]; cbn [rbind]; [|done]. destruct f; simpl; intros Hx ND; (eapply IH; [exact Hx|]).
    - rewrite <- Permutation_middle in ND. by apply NoDup_cons in ND as [_ ?].
    - by rewrite <- app_assoc. }
  by eapply (K vs []).
Qed.

(** parameters with other initial chains *)
Definition pp_with (pp : processed) (n : cmap) : processed :=
  mkProc (pp_nvars pp) (pp_vfixed pp) (pp_comps pp) (pp_qubits pp) (pp_reserved pp) (pp_nfixed pp) (pp_unscrew pp) (pp_screw pp)
    (pp_fixed pp) n (pp_restrict pp) (pp_vnbrs pp) (pp_qnbrs pp).

Lemma sinv_wt e E wt s : sinv (with_wtab e wt) E s <-> sinv e E s.
Proof. split; intros []; by split. Qed.
Lemma abl_wt e wt em : abl (with_wtab e wt) em <-> abl e em.
Proof. split; intros []; by split. Qed.
Lemma rinv_wt e E wt s : rinv (with_wtab e wt) E s <-> rinv e E s.
Proof. unfold rinv. by rewrite sinv_wt. Qed.

Section top.
Context (vg qg : graph) (p : params) (o : oracle) (G : good_input vg qg p o).
Context (pp : processed) (PO : pp_ok vg qg p pp).
Notation cp := (pp_comps pp).
Notation nv0 := (pp_nvars pp - pp_nfixed pp).
Notation nq0 := (pp_qubits pp - pp_reserved pp).
Notation top_pb := (top_pb pp).
Notation F0 := (anywhere (fixmap (pp_fixed pp))).
Notation E0 := (nbr (pp_vnbrs pp)).
Notation result_of := (result_of vg pp).
Context (H0 : 0 < nq0).

Record minv (ic : cmap) (m : miner) : Prop := {
  mv_pp : mi_pp m = pp;
  mv_pb : pb (mi_env m) = top_pb;
  mv_env : exists mg, wtab (mi_env m) = o_wtab o mg /\ skip_init (mi_env m) = p_skip_init p /\
     interactive (mi_env m) = p_interactive p /\ chain_fuel (mi_env m) = o_fuel o /\
     chainlength_patience (mi_env m) = p_chainlength_patience p;
  mv_init : einv top_pb E0 F0 (mi_init m) /\ wexact (mi_init m);
  mv_start : forall v i, pp_screw pp !! v = Some i -> forall q,
     (exists j, located cp q 0 j /\ in_chain (mi_init m) i j) <-> starting (start_with p ic) v q;
  mv_full : good_start vg qg (start_with p ic) -> full (mi_env m) E0 F0 (mi_init m);
  mv_st : rinv (mi_env m) E0 (mi_st m);
  mv_best : abl (mi_env m) (best (mi_st m));
  mv_curr : abl (mi_env m) (mi_curr m);
  mv_last : abl (mi_env m) (mi_last m);
  mv_quick : mi_quick m = true -> einv top_pb E0 F0 (best (mi_st m)) /\ wexact (best (mi_st m))
}.

Lemma good_start_input ic : good_chains p ic -> good_input vg qg (start_with p ic) o.
Proof using G. intros [N H]. destruct G. split; auto. Qed.

(** the embedding built from initial chains *)
Lemma start_emb e ic n vn : pb e = top_pb -> good_chains p ic -> vn_ok top_pb E0 vn ->
  input_chains (pp_nvars pp) cp (pp_screw pp) ic = Ok n ->
  exists em, emb_init top_pb vn (pp_fixed pp) n = Ok em /\ einv top_pb E0 F0 em /\ wexact em /\
   (forall v i, pp_screw pp !! v = Some i -> forall q, (exists j, located cp q 0 j /\ in_chain em i j) <-> starting (start_with p ic) v q) /\
   (good_start vg qg (start_with p ic) -> full e E0 F0 em).
Proof using All.
  intros Ep GC VO Hn. destruct (po_unscrew _ _ _ _ PO) as (_ & Ls & _ & _ & NS). destruct (po_dec _ _ _ _ PO) as (R & D & HR).
  rewrite (po_nvars _ _ _ _ PO) in Hn.
  destruct (input_chains_ok _ _ (gn vg) cp (pp_screw pp) ic D (proj1 GC) Ls NS) as [(n' & Hn' & IC & IN & IK)|[Hn' _]]; [|congruence].
  assert (n' = n) as -> by congruence.
  assert (PO' : pp_ok vg qg (start_with p ic) (pp_with pp n)).
  { destruct PO. split; try done. }
  pose proof (good_start_input ic GC) as G'.
  destruct (top_init_vn (D0 := fun _ _ => True) vg qg (start_with p ic) o G' (pp_with pp n) PO' vn VO (conj (fun _ _ _ _ _ => I) (fun _ _ _ _ _ => I)) H0) as (em & Hem & I & W & St & LC & LT).
  exists em. split; [exact Hem|]. split; [exact I|]. split; [exact W|]. split; [exact St|].
  intros GS. split; [by rewrite Ep|]. split; [done|].
  destruct (linked_spec top_pb (pp_vnbrs pp) em) as (b & Hl & Hb).
  { by rewrite (ei_len _ _ _ _ I). } { apply (vnw_len _ _ (top_vn_wf vg qg p pp PO)). }
  pose proof (linked_start vg qg (start_with p ic) o G' (pp_with pp n) PO' e em b Ep H0 I W St LC LT Hl) as K.
  apply K in GS. pose proof (proj1 Hb GS) as GL. clear K Hb Hl.
  intros u Hu. rewrite Ep in Hu. destruct (GL u Hu) as [L1 L2]. split; [done|]. intros v Ev _. by apply L2.
Qed.

Lemma minv_new e : make_env pp p o = Ok e -> exists init,
  emb_init (pb e) (pp_vnbrs pp) (pp_fixed pp) (pp_initial pp) = Ok init /\
  minv (p_initial p) (mkMiner pp e init (pathfinder_new e (pp_vnbrs pp)) (emb_new (pb e)) (emb_new (pb e)) false).
Proof using All.
  intros He. destruct (top_env vg qg p o G pp PO) as [[? _]|(e' & mg & He' & Ep & _ & Ew & Esk & Ei & Ef & Epa & _)]; [congruence|].
  assert (e' = e) as -> by congruence.
  destruct (top_init (D0 := fun _ _ => True) vg qg p o G pp PO (conj (fun _ _ _ _ _ => I) (fun _ _ _ _ _ => I)) H0) as (init & Hi & I & W & St & LC & LT).
  exists init. split; [by rewrite Ep|]. split; cbn [mi_pp mi_env mi_init mi_st mi_curr mi_last mi_quick]; auto.
  - exists mg. done.
  - intros GS. split; [by rewrite Ep|]. split; [done|].
    destruct (linked_spec top_pb (pp_vnbrs pp) init) as (b & Hl & Hb).
    { by rewrite (ei_len _ _ _ _ I). } { apply (vnw_len _ _ (top_vn_wf vg qg p pp PO)). }
    assert (GS' : good_start vg qg p) by (destruct GS; by split).
    apply (linked_start vg qg p o G pp PO e init b Ep H0 I W St LC LT Hl) in GS'. pose proof (proj1 Hb GS') as GL.
    intros u Hu. rewrite Ep in Hu. destruct (GL u Hu) as [L1 L2]. split; [done|]. intros v Ev _. by apply L2.
  - by apply (top_new_rinv vg qg p o G pp PO).
  - rewrite top_best_new. apply new_abl.
  - apply new_abl.
  - apply new_abl.
  - done.
Qed.

Lemma chains_of em e : pb e = top_pb -> abl e em -> exists cs,
  foldM (fun out u => let! c := get_chain pp em u in Ok (out ++ [c])) (seq 0 (pp_nvars pp)) [] = Ok cs /\ result_of em cs.
Proof using All.
  intros Ep [L1 _ _ L2]. rewrite Ep in L1, L2. rewrite (po_nvars _ _ _ _ PO). apply (get_chains vg qg p o G pp PO em H0).
  - rewrite L1. simpl. apply (top_nv _ _ _ _ PO).
  - intros v c Hc. rewrite <- (top_nq vg qg p o G pp PO). apply (L2 v c Hc).
Qed.
Lemma minv_chains ic m : minv ic m -> exists cs, miner_chains m = Ok cs /\ result_of (best (mi_st m)) cs.
Proof using All. intros I. unfold miner_chains. rewrite (mv_pp _ _ I). apply (chains_of _ (mi_env m)); [apply I|apply I]. Qed.

Lemma start_result ic m cs : minv ic m -> result_of (mi_init m) cs -> start_chains vg (start_with p ic) cs.
Proof using All.
  intros I (L & N & K). split; [done|]. intros v C HC. split; [by apply (N v C)|]. intros q.
  assert (Hv : v < gn vg) by (rewrite <- L; by eapply lookup_lt_Some). destruct (screw_ex _ _ _ _ PO v Hv) as [i Hi].
  rewrite <- (mv_start _ _ I v i Hi q). transitivity (has_qubit cs v q).
  - split; [intros; by exists C|]. intros (C' & HC' & ?). congruence.
  - rewrite K. split; [intros (i' & j & Hi' & ? & ?); assert (i' = i) as -> by congruence; eauto|]. intros (j & ? & ?). eauto.
Qed.

Lemma found_spec ic m : minv ic m ->
  wpo (documented p) (mstep p m CFind) (fun '(m', a) => minv ic m' /\ answer_ok vg qg p ic m CFind a /\
     (forall cs, a = AFound true cs -> full (mi_env m') E0 F0 (best (mi_st m')))).
Proof using All.
  intros I. destruct (mv_env _ _ I) as (mg & Ew & Esk & Ei & Ef & Epa). destruct (mv_init _ _ I) as [Ii Wi].
  unfold mstep. eapply wpr_step.
  { eapply wpr_weak; [apply (top_heuristic_at (D0 := fun _ _ => True) vg qg p o G pp PO false (mi_env m) mg); auto; try apply I; done|].
    intros x [[[-> _]|[-> Hx]]|[-> Hx]]; unfold documented; rewrite <- ?Ei; auto. }
  intros [[[ok s] c1] c2] (R' & A1 & A2 & Hpost). cbv beta iota zeta.
  set (m' := mkMiner (mi_pp m) (mi_env m) (mi_init m) s c1 c2 (mi_quick m)).
  assert (I' : minv ic m').
  { destruct I. split; cbn [m' mi_pp mi_env mi_init mi_st mi_curr mi_last mi_quick]; auto.
    - destruct Hpost as [(_ & _ & ->)|((Fu & _) & _)]; [done|]. by apply full_abl with E0 F0.
    - intros Hq. destruct Hpost as [(_ & _ & ->)|(((If & Wf & _) & _) & _)]; [auto|]. rewrite mv_pb0 in If. done. }
  assert (FB : ok = true -> full (mi_env m') E0 F0 (best (mi_st m'))).
  { intros ->. destruct Hpost as [(_ & ? & _)|((Fu & _) & _)]; done. }
  destruct (minv_chains ic m' I') as (cs & Hcs & Rs). change (best (mi_st m')) with (best s) in Rs.
  destruct (p_return_overlap p || ok) eqn:Hr.
  - rewrite Hcs. simpl. split; [done|]. split; [|intros cs' [= -> _]; by apply FB]. split; [by apply orb_prop in Hr|].
    destruct Hpost as [(Sk & -> & Hb)|(B & -> & _)].
    + right. split; [done|]. split; [congruence|]. rewrite <- Hcs. unfold miner_chains. simpl. by rewrite Hb.
    + left. destruct (top_final vg qg p o G pp PO (mi_env m) s cs (mv_pb _ _ I) H0 B Rs) as (OE & Dj & _). done.
  - simpl. apply orb_false_elim in Hr as [Hr1 Hr2]. split; [done|]. split; [done|]. intros cs' [= -> _]. done.
Qed.

Lemma init_spec ic m ch : minv ic m -> good_chains p ch ->
  wpo (documented p) (mstep p m (CInit ch)) (fun '(m', a) => minv ch m' /\ answer_ok vg qg p ic m (CInit ch) a).
Proof using All.
  intros I GC. unfold mstep. rewrite (mv_pp _ _ I), (mv_pb _ _ I).
  destruct (input_chains (pp_nvars pp) cp (pp_screw pp) ch) as [n|x] eqn:Hn.
  2:{ destruct (po_unscrew _ _ _ _ PO) as (_ & Ls & _ & _ & NS). destruct (po_dec _ _ _ _ PO) as (R & D & HR).
      rewrite (po_nvars _ _ _ _ PO) in Hn.
      destruct (input_chains_ok _ _ (gn vg) cp (pp_screw pp) ch D (proj1 GC) Ls NS) as [(n' & Hn' & _)|[Hn' _]]; [congruence|].
      assert (x = Corrupt) as -> by congruence. simpl. unfold documented. auto. }
  cbn [rbind]. destruct (mv_st _ _ I) as [[VN SR] VO].
  destruct (start_emb (mi_env m) ch n (vn (mi_st m)) (mv_pb _ _ I) GC) as (em & -> & Ie & We & St & Fu); [by rewrite <- (mv_pb _ _ I)|done|].
  cbn [rbind]. destruct (mv_init _ _ I) as [Ii Wi].
  destruct (assign_ok (mi_env m) (mi_init m) em) as (init & -> & C & Wt & _ & A).
  { apply einv_abl with E0 F0; [|done]. by rewrite (mv_pb _ _ I). }
  { apply einv_abl with E0 F0; [|done]. by rewrite (mv_pb _ _ I). }
  simpl. split; [|done]. destruct I. split; cbn [mi_pp mi_env mi_init mi_st mi_curr mi_last mi_quick]; auto.
  - split; [|by apply (wexact_chains em)]. rewrite <- mv_pb0 in Ie |- *. by apply (same_einv (mi_env m) E0 F0 em).
  - intros v i Hi q. rewrite <- (St v i Hi q). unfold in_chain. by rewrite C.
  - intros GS. by apply (same_full' (mi_env m) E0 F0 em), Fu.
Qed.

(** a pass over internal variables [order] standing for the caller's [vs] *)
Lemma pass_spec ic m (vs : nat -> Prop) order clb ov (ls clear : bool) wt s : minv ic m -> good_table wt ->
  rinv (mi_env m) E0 s -> best s = best (mi_st m) ->
  (forall u, u ∈ order -> u < nv0) ->
  (forall v i, pp_screw pp !! v = Some i -> vs v /\ ~ is_fixed p v <-> i ∈ order) ->
  (ls = true -> NoDup order /\ if clear || negb (mi_quick m) then good_start vg qg (start_with p ic) else full (mi_env m) E0 F0 (best (mi_st m))) ->
  wpo (documented p)
    (let! s' := quick_pass (with_wtab (mi_env m) wt) (mi_init m) order clb ov ls (clear || negb (mi_quick m)) s in
     let m' := with_st m s' true in let! cs := miner_chains m' in Ok (m', APass cs))
    (fun '(m', a) => minv ic m' /\ mi_quick m' = true /\ md (mi_st m') = md s /\ exists cs cs0, a = APass cs /\ pass_start vg p ic m clear cs0 /\
        pass_result vg qg p vs (if ls then Z.max 1 (1 + ov) else (1 + ov)%Z) cs0 cs).
Proof using All.
  intros I GT R Eb Ho HD Hls. set (e' := with_wtab (mi_env m) wt). set (cl := clear || negb (mi_quick m)).
  set (b0 := if cl then mi_init m else best s).
  assert (Ep : pb e' = top_pb) by apply (mv_pb _ _ I).
  assert (B0 : einv top_pb E0 F0 b0 /\ wexact b0).
  { unfold b0, cl. rewrite Eb. destruct clear; simpl; [apply I|]. destruct (mi_quick m) eqn:Q; simpl; [by apply I|apply I]. }
  destruct B0 as [I0 W0].
  pose proof (top_nv _ _ _ _ PO) as Nv. pose proof (top_nq vg qg p o G pp PO) as Nq.
  pose proof (comp_le vg qg p o G pp PO) as Qb. pose proof (gi_size _ _ _ _ G) as Sz.
  assert (Fl : ls = true -> full (mi_env m) E0 F0 b0).
  { intros Hl. destruct (Hls Hl) as (_ & Hc). fold cl in Hc. unfold b0. destruct cl; [by apply (mv_full _ _ I)|by rewrite Eb]. }
  eapply wpr_step.
  { eapply wpr_weak.
    - eapply (quick_pass_spec e' E0 F0) with (sf := false) (D0 := if ls then order else []) (b0 := b0); rewrite ?Ep; auto.
      + apply (top_pb_wf vg qg p o G pp PO).
      + by apply (top_even vg qg p o G pp PO).
      + simpl. unfold max_distance. lia.
      + done.
      + simpl. apply (top_fix vg qg p o G pp PO H0).
      + apply sinv_wt, R.
      + apply abl_wt. rewrite Eb. apply I.
      + intros x Hx. destruct ls; [|by apply elem_of_nil in Hx]. split; [rewrite Ep; simpl; auto|]. intros _.
        destruct (Fl eq_refl) as (_ & _ & Gd). apply Gd. rewrite (mv_pb _ _ I). simpl. auto.
      + intros ->. destruct (Hls eq_refl) as (ND & _). split; [done|]. intros u Hu. split; [done|].
        destruct (Fl eq_refl) as (_ & _ & Gd). destruct (Gd u) as [(c & Hc & [q Hq]) _]; [rewrite (mv_pb _ _ I); simpl; auto|].
        exists c. split; [done|]. apply (qin_size c q). apply (cwf_links _ _ _ (ei_cwf _ _ _ _ I0 _ _ Hc)) in Hq. by apply pm_is_Some in Hq.
    - intros x [[-> _]|[-> Hx]]; [by left|]. right; left. split; [done|]. 
      destruct (mv_env _ _ I) as (mg & _ & _ & Ei & _). rewrite <- Ei. exact Hx. }
  intros s' (S' & Md & Vo & Pa). cbv zeta.
  set (m' := with_st m s' true).
  assert (Ie : einv top_pb E0 F0 (best s') /\ wexact (best s')) by (destruct Pa as [I1 W1]; rewrite Ep in I1; done).
  assert (I' : minv ic m').
  { destruct I. split; cbn [m' with_st mi_pp mi_env mi_init mi_st mi_curr mi_last mi_quick]; auto.
    - split; [by apply sinv_wt in S'|]. intros u Hu. apply R. by rewrite <- Vo.
    - apply einv_abl with E0 F0; [rewrite mv_pb0; apply Ie|apply Ie]. }
  destruct (minv_chains ic m' I') as (cs & Hcs & Rs). rewrite Hcs. cbn [rbind]. change (best (mi_st m')) with (best s') in Rs. simpl.
  split; [done|]. split; [done|]. split; [done|]. 
  destruct (chains_of b0 (mi_env m) (mv_pb _ _ I)) as (cs0 & Hcs0 & Rs0).
  { apply einv_abl with E0 F0; [rewrite (mv_pb _ _ I); done|done]. }
  exists cs, cs0. split; [done|]. split.
  - unfold pass_start. fold cl. unfold b0 in Rs0, Hcs0. destruct cl; [by apply (start_result ic m)|].
    unfold miner_chains. rewrite (mv_pp _ _ I), <- Eb. done.
  - eapply (part_result vg qg p o G pp PO H0 e' b0 (best s') cs0 cs vs order); eauto.
Qed.

Lemma screw_last v : fixed_last vg p -> v < gn vg -> ~ is_fixed p v -> pp_screw pp !! v = Some v.
Proof using All.
  intros FL Hv Nf. destruct (po_unscrew _ _ _ _ PO) as (_ & _ & K & _). apply K. rewrite (po_order _ _ _ _ PO).
  destruct (po_vfixed _ _ _ _ PO) as [Lf Kf].
  assert (FF : forall x, x < gn vg -> free_of (pp_vfixed pp) x = true <-> ~ is_fixed p x).
  { intros x Hx. unfold free_of. destruct (lookup_lt_is_Some_2 (pp_vfixed pp) x) as [b Hb]; [lia|]. rewrite Hb. simpl.
    specialize (Kf x b Hb). rewrite <- (fixed_key p x) in Kf. destruct b; simpl; split; intros; try done; [tauto|intros C; by apply Kf in C]. }
  destruct (filter_down (fun x => free_of (pp_vfixed pp) x && bool_decide (x < gn vg)) (gn vg) 0) as (k & Lk & Ek).
  { intros a b Hb Ha. apply andb_prop in Hb as [Hb1 Hb2%bool_decide_eq_true]. apply andb_false_iff in Ha as [Ha|Ha%bool_decide_eq_false]; [|lia].
    destruct (decide (a < gn vg)); [|lia]. apply FL; [|done|by apply FF]. 
    destruct (lookup_lt_is_Some_2 (pp_vfixed pp) a) as [x Hx]; [lia|]. apply (fixed_key p a). apply (Kf a x Hx). unfold free_of in Ha. rewrite Hx in Ha. simpl in Ha. by destruct x. }
  assert (Eq : List.filter (free_of (pp_vfixed pp)) (seq 0 (gn vg)) = seq 0 k).
  { rewrite <- Ek. apply filter_ext_in. intros a Ha%in_seq. rewrite (bool_decide_true (a < gn vg)) by lia. by rewrite andb_true_r. }
  rewrite Eq. assert (Hk : v < k).
  { assert (V : In v (seq 0 k)); [|apply in_seq in V; lia]. rewrite <- Eq. apply filter_In. split; [apply in_seq; lia|by apply FF]. }
  rewrite lookup_app_l by (rewrite seq_length; lia). by rewrite lookup_seq_lt.
Qed.

Lemma listed_spec (vs U : list nat) : fixed_last vg p -> (forall v, v ∈ vs -> v < gn vg) ->
  (forall v, v ∈ U <-> v ∈ vs /\ pp_vfixed pp !! v = Some false) ->
  (forall v i, pp_screw pp !! v = Some i -> v ∈ vs /\ ~ is_fixed p v <-> i ∈ U) /\ forall u, u ∈ U -> u < nv0.
Proof using All.
  intros FL Hvs HU. destruct (po_vfixed _ _ _ _ PO) as [Lf Kf].
  assert (FF : forall v, v < gn vg -> pp_vfixed pp !! v = Some false <-> ~ is_fixed p v).
  { intros v Hv. destruct (lookup_lt_is_Some_2 (pp_vfixed pp) v) as [b Hb]; [lia|]. rewrite Hb. specialize (Kf v b Hb). rewrite <- (fixed_key p v) in Kf.
    destruct b; split; intros K; try done; [exfalso; tauto|]. intros C. by apply Kf in C. }
  assert (UU : forall u, u ∈ U -> u < gn vg /\ ~ is_fixed p u /\ u ∈ vs).
  { intros u [Hu Hf]%HU. assert (u < gn vg) by auto. split; [done|]. split; [by apply FF|done]. }
  split.
  - intros v i Hi. split.
    + intros [Hv Nf]. rewrite (screw_last v FL (Hvs v Hv) Nf) in Hi. injection Hi as <-. apply HU. split; [done|]. apply FF; auto.
    + intros Hu. destruct (UU i Hu) as (Li & Nf & Hin). assert (v = i) as ->; [|done].
      eapply (screw_inj vg qg p pp PO); [exact Hi|]. by apply screw_last.
  - intros u Hu. destruct (UU u Hu) as (Lu & Nf & _). pose proof (screw_last u FL Lu Nf) as Su.
    by apply (screw_free vg qg p pp PO u u Su).
Qed.

Lemma mstep_spec ic m c : minv ic m -> good_call vg p c ->
  wpo (documented p) (mstep p m c) (fun '(m', a) => minv (starts_after ic [c]) m' /\ answer_ok vg qg p ic m c a).
Proof using All.
  intros I GC. destruct c as [|ch|vs clb ov ls clear wt|vo clb ov ls clear wt]; simpl in GC.
  - eapply wpr_mono; [by apply found_spec|]. intros [m' a] (? & ? & _). done.
  - by apply init_spec.
  - destruct GC as (-> & GT & FL). unfold mstep. rewrite (mv_pp _ _ I), (po_nvars _ _ _ _ PO).
    destruct (input_vars_ok (gn vg) (pp_vfixed pp) vs) as [(U & -> & Hvs & HU)|[-> _]]; [apply (po_vfixed _ _ _ _ PO)| |simpl; unfold documented; auto].
    cbn [rbind]. destruct (listed_spec vs U FL Hvs HU) as [H1 H2].
    eapply wpr_mono; [apply (pass_spec ic m (fun v => v ∈ vs) U clb ov false clear wt (mi_st m)); auto; [apply I|done]|].
    intros [m' a] (I' & _ & _ & cs & cs0 & -> & Ps & Pr). split; [done|]. simpl. eauto.
  - destruct GC as (-> & GT). unfold mstep, quick_pass_order.
    destruct (order_spec (with_wtab (mi_env m) wt) E0 (mi_st m) vo) as (order & s & -> & R & S3 & Ho & Pm & _); [apply rinv_wt, I|]. apply rinv_wt in R. cbn [rbind].
    destruct order as [|u0 order]; [simpl; unfold documented; auto|]. 
    assert (Ep : pb (mi_env m) = top_pb) by apply I.
    assert (Ho' : forall u, u ∈ u0 :: order -> u < nv0). { intros u Hu. apply Ho in Hu. change (pb (with_wtab (mi_env m) wt)) with (pb (mi_env m)) in Hu. rewrite Ep in Hu. done. }
    eapply wpr_mono; [apply (pass_spec ic m (fun v => exists i, pp_screw pp !! v = Some i /\ i ∈ u0 :: order) (u0 :: order) clb ov false clear wt s); auto; [apply S3| |done]|].
    + intros v i Hi. split.
      * intros ((i' & Hi' & Hin) & _). by assert (i' = i) as -> by congruence.
      * intros Hin. split; [eauto|]. by apply (screw_free vg qg p pp PO v i Hi), Ho'.
    + intros [m' a] (I' & _ & _ & cs & cs0 & -> & Ps & Pr). split; [done|]. simpl. exists cs0. split; [done|].
      eexists. split; [|exact Pr]. intros No v. specialize (Pm No). split.
      * intros (i & Hi & Hin). split; [by apply (screw_lt vg qg p pp PO v i)|]. by apply (screw_free vg qg p pp PO v i Hi), Ho'.
      * intros [Hv Nf]. destruct (screw_ex _ _ _ _ PO v Hv) as [i Hi]. exists i. split; [done|]. rewrite Pm, elem_of_seq.
        change (pb (with_wtab (mi_env m) wt)) with (pb (mi_env m)). rewrite Ep. simpl. apply (screw_free vg qg p pp PO v i Hi) in Nf. lia.
Qed.

(** local searches: [b0] says what is known of the chains the pass starts from *)
Lemma local_quick ic m vs clb ov clear wt : minv ic m -> good_table wt -> fixed_last vg p -> NoDup vs ->
  (if clear || negb (mi_quick m) then good_start vg qg (start_with p ic) else full (mi_env m) E0 F0 (best (mi_st m))) ->
  wpo (documented p) (mstep p m (CQuick vs clb ov true clear wt)) (fun '(m', a) => minv ic m' /\ exists cs cs0, a = APass cs /\
    pass_start vg p ic m clear cs0 /\ pass_result vg qg p (fun v => v ∈ vs) (Z.max 1 (1 + ov)) cs0 cs).
Proof using All.
  intros I GT FL ND Hs. unfold mstep. rewrite (mv_pp _ _ I), (po_nvars _ _ _ _ PO).
  destruct (input_vars_ok (gn vg) (pp_vfixed pp) vs) as [(U & EU & Hvs & HU)|[-> _]]; [apply (po_vfixed _ _ _ _ PO)| |simpl; unfold documented; auto].
  assert (NU : NoDup U) by (by eapply input_vars_nodup).
  rewrite EU. cbn [rbind]. destruct (listed_spec vs U FL Hvs HU) as [H1 H2].
  eapply wpr_mono; [apply (pass_spec ic m (fun v => v ∈ vs) U clb ov true clear wt (mi_st m)); auto; apply I|].
  intros [m' a] (I' & _ & _ & cs & cs0 & -> & Ps & Pr). split; [done|]. exists cs, cs0. done.
Qed.
Lemma local_strategy ic m vo clb ov clear wt : minv ic m -> good_table wt -> vo <> VO_KEEP ->
  (if clear || negb (mi_quick m) then good_start vg qg (start_with p ic) else full (mi_env m) E0 F0 (best (mi_st m))) ->
  wpo (documented p) (mstep p m (CStrategy vo clb ov true clear wt)) (fun '(m', a) => minv ic m' /\ exists cs cs0, a = APass cs /\
    pass_start vg p ic m clear cs0 /\ pass_result vg qg p (fun v => v < gn vg /\ ~ is_fixed p v) (Z.max 1 (1 + ov)) cs0 cs).
Proof using All.
  intros I GT No Hs. unfold mstep, quick_pass_order.
  destruct (order_spec (with_wtab (mi_env m) wt) E0 (mi_st m) vo) as (order & s & -> & R & S3 & Ho & Pm & _); [apply rinv_wt, I|]. apply rinv_wt in R. cbn [rbind].
  destruct order as [|u0 order]; [simpl; unfold documented; auto|]. specialize (Pm No).
  assert (Ep : pb (mi_env m) = top_pb) by apply I.
  change (pb (with_wtab (mi_env m) wt)) with (pb (mi_env m)) in Pm, Ho. rewrite Ep in Pm, Ho. simpl in Pm, Ho.
  eapply wpr_mono; [apply (pass_spec ic m (fun v => v < gn vg /\ ~ is_fixed p v) (u0 :: order) clb ov true clear wt s); auto; [apply S3| |]|].
  - intros v i Hi. rewrite Pm, elem_of_seq, (screw_free vg qg p pp PO v i Hi). pose proof (screw_lt vg qg p pp PO v i Hi). split; intros; [lia|]. split; [split; [tauto|]|]; lia.
  - intros _. split; [|done]. rewrite Pm. apply NoDup_seq.
  - intros [m' a] (I' & _ & _ & cs & cs0 & -> & Ps & Pr). split; [done|]. exists cs, cs0. done.
Qed.

(** a listed fixed variable is passed over *)
Lemma quick_fixed ic m v clb ov ls wt : minv ic m -> v < gn vg -> is_fixed p v -> mi_quick m = true ->
  exists cs, miner_chains m = Ok cs /\ mstep p m (CQuick [v] clb ov ls false wt) = Ok (m, APass cs).
Proof using All.
  intros I Hv Hf Q. destruct (minv_chains ic m I) as (cs & Hcs & _). exists cs. split; [done|].
  destruct (po_vfixed _ _ _ _ PO) as [Lf Kf]. destruct (lookup_lt_is_Some_2 (pp_vfixed pp) v) as [b Hb]; [lia|].
  assert (b = true) as -> by (apply (Kf v b Hb), fixed_key; done).
  unfold mstep. rewrite (mv_pp _ _ I), (po_nvars _ _ _ _ PO). unfold input_vars. simpl. rewrite decide_False by lia.
  rewrite (vget_ok _ _ _ Hb). simpl. rewrite Q. unfold quick_pass. simpl.
  assert (Es : set_wb (set_wb (mi_st m) (1 + ov)) (wb (md (mi_st m))) = mi_st m) by (destruct (mi_st m) as [? ? ? [] ? ? ? ? ?]; done).
  rewrite Es. assert (Em : with_st m (mi_st m) true = m) by (destruct m; unfold with_st; simpl in *; by rewrite Q).
  rewrite Em, Hcs. done.
Qed.
End top.
