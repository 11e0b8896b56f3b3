(** Histories of calls. *)
From stdpp Require Import base list numbers gmap relations sorting.
From Verif Require Import Base ChainModel ChainProofs ChainProofs2 EmbModel Spec SpecEmb EmbProofs EmbProofs2 EmbProofs3 EmbProofs4 EmbOps EmbProofs7
  QueueModel PathModel Wp PrepProofs RunProofs1 RunProofs3 RunProofs4 RunProofs5 QuickProofs
  GraphModel SpecGraph ParamModel ParamProofs ParamProofs2 SpecTop TopProofs TopProofs2 MinerModel SpecMiner MinerProofs MinerProofs2.

Lemma mrun_app p m a b : mrun p m (a ++ b) = (let! (m, l) := mrun p m a in let! (m, l') := mrun p m b in Ok (m, l ++ l')).
Proof.
  revert m. induction a as [|c a IH]; intros m; simpl.
  { by destruct (mrun p m b) as [[m' l]|]. }
  destruct (mstep p m c) as [[m1 x]|]; cbn [rbind]; [|done]. rewrite IH.
  destruct (mrun p m1 a) as [[m2 l]|]; cbn [rbind]; [|done]. by destruct (mrun p m2 b) as [[m3 l']|].
Qed.
Lemma starts_app ic a b : starts_after ic (a ++ b) = starts_after (starts_after ic a) b.
Proof. revert ic. induction a as [|[] a IH]; intros ic; simpl; auto. Qed.
Lemma mstep_quick p m c m' a : mstep p m c = Ok (m', a) -> mi_quick m' = mi_quick m || is_quick c.
Proof.
  destruct c; simpl; intros H; repeat (match type of H with
    | (let! _ := ?r in _) = _ => destruct r as [?|]; cbn [rbind] in H; [|done]
    | context [let '(_, _) := ?x in _] => destruct x
    | context [if ?b then _ else _] => destruct b
    end); cbn [rbind] in H; try (injection H as <- <-; simpl; by rewrite ?orb_false_r, ?orb_true_r).
Qed.
Lemma mrun_quick p cs : forall m m' l, mrun p m cs = Ok (m', l) -> mi_quick m' = mi_quick m || existsb is_quick cs /\ length l = length cs.
Proof.
  induction cs as [|c cs IH]; intros m m' l; simpl; [intros [= <- <-]; by rewrite orb_false_r|].
  destruct (mstep p m c) as [[m1 x]|] eqn:E1; cbn [rbind]; [|done]. destruct (mrun p m1 cs) as [[m2 l']|] eqn:E2; cbn [rbind]; [|done].
  intros [= <- <-]. destruct (IH _ _ _ E2) as [-> L]. rewrite (mstep_quick _ _ _ _ _ E1), orb_assoc. simpl. by rewrite L.
Qed.
Lemma mrun_take p cs : forall m m' l k c a, mrun p m cs = Ok (m', l) -> cs !! k = Some c -> l !! k = Some a ->
  exists m1 m2, mrun p m (take k cs) = Ok (m1, take k l) /\ mstep p m1 c = Ok (m2, a).
Proof.
  induction cs as [|c0 cs IH]; intros m m' l k c a; simpl; [done|].
  destruct (mstep p m c0) as [[m1 x]|] eqn:E1; cbn [rbind]; [|done]. destruct (mrun p m1 cs) as [[m2 l']|] eqn:E2; cbn [rbind]; [|done].
  intros [= <- <-]. destruct k as [|k]; simpl.
  - intros [= <-] [= <-]. eauto.
  - intros Hc Ha. destruct (IH _ _ _ _ _ _ E2 Hc Ha) as (a1 & a2 & H1 & H). exists a1, a2. rewrite E1. cbn [rbind]. rewrite H1. done.
Qed.

Lemma wpo_err {A} (ov : err -> Prop) x (P : A -> Prop) : wpo ov (Err x) P -> ov x.
Proof. by destruct x. Qed.

(** what is known of every reachable object *)
Definition mok (vg qg : graph) (p : params) (o : oracle) (ic : cmap) (m : miner) : Prop :=
  exists pp, pp_ok vg qg p pp /\ 0 < pp_qubits pp - pp_reserved pp /\ minv vg qg p o pp ic m.

Lemma new_spec vg qg p o : good_input vg qg p o ->
  wpo (documented p) (miner_new vg qg p o) (fun m => mok vg qg p o (p_initial p) m /\ mi_quick m = false).
Proof.
  intros G. unfold miner_new.
  destruct (process_spec vg qg p (o_sort o) (good_input_ok _ _ _ _ G) (gi_sort _ _ _ _ G)) as (cp & R & D & HR & [(pp & -> & V & PO & Ec)|[-> NV]]); cbn [rbind].
  2: { simpl. unfold documented. auto. }
  destruct (top_env vg qg p o G pp PO) as [[-> TS]|(e & mg & He & Ep & H0 & _)]; cbn [rbind]; [simpl; unfold documented; auto 6|].
  rewrite He. cbn [rbind]. destruct (minv_new vg qg p o G pp PO H0 e He) as (init & -> & I). simpl. split; [|done]. by exists pp.
Qed.
Lemma step_spec vg qg p o ic m c : good_input vg qg p o -> mok vg qg p o ic m -> good_call vg p c ->
  wpo (documented p) (mstep p m c) (fun '(m', a) => mok vg qg p o (starts_after ic [c]) m' /\ answer_ok vg qg p ic m c a).
Proof.
  intros G (pp & PO & H0 & I) GC. eapply wpr_mono; [by apply (mstep_spec vg qg p o G pp PO H0 ic m c I GC)|].
  intros [m' a] [I' A]. split; [by exists pp|done].
Qed.
Lemma run_spec vg qg p o cs : good_input vg qg p o -> Forall (good_call vg p) cs -> forall ic m, mok vg qg p o ic m ->
  wpo (documented p) (mrun p m cs) (fun '(m', l) => mok vg qg p o (starts_after ic cs) m').
Proof.
  intros G. induction 1 as [|c cs GC _ IH]; intros ic m I; [done|]. cbn [mrun].
  eapply wpr_step; [by apply step_spec|]. intros [m1 a] [I1 _]. eapply wpr_step; [by eapply IH|].
  intros [m2 l] I2. simpl. by destruct c.
Qed.

Lemma history vg qg p o cs : good_input vg qg p o -> Forall (good_call vg p) cs ->
  match miner_new vg qg p o with
  | Err x => documented p x
  | Ok m0 => match mrun p m0 cs with
    | Err x => documented p x
    | Ok (_, l) => length l = length cs /\
        forall k c a, cs !! k = Some c -> l !! k = Some a ->
          exists m, mrun p m0 (take k cs) = Ok (m, take k l) /\ mi_quick m = existsb is_quick (take k cs) /\
            answer_ok vg qg p (starts_after (p_initial p) (take k cs)) m c a
    end
  end.
Proof.
  intros G F. pose proof (new_spec vg qg p o G) as N. destruct (miner_new vg qg p o) as [m0|x]; [|by apply wpo_err in N]. simpl in N. destruct N as [N Q0].
  pose proof (run_spec vg qg p o cs G F _ _ N) as R. destruct (mrun p m0 cs) as [[m' l]|x] eqn:Er; [|by apply wpo_err in R]. simpl in R.
  split; [by eapply mrun_quick|]. intros k c a Hc Ha.
  destruct (mrun_take p cs _ _ _ _ _ _ Er Hc Ha) as (m1 & m2 & H1 & H2). exists m1. split; [done|]. split.
  - destruct (mrun_quick _ _ _ _ _ H1) as [-> _]. by rewrite Q0.
  - pose proof (run_spec vg qg p o (take k cs) G (Forall_take _ k _ F) _ _ N) as R1. rewrite H1 in R1. simpl in R1.
    assert (GC : good_call vg p c) by (rewrite Forall_lookup in F; by eapply F).
    pose proof (step_spec vg qg p o _ m1 c G R1 GC) as S1. rewrite H2 in S1. simpl in S1. by apply S1.
Qed.
Lemma reached_ok vg qg p o cs m l : good_input vg qg p o -> Forall (good_call vg p) cs -> reached vg qg p o cs m l ->
  mok vg qg p o (starts_after (p_initial p) cs) m.
Proof.
  intros G F (m0 & H1 & H2). pose proof (new_spec vg qg p o G) as N. rewrite H1 in N. simpl in N. destruct N as [N _].
  pose proof (run_spec vg qg p o cs G F _ _ N) as R. by rewrite H2 in R.
Qed.

(** users of a qubit and disjoint chains *)
Lemma users_two cs : forall u v C D q, u <> v -> cs !! u = Some C -> cs !! v = Some D -> q ∈ C -> q ∈ D -> 2 <= users_of cs q.
Proof.
  assert (one : forall cs (v : nat) D q, cs !! v = Some D -> q ∈ D -> 1 <= users_of cs q).
  { clear cs. intros cs. induction cs as [|X cs IH]; intros v D q; [done|]. unfold users_of in *. simpl. destruct v as [|v]; simpl.
    - intros [= ->] Hq. rewrite bool_decide_true by done. simpl. lia.
    - intros Hv Hq. specialize (IH v D q Hv Hq). case_bool_decide; simpl; lia. }
  induction cs as [|X cs IH]; intros u v C D q N Hu Hv Qu Qv; [done|]. unfold users_of in *. simpl.
  destruct u as [|u], v as [|v]; simpl in *; [done| | |].
  - injection Hu as ->. rewrite bool_decide_true by done. simpl. specialize (one cs v D q Hv Qv). unfold users_of in one. lia.
  - injection Hv as ->. rewrite bool_decide_true by done. simpl. specialize (one cs u C q Hu Qu). unfold users_of in one. lia.
  - specialize (IH u v C D q ltac:(congruence) Hu Hv Qu Qv). case_bool_decide; simpl; lia.
Qed.
Lemma disjoint_users cs : disjoint_chains cs <-> forall q, users_of cs q <= 1.
Proof.
  split.
  - intros D q. induction cs as [|X cs IH]; unfold users_of in *; simpl; [lia|].
    assert (D' : disjoint_chains cs). { intros u v x (C1 & H1 & K1) (C2 & H2 & K2). specialize (D (S u) (S v) x). assert (S u = S v); [|lia]. apply D; [by exists C1|by exists C2]. }
    specialize (IH D'). case_bool_decide as HX; simpl; [|done].
    assert (Z : List.filter (fun C => bool_decide (q ∈ C)) cs = []); [|by rewrite Z].
    destruct (List.filter _ cs) as [|C l] eqn:Ef; [done|exfalso].
    assert (Hin : In C (List.filter (fun C => bool_decide (q ∈ C)) cs)) by (rewrite Ef; by left).
    apply filter_In in Hin as [Hin Hq%bool_decide_eq_true]. apply elem_of_list_In, elem_of_list_lookup in Hin as [v Hv].
    specialize (D 0 (S v) q ltac:(by exists X) ltac:(by exists C)). done.
  - intros U u v q (C & HC & Qc) (D & HD & Qd). destruct (decide (u = v)) as [|N]; [done|]. pose proof (users_two cs u v C D q N HC HD Qc Qd). specialize (U q). lia.
Qed.
Lemma start_same vg p m ic clear cs0 cs1 : pass_start vg p ic m clear cs0 -> pass_start vg p ic m clear cs1 ->
  forall v q, has_qubit cs0 v q <-> has_qubit cs1 v q.
Proof.
  unfold pass_start. destruct (clear || negb (mi_quick m)).
  - intros [L0 S0] [L1 S1] v q. split; intros (C & HC & Hq).
    + destruct (lookup_lt_is_Some_2 cs1 v) as [D HD]; [rewrite L1, <- L0; by eapply lookup_lt_Some|]. exists D. split; [done|].
      apply (S1 v D HD), (S0 v C HC). done.
    + destruct (lookup_lt_is_Some_2 cs0 v) as [D HD]; [rewrite L0, <- L1; by eapply lookup_lt_Some|]. exists D. split; [done|].
      apply (S0 v D HD), (S1 v C HC). done.
  - intros A B v q. assert (cs0 = cs1) as -> by congruence. done.
Qed.
Lemma pass_disjoint vg qg p vs cs0 cs : p_fixed p = [] -> pass_result vg qg p vs 1 cs0 cs -> disjoint_chains cs0 -> disjoint_chains cs.
Proof.
  intros Fx Pr D. rewrite disjoint_users in D |- *. intros q. pose proof (pr_users _ _ _ _ _ _ _ Pr Fx q) as H. specialize (D q). lia.
Qed.

Lemma quick_disjoint vg qg p o calls m l vs clb clear wt m' cs cs0 : good_input vg qg p o -> p_fixed p = [] ->
  Forall (good_call vg p) calls -> reached vg qg p o calls m l -> good_table wt ->
  mstep p m (CQuick vs clb 0 false clear wt) = Ok (m', APass cs) ->
  pass_start vg p (starts_after (p_initial p) calls) m clear cs0 -> disjoint_chains cs0 ->
  disjoint_chains cs /\ forall u v, u ∈ vs -> v ∈ vs -> edge vg u v -> u <> v -> has_chain cs u -> has_chain cs v -> touching (edge qg) (has_qubit cs) u v.
Proof.
  intros G Fx F Re GT Hs Ps Dj. pose proof (reached_ok _ _ _ _ _ _ _ G F Re) as M.
  assert (NF : forall v, ~ is_fixed p v) by (intros v [C HC]; rewrite Fx in HC; by apply elem_of_nil in HC).
  assert (GC : good_call vg p (CQuick vs clb 0 false clear wt)).
  { split; [done|]. split; [done|]. intros v w Hv. by apply NF in Hv. }
  pose proof (step_spec vg qg p o _ m _ G M GC) as S1. rewrite Hs in S1. simpl in S1. destruct S1 as (_ & cs1 & Ps1 & Pr).
  split.
  - eapply pass_disjoint; [done|exact Pr|]. intros u v q Hu Hv. apply (Dj u v q); by apply (start_same _ _ _ _ _ _ _ Ps1 Ps).
  - intros u v Hu Hv Ev N Cu Cv. by apply (pr_edges _ _ _ _ _ _ _ Pr).
Qed.

(** an explicit order split in two *)
Lemma input_vars_app n vf a b : input_vars n vf (a ++ b) = (let! U := input_vars n vf a in let! V := input_vars n vf b in Ok (U ++ V)).
Proof.
  unfold input_vars. rewrite foldM_app. destruct (foldM _ a []) as [U|]; cbn [rbind]; [|done].
  assert (K : forall l (W : list nat), foldM (fun U v => if decide (n <= v) then Err Corrupt else let! f := vget vf v in if negb f then Ok (U ++ [v]) else Ok U) l (U ++ W)
    = (let! V := foldM (fun U v => if decide (n <= v) then Err Corrupt else let! f := vget vf v in if negb f then Ok (U ++ [v]) else Ok U) l W in Ok (U ++ V))).
  { induction l as [|v l IH]; intros W; simpl; [done|]. case_decide; [done|]. destruct (vget vf v) as [f|]; cbn [rbind]; [|done].
    destruct f; simpl; [apply IH|]. rewrite <- app_assoc. apply IH. }
  specialize (K b []). rewrite app_nil_r in K. exact K.
Qed.

Lemma miner_chains_st m s q q' : miner_chains (with_st m s q) = miner_chains (with_st m s q').
Proof. done. Qed.

(** explicit orders: one call after the other *)
Lemma quick_split vg qg p o ic m a b clb ov clear wt : good_input vg qg p o -> mok vg qg p o ic m -> fixed_last vg p -> good_table wt ->
  (forall v, v ∈ a ++ b -> v < gn vg) ->
  mstep p m (CQuick (a ++ b) clb ov false clear wt) =
    (let! (m1, _) := mstep p m (CQuick a clb ov false clear wt) in mstep p m1 (CQuick b clb ov false false wt)).
Proof.
  intros G (pp & PO & H0 & I) FL GT Hv. destruct (po_vfixed _ _ _ _ PO) as [Lf Kf].
  assert (Ha : forall v, v ∈ a -> v < gn vg) by (intros v ?; apply Hv, elem_of_app; by left).
  assert (Hb : forall v, v ∈ b -> v < gn vg) by (intros v ?; apply Hv, elem_of_app; by right).
  unfold mstep. rewrite (mv_pp _ _ _ _ _ _ _ I), (po_nvars _ _ _ _ PO). rewrite input_vars_app.
  destruct (input_vars_ok (gn vg) (pp_vfixed pp) a Lf) as [(U & EU & _ & HU)|[_ (v & Hv1 & Hv2)]]; [|specialize (Ha v Hv1); lia].
  destruct (input_vars_ok (gn vg) (pp_vfixed pp) b Lf) as [(V & EV & _ & HV)|[_ (v & Hv1 & Hv2)]]; [|specialize (Hb v Hv1); lia].
  rewrite EU, EV. cbn [rbind].
  set (cl := clear || negb (mi_quick m)) in *. set (e' := with_wtab (mi_env m) wt) in *.
  assert (Ep : pb e' = top_pb pp) by apply (mv_pb _ _ _ _ _ _ _ I).
  destruct (listed_spec vg qg p o G pp PO H0 a U FL Ha HU) as [_ Ho].
  pose proof (top_nv _ _ _ _ PO) as Nv. pose proof (top_nq vg qg p o G pp PO) as Nq.
  pose proof (comp_le vg qg p o G pp PO) as Qb. pose proof (gi_size _ _ _ _ G) as Sz.
  assert (B0 : einv (top_pb pp) (nbr (pp_vnbrs pp)) (anywhere (fixmap (pp_fixed pp))) (if cl then mi_init m else best (mi_st m)) /\ wexact (if cl then mi_init m else best (mi_st m))).
  { unfold cl. destruct clear; simpl; [apply I|]. destruct (mi_quick m) eqn:Q; simpl; [by apply I|apply I]. }
  assert (PR : pb_wf (pb e') /\ (Z.of_nat (nq (pb e')) <= max_distance)%Z /\ SpecPath.even_areas (pb e') (nbr (pp_vnbrs pp)) /\ 0 < nq (pb e')).
  { rewrite Ep. split; [apply (top_pb_wf vg qg p o G pp PO)|]. simpl. unfold max_distance. split; [lia|]. split; [by apply (top_even vg qg p o G pp PO)|done]. }
  destruct PR as (PW & Hqm & MN & Hq0).
  assert (Hfix : forall v q, nv (pb e') <= v < nv (pb e') + nf (pb e') -> is_Some ((anywhere (fixmap (pp_fixed pp))) v !! q) -> nq (pb e') <= q < nq (pb e') + nr (pb e')).
  { rewrite Ep. apply (top_fix vg qg p o G pp PO H0). }
  assert (SI : sinv e' (nbr (pp_vnbrs pp)) (mi_st m)) by apply sinv_wt, I.
  assert (AB : abl e' (best (mi_st m))) by apply abl_wt, I.
  destruct B0 as [I0 W0]. rewrite <- Ep in I0.
  assert (Ho' : forall u, u ∈ U -> u < nv (pb e')) by (rewrite Ep; done).
  assert (Sf : false = true -> safe_env e' (nbr (pp_vnbrs pp))) by done.
  rewrite (quick_pass_app e' _ _ PW MN Hq0 Hqm GT false Sf Hfix (mi_init m) (mi_st m) U V clb ov cl _ SI AB eq_refl I0 W0 Ho').
  pose proof (quick_pass_spec e' _ _ PW MN Hq0 Hqm GT false Sf Hfix (mi_init m) (mi_st m) U clb ov false cl [] _ SI AB eq_refl I0 W0 Ho') as Q.
  destruct (quick_pass e' (mi_init m) U clb ov false cl (mi_st m)) as [s1|x]; cbn [rbind]; [|done].
  destruct Q as (_ & _ & _ & Pa); [by intros x []%elem_of_nil|done|]. destruct Pa as [I1 W1].
  assert (exists cs, miner_chains (with_st m s1 true) = Ok cs) as [cs Ec].
  { destruct (chains_of vg qg p o G pp PO H0 (best s1) e' Ep) as (cs & Hcs & _); [by eapply einv_abl|]. exists cs.
    unfold miner_chains. simpl. rewrite (mv_pp _ _ _ _ _ _ _ I). done. }
  rewrite Ec. cbn [rbind]. change (mi_pp (with_st m s1 true)) with (mi_pp m). rewrite (mv_pp _ _ _ _ _ _ _ I), (po_nvars _ _ _ _ PO), EV. cbn [rbind].
  done.
Qed.

Lemma reached_quick vg qg p o cs m l : reached vg qg p o cs m l -> mi_quick m = existsb is_quick cs.
Proof.
  intros (m0 & H1 & H2). destruct (mrun_quick _ _ _ _ _ H2) as [-> _].
  assert (mi_quick m0 = false) as ->; [|done]. revert H1. unfold miner_new.
  destruct (process _ _ _ _); cbn [rbind]; [|done]. destruct (make_env _ _ _); cbn [rbind]; [|done]. destruct (emb_init _ _ _ _); cbn [rbind]; [|done].
  by intros [= <-].
Qed.

Lemma local_start vg qg p o calls m l vs clb ov clear wt : good_input vg qg p o -> Forall (good_call vg p) calls -> reached vg qg p o calls m l ->
  good_table wt -> fixed_last vg p -> NoDup vs ->
  clear = true \/ existsb is_quick calls = false -> good_start vg qg (start_with p (starts_after (p_initial p) calls)) ->
  match mstep p m (CQuick vs clb ov true clear wt) with
  | Ok (_, a) => exists cs cs0, a = APass cs /\ pass_start vg p (starts_after (p_initial p) calls) m clear cs0 /\
       pass_result vg qg p (fun v => v ∈ vs) (Z.max 1 (1 + ov)) cs0 cs
  | Err x => documented p x end.
Proof.
  intros G F Re GT FL ND Hc GS. destruct (reached_ok _ _ _ _ _ _ _ G F Re) as (pp & PO & H0 & I).
  pose proof (local_quick vg qg p o G pp PO H0 _ m vs clb ov clear wt I GT FL ND) as K.
  rewrite (reached_quick _ _ _ _ _ _ _ Re) in K.
  assert (Ec : clear || negb (existsb is_quick calls) = true) by (destruct Hc as [->| ->]; [done|by rewrite orb_true_r]).
  rewrite Ec in K. specialize (K GS). destruct (mstep p m _) as [[m' a]|x]; [by destruct K|by apply wpo_err in K].
Qed.
Lemma local_start_all vg qg p o calls m l vo clb ov clear wt : good_input vg qg p o -> Forall (good_call vg p) calls -> reached vg qg p o calls m l ->
  good_table wt -> vo <> VO_KEEP ->
  clear = true \/ existsb is_quick calls = false -> good_start vg qg (start_with p (starts_after (p_initial p) calls)) ->
  match mstep p m (CStrategy vo clb ov true clear wt) with
  | Ok (_, a) => exists cs cs0, a = APass cs /\ pass_start vg p (starts_after (p_initial p) calls) m clear cs0 /\
       pass_result vg qg p (fun v => v < gn vg /\ ~ is_fixed p v) (Z.max 1 (1 + ov)) cs0 cs
  | Err x => documented p x end.
Proof.
  intros G F Re GT No Hc GS. destruct (reached_ok _ _ _ _ _ _ _ G F Re) as (pp & PO & H0 & I).
  pose proof (local_strategy vg qg p o G pp PO H0 _ m vo clb ov clear wt I GT No) as K.
  rewrite (reached_quick _ _ _ _ _ _ _ Re) in K.
  assert (Ec : clear || negb (existsb is_quick calls) = true) by (destruct Hc as [->| ->]; [done|by rewrite orb_true_r]).
  rewrite Ec in K. specialize (K GS). destruct (mstep p m _) as [[m' a]|x]; [by destruct K|by apply wpo_err in K].
Qed.
Lemma local_found vg qg p o calls m l fs m1 vs clb ov wt : good_input vg qg p o -> Forall (good_call vg p) calls -> reached vg qg p o calls m l ->
  existsb is_quick calls = true -> mstep p m CFind = Ok (m1, AFound true fs) ->
  good_table wt -> fixed_last vg p -> NoDup vs ->
  match mstep p m1 (CQuick vs clb ov true false wt) with
  | Ok (_, a) => exists cs cs0, a = APass cs /\ miner_chains m1 = Ok cs0 /\
       pass_result vg qg p (fun v => v ∈ vs) (Z.max 1 (1 + ov)) cs0 cs
  | Err x => documented p x end.
Proof.
  intros G F Re Hq Hf GT FL ND. destruct (reached_ok _ _ _ _ _ _ _ G F Re) as (pp & PO & H0 & I).
  pose proof (found_spec vg qg p o G pp PO H0 _ m I) as S1. rewrite Hf in S1. simpl in S1. destruct S1 as (I1 & _ & Fu). specialize (Fu _ eq_refl).
  assert (Q1 : mi_quick m1 = true). { rewrite (mstep_quick _ _ _ _ _ Hf), (reached_quick _ _ _ _ _ _ _ Re), Hq. done. }
  pose proof (local_quick vg qg p o G pp PO H0 _ m1 vs clb ov false wt I1 GT FL ND) as K. rewrite Q1 in K. specialize (K Fu).
  destruct (mstep p m1 _) as [[m' a]|x]; [|by apply wpo_err in K]. destruct K as (_ & cs & cs0 & -> & Ps & Pr).
  exists cs, cs0. split; [done|]. split; [|done]. unfold pass_start in Ps. rewrite Q1 in Ps. exact Ps.
Qed.

Lemma split_reached vg qg p o calls m l a b clb ov clear wt : good_input vg qg p o -> Forall (good_call vg p) calls -> reached vg qg p o calls m l ->
  fixed_last vg p -> good_table wt -> (forall v, v ∈ a ++ b -> v < gn vg) ->
  mstep p m (CQuick (a ++ b) clb ov false clear wt) =
    (let! (m1, _) := mstep p m (CQuick a clb ov false clear wt) in mstep p m1 (CQuick b clb ov false false wt)).
Proof. intros G F Re. by eapply quick_split, reached_ok. Qed.
Lemma fixed_reached vg qg p o calls m l v clb ov ls wt : good_input vg qg p o -> Forall (good_call vg p) calls -> reached vg qg p o calls m l ->
  v < gn vg -> is_fixed p v -> existsb is_quick calls = true ->
  exists cs, miner_chains m = Ok cs /\ mstep p m (CQuick [v] clb ov ls false wt) = Ok (m, APass cs).
Proof.
  intros G F Re Hv Hf Hq. destruct (reached_ok _ _ _ _ _ _ _ G F Re) as (pp & PO & H0 & I).
  eapply (quick_fixed vg qg p o G pp PO H0); eauto. by rewrite (reached_quick _ _ _ _ _ _ _ Re).
Qed.
Lemma one_reached vg qg p o calls m l v clb ov clear wt : good_input vg qg p o -> Forall (good_call vg p) calls -> reached vg qg p o calls m l ->
  fixed_last vg p -> good_table wt -> 
  match mstep p m (CQuick [v] clb ov false clear wt) with
  | Ok (_, a) => exists cs cs0, a = APass cs /\ pass_start vg p (starts_after (p_initial p) calls) m clear cs0 /\
       pass_result vg qg p (fun w => w = v) (1 + ov) cs0 cs
  | Err x => documented p x end.
Proof.
  intros G F Re FL GT. pose proof (reached_ok _ _ _ _ _ _ _ G F Re) as M.
  pose proof (step_spec vg qg p o _ m (CQuick [v] clb ov false clear wt) G M ltac:(done)) as K.
  destruct (mstep p m _) as [[m' a]|x]; [|by apply wpo_err in K]. destruct K as (_ & K). simpl in K. destruct a as [| |cs]; [done|done|].
  destruct K as (cs0 & Ps & Pr). exists cs, cs0. split; [done|]. split; [done|].
  destruct Pr as [P1 P2 P3 P4 P5 P6 P7 P8]. split; auto.
  - intros w ->. apply P5. by left.
  - intros u w ->. apply P6. by left.
  - intros w Hw. apply P7. intros [H1%elem_of_list_singleton H2]. by apply Hw.
Qed.

(** the table of permutations *)
Lemma perm_table_perm rnd n pos l t pos' : perm_table rnd n pos l = (t, pos') -> forall v r, t !! v = Some r -> r ≡ₚ l.
Proof.
  revert pos l t pos'. induction n as [|n IH]; intros pos l t pos'; cbn [perm_table]; [by intros [= <- <-]|].
  destruct (shuffle rnd pos l) as [p1 pos1] eqn:E1. destruct (perm_table rnd n pos1 p1) as [t2 pos2] eqn:E2. intros [= <- <-].
  pose proof (shuffle_perm rnd pos l) as P. rewrite E1 in P. simpl in P.
  intros [|v] r; simpl; [by intros [= <-]|]. intros H. by rewrite (IH _ _ _ _ E2 v r H).
Qed.
Lemma perm_entries vg qg p o pp e : good_input vg qg p o -> process vg qg p (o_sort o) = Ok pp -> make_env pp p o = Ok e ->
  forall v, v < gn vg -> exists r, perm (sr (pathfinder_new e (pp_vnbrs pp))) !! v = Some r /\ r ≡ₚ seq 0 (nq (pb e)).
Proof.
  intros G Hp He v Hv.
  destruct (process_spec vg qg p (o_sort o) (good_input_ok _ _ _ _ G) (gi_sort _ _ _ _ G)) as (cp & R & D & HR & [(pp' & Hp' & V & PO & Ec)|[Hp' NV]]); [|congruence].
  assert (pp' = pp) as -> by congruence.
  destruct (top_env vg qg p o G pp PO) as [[He' _]|(e' & mg & He' & Ep & H0 & _)]; [congruence|]. assert (e' = e) as -> by congruence.
  pose proof (top_nf vg qg p o G pp PO) as Nf. pose proof (top_nv _ _ _ _ PO) as Nv.
  unfold pathfinder_new. destruct (perm_table (rnd e) (nv (pb e) + nr (pb e)) 0 (seq 0 (nq (pb e)))) as [t pos] eqn:Et. simpl.
  destruct (perm_table_ok _ _ (nq (pb e)) _ _ _ _ ltac:(by rewrite seq_length) Et) as [Lt _].
  destruct (lookup_lt_is_Some_2 t v) as [r Hr].
  { rewrite Lt, Ep. simpl. simpl in Nf. lia. }
  exists r. split; [done|]. by eapply perm_table_perm.
Qed.
