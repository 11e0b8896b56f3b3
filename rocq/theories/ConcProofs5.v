(** The threaded preparation as a whole: every schedule computes what [prepare_parallel] computes. *)
From stdpp Require Import base list numbers gmap.
From Verif Require Import Base Wp ChainModel EmbModel SpecEmb QueueModel PathModel SpecPath PrepProofs PathProofs2 ConcModel SpecConc ConcProofs1 ConcProofs2 ConcProofs3 ConcProofs4.
Local Open Scope Z_scope.

Section one.
Context (pb : problem) (em : emb) (wbd : Z) (u : nat).
Notation search_step v b := (let! b := prep_vis pb u v b in compute_distances_from_chain pb em wbd v b).

Lemma job_inv v b b1 : search_step v b = Ok b1 -> exists pm pv vv dv p vs d, perm b !! v = Some pm /\ par b !! v = Some pv /\ vis b !! v = Some vv /\
  dist b !! v = Some dv /\ rowcomp pb em wbd (qw b) u v pm pv vv dv = Ok (p, vs, d) /\
  b1 = set_row b (<[v:=p]> (par b)) (<[v:=vs]> (vis b)) (<[v:=d]> (dist b)).
Proof.
  intros H.
  assert (exists vv, vis b !! v = Some vv) as [vv Hv].
  { unfold prep_vis in H. destruct (vget (vis b) v) as [vv|] eqn:E; [|done]. apply vget_inv in E. eauto. }
  assert (G : exists l2, compute_distances_from_chain pb em wbd v (mkSr (par b) l2 (dist b) (total b) (qw b) (perm b)) = Ok b1).
  { unfold prep_vis in H. rewrite (vget_ok _ _ _ Hv) in H. cbn [rbind] in H. destruct (prepare_visited pb vv u v) as [l|]; [|done]. cbn [rbind] in H.
    destruct (vset (vis b) v l) as [l2|]; [|done]. cbn [rbind] in H. eauto. }
  destruct G as [l2 G]. unfold compute_distances_from_chain in G. simpl in G.
  destruct (vget (par b) v) as [pv|] eqn:Hp; [|done]. cbn [rbind] in G. apply vget_inv in Hp.
  destruct (vget l2 v) as [x|]; [|done]. cbn [rbind] in G.
  destruct (vget (dist b) v) as [dv|] eqn:Hd; [|done]. cbn [rbind] in G. apply vget_inv in Hd.
  destruct (vget (perm b) v) as [pm|] eqn:Hm; [|done]. apply vget_inv in Hm. clear G.
  rewrite (compute_rowcomp pb em wbd u v b pm pv vv dv) in H by done.
  destruct (rowcomp pb em wbd (qw b) u v pm pv vv dv) as [[[p vs] d]|] eqn:Er; [|done]. cbn [rbind] in H. injection H as <-.
  by exists pm, pv, vv, dv, p, vs, d.
Qed.

Definition bshape (b : search) := (map length (vis b), map length (dist b), map length (par b), perm b).
Definition visok (b : search) : Prop := forall v r, vis b !! v = Some r -> length r = nq pb.
Lemma visok_shape b b' : bshape b = bshape b' -> visok b -> visok b'.
Proof.
  intros [= E _ _ _] H v r Hr. assert (G : (length <$> vis b') !! v = Some (length r)) by (by rewrite list_lookup_fmap, Hr).
  change (length <$> vis b') with (map length (vis b')) in G. rewrite <- E in G. change (map length (vis b)) with (length <$> vis b) in G.
  rewrite list_lookup_fmap in G. destruct (vis b !! v) as [r'|] eqn:Er; [|done]. simpl in G. injection G as <-. by eapply H.
Qed.
Lemma job_shape v b b1 : visok b -> search_step v b = Ok b1 -> bshape b1 = bshape b.
Proof.
  intros Hok H. destruct (sim_job pb em wbd u v (mkMem b [] 0 0) b1) as [tr Hs]; [simpl; by apply Hok|done|].
  specialize (Hs (fun _ => Ret) [] Ret _ eq_refl).
  destruct (exec_frame (job_R v) (on_row v) _ _ _ _ _ ltac:(by left) (fp_job pb em wbd _ u v Ret ltac:(done)) Hs) as [_ E].
  unfold shape in E. simpl in E. unfold bshape. injection E as -> -> -> ->. done.
Qed.

Definition rowseq (b b' : search) (v : nat) : Prop := par b !! v = par b' !! v /\ vis b !! v = vis b' !! v /\ dist b !! v = dist b' !! v.
Lemma rowseq_refl b v : rowseq b b v.
Proof. done. Qed.
Lemma rowseq_trans b1 b2 b3 v : rowseq b1 b2 v -> rowseq b2 b3 v -> rowseq b1 b3 v.
Proof. intros (A & B & C) (A' & B' & C'). unfold rowseq. by rewrite A, B, C. Qed.

Lemma job_other v b b1 : search_step v b = Ok b1 -> qw b1 = qw b /\ perm b1 = perm b /\ total b1 = total b /\ forall v', v' <> v -> rowseq b1 b v'.
Proof.
  intros (pm & pv & vv & dv & p & vs & d & _ & _ & _ & _ & _ & ->)%job_inv. split; [done|]. split; [done|]. split; [done|].
  intros v' N. unfold rowseq. simpl. by rewrite !list_lookup_insert_ne.
Qed.
Lemma job_same v b b0 b1 : search_step v b = Ok b1 -> rowseq b0 b v -> qw b0 = qw b -> perm b0 = perm b ->
  exists b', search_step v b0 = Ok b' /\ rowseq b' b1 v.
Proof.
  intros (pm & pv & vv & dv & p & vs & d & Hm & Hp & Hv & Hd & Hr & ->)%job_inv (E1 & E2 & E3) Eq Em.
  rewrite (compute_rowcomp pb em wbd u v b0 pm pv vv dv) by congruence. rewrite Eq, Hr. cbn [rbind]. eexists. split; [done|].
  unfold rowseq. simpl. assert (forall A (l l' : list A) x y, l !! v = l' !! v -> l' !! v = Some y -> <[v:=x]> l !! v = <[v:=x]> l' !! v) as G.
  { intros A l l' x y H1 H2. rewrite !list_lookup_insert; [done|by eapply lookup_lt_Some|]. rewrite H2 in H1. by eapply lookup_lt_Some. }
  split; [by eapply G|]. split; by eapply G.
Qed.

Lemma fold_rows l : forall b k b3 n, NoDup l -> visok b -> (forall v, v ∈ l -> chainsize em v = Ok (chain_size em v)) ->
  foldM (fun '(b, n) v => let! sz := chainsize em v in if decide (sz = 0%nat) then Ok (b, n) else
      let! b := prep_vis pb u v b in let! b := compute_distances_from_chain pb em wbd v b in Ok (b, S n)) l (b, k) = Ok (b3, n) ->
  n = (k + length (embedded_of em l))%nat /\ qw b3 = qw b /\ perm b3 = perm b /\ total b3 = total b /\ bshape b3 = bshape b /\
  (forall v, v ∈ l -> chain_size em v <> 0%nat -> exists b', search_step v b = Ok b' /\ rowseq b' b3 v) /\
  (forall v, ~ (v ∈ l /\ chain_size em v <> 0%nat) -> rowseq b3 b v).
Proof.
  induction l as [|v l IH]; intros b k b3 n ND Hok Hsz H; cbn [foldM] in H.
  - injection H as <- <-. simpl. split; [lia|]. do 4 (split; [done|]). split; [by intros v ?%elem_of_nil|done].
  - apply NoDup_cons in ND as [Hv ND]. rewrite (Hsz v) in H by left. cbn [rbind] in H.
    assert (Hsz' : forall v, v ∈ l -> chainsize em v = Ok (chain_size em v)) by (intros ? ?; apply Hsz; by right).
    unfold embedded_of in *. destruct (decide (chain_size em v = 0%nat)) as [Hz|Hz].
    + cbn [rbind] in H. destruct (IH _ _ _ _ ND Hok Hsz' H) as (H1 & H2 & H3 & H4 & H5 & H6 & H7).
      rewrite filter_cons_False by tauto. do 5 (split; [done|]). split.
      * intros v' [->|Hv']%elem_of_cons; [done|]. by apply H6.
      * intros v' Hv'. apply H7. intros [? ?]. apply Hv'. split; [by right|done].
    + destruct (prep_vis pb u v b) as [b0|] eqn:E0; [|done]. cbn [rbind] in H.
      destruct (compute_distances_from_chain pb em wbd v b0) as [b1|] eqn:E1; [|done]. cbn [rbind] in H.
      assert (Hs : search_step v b = Ok b1) by (rewrite E0; exact E1).
      destruct (job_other _ _ _ Hs) as (O1 & O2 & O3 & O4). pose proof (job_shape _ _ _ Hok Hs) as S1.
      destruct (IH _ _ _ _ ND (visok_shape _ _ (eq_sym S1) Hok) Hsz' H) as (H1 & H2 & H3 & H4 & H5 & H6 & H7).
      rewrite filter_cons_True by done. split; [simpl; lia|]. split; [congruence|]. split; [congruence|]. split; [congruence|]. split; [congruence|]. split.
      * intros v' [->|Hv']%elem_of_cons Hz'.
        -- exists b1. split; [done|]. destruct (H7 v) as (A & B & C); [by intros [? ?]|]. done.
        -- destruct (H6 v' Hv' Hz') as (b' & Hb' & Hr). destruct (job_same v' b1 b b') as (b'' & Hb'' & Hr'); [done| |congruence|congruence|].
           { assert (v' <> v) as N by (by intros ->). destruct (O4 v' N) as (A & B & C). done. }
           exists b''. split; [done|]. by eapply rowseq_trans.
      * intros v' Hv'. eapply rowseq_trans; [apply H7|apply O4].
        -- intros [? ?]. apply Hv'. split; [by right|done].
        -- intros ->. apply Hv'. split; [left|done].
Qed.
Lemma rowseq_get m b' v c : rowseq (m_sr m) b' v -> on_row v c -> mget m c = mget (set_m m b') c.
Proof. intros (A & B & C) Hc. destruct c; simpl in Hc; try done; subst; simpl; unfold vget2, vget; [by rewrite B|by rewrite C|by rewrite A]. Qed.
Lemma rowseq_get2 b b' tw n k tw' n' k' v c : rowseq b b' v -> on_row v c -> mget (mkMem b tw n k) c = mget (mkMem b' tw' n' k') c.
Proof. intros (A & B & C) Hc. destruct c; simpl in Hc; try done; subst; simpl; unfold vget2, vget; [by rewrite B|by rewrite C|by rewrite A]. Qed.
End one.

Section phase3.
Context (pb : problem) (em : emb) (wbd : Z) (nbrs : list nat) (u : nat) (nt : nat).
Context (Hnt : (0 < nt)%nat) (ND : NoDup nbrs) (Hsz : forall v, v ∈ nbrs -> chainsize em v = Ok (chain_size em v)).
Context (b2 b3 : search) (n : nat) (tw : list Z) (Hok : visok pb b2).
Context (Hfold : foldM (fun '(b, n) v => let! sz := chainsize em v in if decide (sz = 0%nat) then Ok (b, n) else
      let! b := prep_vis pb u v b in let! b := compute_distances_from_chain pb em wbd v b in Ok (b, S n)) nbrs (b2, 0%nat) = Ok (b3, n)).
Notation m0 := (mkMem b2 tw 0 0).
Notation mf := (mkMem b3 tw (Z.of_nat (length nbrs)) (Z.of_nat n)).
Definition TRC (v : nat) : list act := match exec (job_P pb em wbd (perm b2) u v Ret) m0 with Ok (tr, _, _) => tr | Err _ => [] end.
Notation ts := (replicate nt (worker_P (S (length nbrs)) pb em wbd (perm b2) nbrs u)).

Lemma phase3_facts :
  n = length (embedded_of em nbrs) /\ qw b3 = qw b2 /\ perm b3 = perm b2 /\ total b3 = total b2 /\ bshape b3 = bshape b2 /\
  ends ts m0 mf /\
  (forall tr s, runs (start ts m0) tr s -> (forall ev s', ~ cstep ev s s') ->
    (forall v, v ∈ embedded_of em nbrs -> exists i, (i < nt)%nat /\ events v tr = map (pair i) (rowacts v (TRC v))) /\
    (forall v, v ∉ embedded_of em nbrs -> events v tr = [])) /\
  (forall v, v ∈ embedded_of em nbrs -> exists m', exec (job_P pb em wbd (perm b2) u v Ret) m0 = Ok (TRC v, Ret, m')).
Proof.
  destruct (fold_rows pb em wbd u nbrs b2 0 b3 n ND Hok Hsz Hfold) as (H1 & H2 & H3 & H4 & H5 & H6 & H7). simpl in H1.
  assert (Hjob : forall v f, v ∈ nbrs -> chain_size em v <> 0%nat -> f <> 0%nat -> exists m1,
    exec (job_P pb em wbd (perm b2) u v (worker_P f pb em wbd (perm b2) nbrs u)) m0 = Ok (TRC v, worker_P f pb em wbd (perm b2) nbrs u, m1) /\
    exec (job_P pb em wbd (perm b2) u v Ret) m0 = Ok (TRC v, Ret, m1) /\
    forall c, on_row v c -> mget m1 c = mget mf c).
  { intros v f Hv Hz Hf. destruct (H6 v Hv Hz) as (b' & Hb' & Hr).
    destruct (sim_job pb em wbd u v m0 b') as [tr Hs]; [simpl; by apply Hok|done|]. simpl in Hs.
    assert (E1 : exec (job_P pb em wbd (perm b2) u v Ret) m0 = Ok (tr, Ret, set_m m0 b')).
    { pose proof (Hs (fun _ => Ret) [] Ret _ eq_refl) as E. by rewrite app_nil_r in E. }
    assert (Et : TRC v = tr) by (unfold TRC; by rewrite E1). rewrite Et.
    exists (set_m m0 b'). split; [|split; [done|]].
    - pose proof (Hs (fun _ => worker_P f pb em wbd (perm b2) nbrs u) [] (worker_P f pb em wbd (perm b2) nbrs u) (set_m m0 b')) as E.
      rewrite app_nil_r in E. apply E. by destruct f.
    - intros c Hc. unfold set_m. simpl. by apply (rowseq_get2 _ _ _ _ _ _ _ _ v). }
  split; [done|]. do 4 (split; [done|]).
  assert (Hrest : forall c, ~ ctl c -> (forall v, v ∈ nbrs -> chain_size em v <> 0%nat -> ~ on_row v c) -> mget m0 c = mget mf c).
  { intros c Hc Hv. destruct c as [v q|v q|v q|q|q|i| |]; try (exfalso; by apply Hc).
    1-3: (apply (rowseq_get2 _ _ _ _ _ _ _ _ v); [|done]; destruct (H7 v) as (A & B & C); [|done]; intros [Hv1 Hv2]; by eapply Hv).
    - simpl. by rewrite H4.
    - simpl. by rewrite H2.
    - done. }
  assert (Hshape : shape m0 = shape mf).
  { unfold shape. simpl. unfold bshape in H5. injection H5 as E1 E2 E3 E4. by rewrite E1, E2, E3, E4. }
  assert (HJ : forall v f, v ∈ nbrs -> chain_size em v <> 0%nat -> f <> 0%nat -> exists m1,
    exec (job_P pb em wbd (perm b2) u v (worker_P f pb em wbd (perm b2) nbrs u)) m0 = Ok (TRC v, worker_P f pb em wbd (perm b2) nbrs u, m1) /\
    forall c, on_row v c -> mget m1 c = mget mf c).
  { intros v f Hv Hz Hf. destruct (Hjob v f Hv Hz Hf) as (m1 & A & B & C). eauto. }
  assert (Hcf : mget mf CCount = Ok (Z.of_nat (length (embedded_of em nbrs)))) by (simpl; by rewrite H1).
  split; [by apply (workers_end pb em wbd (perm b2) nbrs u nt m0 mf TRC)|].
  split; [by apply (workers_trace pb em wbd (perm b2) nbrs u nt m0 mf TRC)|].
  intros v [Hz Hv]%elem_of_list_filter. destruct (Hjob v 1%nat Hv Hz ltac:(done)) as (m1 & _ & B & _). eauto.
Qed.
End phase3.

(** ** from [exec] to executions of one thread *)
Lemma runs_trans s tr s1 tr' s2 : runs s tr s1 -> runs s1 tr' s2 -> runs s (tr ++ tr') s2.
Proof. intros H1 H2. induction H2 as [|tr' s2 ev s3 H2 IH Hs]; [by rewrite app_nil_r|]. rewrite app_assoc. by eapply runs_snoc. Qed.
Lemma runs_cons s ev s1 tr s2 : cstep ev s s1 -> runs s1 tr s2 -> runs s (ev :: tr) s2.
Proof. intros H1 H2. apply (runs_trans s [ev] s1 tr s2); [|done]. apply (runs_snoc s [] s ev s1); [constructor|done]. Qed.
Lemma exec_runs p : forall m tr p' m', exec p m = Ok (tr, p', m') -> runs (mkC [p] m None) (map (pair 0%nat) tr) (mkC [p'] m' None).
Proof.
  induction p as [|x|c k IH|c x k IH|k IH|k IH]; intros m tr p' m' H; cbn [exec] in H.
  - injection H as <- <- <-. constructor.
  - done.
  - destruct (mget m c) as [x|] eqn:Ex; [|done]. cbn [rbind] in H. destruct (exec (k x) m) as [[[tr1 p1] m1]|] eqn:E1; [|done].
    cbn [rbind] in H. injection H as <- <- <-. simpl. eapply runs_cons; [by apply cs_get with (k := k) (x := x)|]. simpl. by apply IH.
  - destruct (mput m c x) as [m2|] eqn:Ex; [|done]. cbn [rbind] in H. destruct (exec k m2) as [[[tr1 p1] m1]|] eqn:E1; [|done].
    cbn [rbind] in H. injection H as <- <- <-. simpl. eapply runs_cons; [by eapply cs_put with (k := k)|]. simpl. by apply IH.
  - injection H as <- <- <-. constructor.
  - injection H as <- <- <-. constructor.
Qed.
Lemma events_pair v i l : events v (map (pair i) l) = map (pair i) (rowacts v l).
Proof.
  induction l as [|a l IH]; [done|]. simpl. unfold events, rowacts in *. rewrite !filter_cons. destruct a; simpl; try done.
  - change (acts_on v (i, AGet c)) with (on_row v c). destruct (decide (on_row v c)), (decide (acts_on v (i, AGet c))); try done; simpl; by rewrite IH.
  - change (acts_on v (i, APut c x)) with (on_row v c). destruct (decide (on_row v c)), (decide (acts_on v (i, APut c x))); try done; simpl; by rewrite IH.
Qed.

(** ** the searches succeed one after the other *)
Section chain.
Context (pb : problem) (PW : pb_wf pb) (em : emb) (wbd : Z) (Po : placed_ok pb em) (u : nat) (Lu : (u < nv pb + nf pb)%nat).
Lemma search_keeps v b M : buffers_ok pb b -> costs_ok pb (qw b) -> (v < nv pb + nf pb)%nat -> 0 <= M ->
  (forall q, (q < nq pb)%nat -> wt (qw b) q <= M) -> Z.of_nat (nq pb) * M <= max_distance ->
  exists b', (let! b := prep_vis pb u v b in compute_distances_from_chain pb em wbd v b) = Ok b' /\ buffers_ok pb b' /\ qw b' = qw b.
Proof.
  intros S [Cl C] Lv HM Hw Hn.
  assert (H : wpo (fun _ => False) (let! b := prep_vis pb u v b in compute_distances_from_chain pb em wbd v b) (fun b' => buffers_ok pb b' /\ qw b' = qw b)).
  { eapply wpr_mono.
    - apply (compute_spec pb PW em wbd (fun _ _ _ => True) (po_ew _ _ Po) (po_len _ _ Po)) with (M := M); auto.
      + intros v' c q Hc Hq Hv. apply (po_free _ _ Po v'); [done|]. by exists c.
      + intros v' c q Hc Hq Hv. apply (po_fixed _ _ Po v'); [done|]. by exists c.
      + split; [done|]. split; [done|]. auto.
    - simpl. intros b' (S' & Ho & R). split; [done|]. apply Ho. }
  destruct (let! b := prep_vis pb u v b in _) as [b'|x]; [simpl in H; naive_solver|]. by destruct x.
Qed.
Lemma size_ok v : (v < nv pb + nf pb)%nat -> chainsize em v = Ok (chain_size em v).
Proof.
  intros H. destruct (lookup_lt_is_Some_2 (chains em) v) as [c Hc]; [by rewrite (po_len _ _ Po)|].
  unfold chainsize, chain_size. by rewrite (vget_ok _ _ _ Hc), Hc.
Qed.
Lemma fold_ok M l : 0 <= M -> Z.of_nat (nq pb) * M <= max_distance -> (forall v, v ∈ l -> (v < nv pb + nf pb)%nat) ->
  forall b k, buffers_ok pb b -> costs_ok pb (qw b) -> (forall q, (q < nq pb)%nat -> wt (qw b) q <= M) ->
  exists b3 n, foldM (fun '(b, n) v => let! sz := chainsize em v in if decide (sz = 0%nat) then Ok (b, n) else
      let! b := prep_vis pb u v b in let! b := compute_distances_from_chain pb em wbd v b in Ok (b, S n)) l (b, k) = Ok (b3, n).
Proof.
  intros HM Hn. induction l as [|v l IH]; intros Hl b k S C Hw; cbn [foldM]; [eauto|].
  assert (Hl' : forall v, v ∈ l -> (v < nv pb + nf pb)%nat) by (intros ? ?; apply Hl; by right).
  rewrite size_ok by (apply Hl; by left). cbn [rbind]. case_decide as Hd; cbn [rbind]; [by apply IH|].
  destruct (search_keeps v b M S C) as (b' & Hb & S' & Eq); try done; [apply Hl; by left|].
  destruct (prep_vis pb u v b) as [b0|]; [|done]. cbn [rbind] in Hb. cbn [rbind]. rewrite Hb. cbn [rbind].
  apply IH; [done|done|by rewrite Eq|by rewrite Eq].
Qed.
End chain.

(** ** C19: the worker threads *)
Lemma handed_once pb em wbd nbrs u nt b tw M : pb_wf pb -> placed_ok pb em -> (0 < nt)%nat -> (u < nv pb + nf pb)%nat -> NoDup nbrs ->
  (forall v, v ∈ nbrs -> (v < nv pb + nf pb)%nat) -> buffers_ok pb b -> costs_ok pb (qw b) ->
  0 <= M -> (forall q, (q < nq pb)%nat -> wt (qw b) q <= M) -> Z.of_nat (nq pb) * M <= max_distance ->
  let ts := replicate nt (worker_P (S (length nbrs)) pb em wbd (perm b) nbrs u) in
  let m0 := mkMem b tw 0 0 in
  (exists n, forall tr s, runs (start ts m0) tr s -> (length tr <= n)%nat) /\
  forall tr s, runs (start ts m0) tr s ->
    ~ race s /\
    ((forall ev s', ~ cstep ev s s') ->
      c_thr s = replicate nt Ret /\ c_lock s = None /\ m_count (c_mem s) = Z.of_nat (length (embedded_of em nbrs)) /\
      (forall v, v ∈ embedded_of em nbrs -> exists i alone m1, (i < nt)%nat /\
         runs (start [job_P pb em wbd (perm b) u v Ret] m0) alone (mkC [Ret] m1 None) /\
         base.filter (acts_on v) tr = map (fun ev => (i, ev.2)) (base.filter (acts_on v) alone) /\
         forall c, on_row v c -> mget (c_mem s) c = mget m1 c) /\
      (forall v, v ∉ embedded_of em nbrs -> base.filter (acts_on v) tr = [] /\ forall c, on_row v c -> mget (c_mem s) c = mget m0 c)).
Proof.
  intros PW Po Hnt Lu ND Hl S C HM Hw Hn ts m0.
  destruct (fold_ok pb PW em wbd Po u Lu M nbrs HM Hn Hl b 0%nat S C Hw) as (b3 & n & Hf).
  assert (Hsz : forall v, v ∈ nbrs -> chainsize em v = Ok (chain_size em v)) by (intros v Hv; apply (size_ok pb); auto).
  destruct (phase3_facts pb em wbd nbrs u nt Hnt ND Hsz b b3 n tw (bo_visr _ _ S) Hf) as (H1 & _ & _ & _ & _ & He & Ht & Hx).
  destruct (fold_rows pb em wbd u nbrs b 0 b3 n ND (bo_visr _ _ S) Hsz Hf) as (_ & _ & _ & _ & _ & H6 & H7).
  split; [apply He|]. intros tr s Hr. split; [by apply (en_no_race _ _ _ He tr)|]. intros Hstop.
  destruct (en_result _ _ _ He _ _ Hr) as [(ev & s' & Hst)|Es]; [by destruct (Hstop ev s')|].
  destruct (Ht _ _ Hr Hstop) as [T1 T2]. subst s. cbn [c_thr c_lock c_mem m_count]. subst ts. rewrite replicate_length.
  split; [done|]. split; [done|]. split; [by rewrite H1|]. split.
  - intros v Hv. destruct (T1 v Hv) as (i & Hi & Ei). destruct (Hx v Hv) as (m1 & Em).
    exists i, (map (pair 0%nat) (TRC pb em wbd u b tw v)), m1. split; [done|]. split; [by apply exec_runs|]. split.
    + change (events v tr = map (fun ev => (i, ev.2)) (events v (map (pair 0%nat) (TRC pb em wbd u b tw v)))).
      rewrite Ei, events_pair, map_map. done.
    + intros c Hc. apply elem_of_list_filter in Hv as [Hz Hv]. destruct (H6 v Hv Hz) as (b' & Hb' & Hrs).
      destruct (sim_job pb em wbd u v m0 b') as [tr' Hs]; [simpl; apply (bo_visr _ _ S)|done|].
      pose proof (Hs (fun _ => Ret) [] Ret _ eq_refl) as E1. simpl in E1. fold m0 in Em. rewrite Em in E1. injection E1 as _ ->.
      symmetry. by apply (rowseq_get2 _ _ _ _ _ _ _ _ v).
  - intros v Hv. split; [by apply T2|]. intros c Hc. apply (rowseq_get2 _ _ _ _ _ _ _ _ v); [|done].
    apply H7. intros [Hv1 Hv2]. apply Hv. by apply elem_of_list_filter.
Qed.

(** ** C21: the whole preparation *)
Lemma acc_at_total pb em wbd l : forall b b4, foldM (fun b v => accumulate_at_chain pb em wbd v b) l b = Ok b4 ->
  exists t, b4 = set_total b t /\ length t = length (total b).
Proof.
  induction l as [|v l IH]; intros b b4 H; cbn [foldM] in H.
  - injection H as <-. exists (total b). split; [by destruct b|done].
  - destruct (accumulate_at_chain pb em wbd v b) as [b1|] eqn:E; [|done]. cbn [rbind] in H.
    assert (exists t, b1 = set_total b t /\ length t = length (total b)) as (t & -> & Lt).
    { unfold accumulate_at_chain in E. destruct (fixedb pb v); [injection E as <-; exists (total b); split; [by destruct b|done]|].
      destruct (vget (chains em) v) as [c|]; [|done]. cbn [rbind] in E.
      match type of E with (let! t := foldM ?f _ _ in _) = _ => assert (G : forall l t t', foldM f l t = Ok t' -> length t' = length t) end.
      { clear. induction l as [|q l IH]; intros t t' H; cbn [foldM] in H; [by injection H as <-|].
        destruct (vget (qw b) q) as [w|]; [|done]. cbn [rbind] in H. destruct (vget t q) as [tq|]; [|done]. cbn [rbind] in H.
        destruct (vget (eweight em) q) as [ew|]; [|done]. cbn [rbind] in H. case_decide.
        - destruct (dadd tq w) as [x|]; [|done]. cbn [rbind] in H. destruct (vset t q x) as [t1|] eqn:E1; [|done]. cbn [rbind] in H.
          rewrite (IH _ _ H). by apply vset_inv in E1 as [_ ->]; rewrite insert_length.
        - destruct (vset t q max_distance) as [t1|] eqn:E1; [|done]. cbn [rbind] in H.
          rewrite (IH _ _ H). by apply vset_inv in E1 as [_ ->]; rewrite insert_length. }
      match type of E with (let! t := ?x in _) = _ => destruct x as [t|] eqn:E2; [|done] end. cbn [rbind] in E. injection E as <-.
      exists t. split; [done|]. by eapply G. }
    destruct (IH _ _ H) as (t' & -> & Lt'). exists t'. split; [done|]. simpl in Lt'. congruence.
Qed.

Lemma threaded_all e em wbd nbrs u nt b tw nx ct b' : placed_ok (pb e) em -> (0 < nt <= nq (pb e))%nat -> length tw = nt -> NoDup nbrs ->
  (forall v, v ∈ nbrs -> (v < nv (pb e) + nf (pb e))%nat) -> buffers_ok (pb e) b ->
  prepare_parallel e nbrs wbd em u b = Ok b' -> threaded e nt nbrs wbd em u (mkMem b tw nx ct) b'.
Proof.
  intros Po [Hnt Hn] Htw ND Hl S H. unfold prepare_parallel in H.
  destruct (compute_qubit_weights e em b) as [b1|] eqn:E1; [|done]. cbn [rbind] in H.
  destruct (prepare_distances (pb e) (total b1) u) as [t|] eqn:E2; [|done]. cbn [rbind] in H.
  match type of H with (let! (b, n) := ?x in _) = _ => destruct x as [[b3 n]|] eqn:E3; [|done] end. cbn [rbind] in H.
  match type of H with (let! b := ?x in _) = _ => destruct x as [b4|] eqn:E4; [|done] end. cbn [rbind] in H.
  match type of H with (let! b := ?x in _) = _ => destruct x as [b5|] eqn:E5; [|done] end. cbn [rbind] in H.
  assert (exists mw, max_weight (pb e) em = Ok mw) as [mw Hmw].
  { unfold compute_qubit_weights in E1. destruct (max_weight (pb e) em); [eauto|done]. }
  assert (Hb1 : b1 = mkSr (par b) (vis b) (dist b) (total b) (qw b1) (perm b)).
  { unfold compute_qubit_weights in E1. rewrite Hmw in E1. cbn [rbind] in E1. match type of E1 with (let! q := ?x in _) = _ => destruct x as [q'|]; [|done] end.
    cbn [rbind] in E1. by injection E1 as <-. }
  destruct (phase1 e em nt Hnt Hn (mkMem b tw nx ct) mw Htw) as (tw1 & P1 & L1 & M1); [rewrite (po_ew _ _ Po); lia|done|]. cbn [m_sr m_next m_count] in P1.
  pose proof (phase2 e em u nt Hnt Hn (mkMem b tw1 nx ct) mw b1 t (bo_qw _ _ S) (bo_total _ _ S) Hmw E1 E2) as P2.
  set (b2 := set_total b1 t) in *.
  assert (Hok : visok (pb e) b2) by (subst b2; rewrite Hb1; exact (bo_visr _ _ S)).
  assert (Hsz : forall v, v ∈ nbrs -> chainsize em v = Ok (chain_size em v)) by (intros v Hv; apply (size_ok (pb e)); auto).
  destruct (phase3_facts (pb e) em wbd nbrs u nt Hnt ND Hsz b2 b3 n tw1 Hok E3) as (H1 & _ & _ & Ht3 & _ & P3 & _).
  destruct (acc_at_total _ _ _ _ _ _ E4) as (t4 & Hb4 & Lt4).
  assert (Lt2 : length (total b3) = nq (pb e)).
  { rewrite Ht3. subst b2. simpl. destruct (distances_vals e u nt Hnt Hn _ _ E2) as (L2 & _). rewrite L2, Hb1. simpl. apply (bo_total _ _ S). }
  eapply (threaded_intro _ _ _ _ _ _ _ _ _ _ _ _ b4).
  - exact P1.
  - exact M1.
  - exact P2.
  - exact P3.
  - exact E4.
  - apply (phase4 e em wbd nbrs nt Hnt Hn _ b5 b' n); [subst b4; simpl; congruence|done|exact E5|exact H].
  - done.
Qed.

(** ** C20 *)
Lemma chunks_partition n threads : (0 < n)%nat -> (0 < threads)%nat ->
  let l := chunks n (Nat.min threads n) in
  length l = Nat.min threads n /\
  (forall i, (i < Nat.min threads n)%nat -> exists a b, (i, a, b) ∈ l) /\
  (forall i a b, (i, a, b) ∈ l -> (i < Nat.min threads n)%nat /\ (a < b <= n)%nat) /\
  (forall q, (q < n)%nat -> exists i a b, (i, a, b) ∈ l /\ (a <= q < b)%nat /\
     forall i' a' b', (i', a', b') ∈ l -> (a' <= q < b')%nat -> i' = i /\ a' = a /\ b' = b).
Proof.
  intros Hn Ht l. set (t := Nat.min threads n) in *.
  destruct (chunks_facts n t) as (L & I & C & R); [lia|lia|]. fold l in L, I, C, R.
  split; [done|]. split; [|split].
  - intros i Hi. assert (i ∈ map (fun c : nat * nat * nat => c.1.1) l) as H.
    { rewrite I. apply elem_of_list_In. rewrite <- in_rev. apply in_seq. lia. }
    apply elem_of_list_fmap in H as ([[i' a] b] & -> & H). eauto.
  - intros i a b H. destruct (R _ H) as [H1 H2]. simpl in *. split; [|lia].
    assert (i ∈ map (fun c : nat * nat * nat => c.1.1) l) as Hi by (apply elem_of_list_fmap; by exists (i, a, b)).
    rewrite I in Hi. apply elem_of_list_In in Hi. rewrite <- in_rev in Hi. apply in_seq in Hi. lia.
  - intros q Hq. assert (q ∈ concat (map span l)) as H by (rewrite C; apply elem_of_seq; lia).
    assert (ND : NoDup (concat (map span l))) by (rewrite C; apply NoDup_seq).
    apply concat_index in H as (j & s & Hj & Hs). change (map span l) with (span <$> l) in Hj. rewrite list_lookup_fmap in Hj.
    destruct (l !! j) as [[[i a] b]|] eqn:El; [|done]. injection Hj as <-. unfold span in Hs. simpl in Hs. apply elem_of_seq in Hs.
    exists i, a, b. split; [by eapply elem_of_list_lookup_2|]. split; [lia|].
    intros i' a' b' Hin Hq'. apply elem_of_list_lookup in Hin as (j' & Hj').
    destruct (decide (j = j')) as [<-|Hne]; [rewrite El in Hj'; by injection Hj' as <- <- <-|]. exfalso.
    assert (G : forall j c, l !! j = Some c -> map span l !! j = Some (span c)) by (intros ?? E; change (map span l) with (span <$> l); by rewrite list_lookup_fmap, E).
    apply Hne. eapply (NoDup_concat_disj (map span l)) with (x := q); [done|by apply G|by apply G|..]; unfold span; simpl; apply elem_of_seq; lia.
Qed.

(** the final memory is unique, and some schedule reaches it *)
Lemma ends_run ts m m' : ends ts m m' -> exists tr, runs (start ts m) tr (mkC (replicate (length ts) Ret) m' None).
Proof.
  intros [[n Hn] _ Hres].
  assert (G : forall k, (exists tr, runs (start ts m) tr (mkC (replicate (length ts) Ret) m' None)) \/ exists tr s, runs (start ts m) tr s /\ length tr = k).
  { induction k as [|k [IH|(tr & s & Hr & Hl)]]; [right; exists [], (start ts m); split; [constructor|done]|by left|].
    destruct (Hres _ _ Hr) as [(ev & s' & Hs)|Hs]; [right|left; exists tr; by rewrite <- Hs].
    exists (tr ++ [ev]), s'. split; [by eapply runs_snoc|]. rewrite app_length. simpl. lia. }
  destruct (G (S n)) as [?|(tr & s & Hr & Hl)]; [done|]. apply Hn in Hr. lia.
Qed.
Lemma ret_no_step n m ev s : ~ cstep ev (mkC (replicate n Ret) m None) s.
Proof. intros H. inversion H; subst; match goal with H : replicate _ _ !! _ = _ |- _ => by apply lookup_replicate in H as [? _] end. Qed.
Lemma ends_unique ts m m1 m2 : ends ts m m1 -> ends ts m m2 -> m1 = m2.
Proof.
  intros H1 H2. destruct (ends_run _ _ _ H1) as [tr Hr].
  destruct (en_result _ _ _ H2 _ _ Hr) as [(ev & s & Hs)|E]; [by apply ret_no_step in Hs|]. by injection E.
Qed.
Lemma threaded_unique e nt nbrs wbd em u m0 b1 b2 : threaded e nt nbrs wbd em u m0 b1 -> threaded e nt nbrs wbd em u m0 b2 -> b1 = b2.
Proof.
  intros [m1 mw m2 m3 b4 m4 P1 P2 P3 P4 P5 P6 P7] [m1' mw' m2' m3' b4' m4' Q1 Q2 Q3 Q4 Q5 Q6 Q7].
  assert (m1' = m1) as -> by (by eapply ends_unique). assert (mw' = mw) as -> by congruence.
  assert (m2' = m2) as -> by (by eapply ends_unique). assert (m3' = m3) as -> by (by eapply ends_unique).
  assert (b4' = b4) as -> by congruence. assert (m4' = m4) as -> by (by eapply ends_unique). congruence.
Qed.
Lemma threaded_serial e em wbd nbrs u nt b tw nx ct : pb_wf (pb e) -> placed_ok (pb e) em -> table_ok e ->
  (0 < nt <= nq (pb e))%nat -> length tw = nt -> (u < nv (pb e) + nf (pb e))%nat -> NoDup nbrs ->
  (forall v, v ∈ nbrs -> (v < nv (pb e) + nf (pb e))%nat) -> buffers_ok (pb e) b -> embedded_of em nbrs <> [] -> sums_fit e em nbrs ->
  exists b', prepare_serial e nbrs wbd em u b = Ok b' /\ threaded e nt nbrs wbd em u (mkMem b tw nx ct) b'.
Proof.
  intros PW Po Ht Hnt Htw Lu ND Hl S Ne Hs.
  destruct (serial_parallel_safe e PW em wbd Po ltac:(lia) Ht u nbrs b Lu ND Hl S Ne Hs) as (b' & H1 & H2).
  exists b'. split; [exact H1|]. by apply threaded_all.
Qed.
