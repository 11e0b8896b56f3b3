(** One search run by a thread: the words it uses, and what it leaves in them. *)
From stdpp Require Import base list numbers gmap.
From Verif Require Import Base ChainModel EmbModel SpecEmb QueueModel PathModel SpecPath PrepProofs ConcModel SpecConc ConcProofs1 ConcProofs2.
Local Open Scope Z_scope.

(** [P] runs from [m] through the actions [tr] and hands [a] to what follows, in memory [m1] *)
Definition sim {A} (P : (A -> prog) -> prog) (m : mem) (tr : list act) (a : A) (m1 : mem) : Prop :=
  forall K tr' p' m', exec (K a) m1 = Ok (tr', p', m') -> exec (P K) m = Ok (tr ++ tr', p', m').
Lemma sim_ret {A} (a : A) m : sim (fun K => K a) m [] a m.
Proof. intros K tr' p' m' H. done. Qed.
Lemma sim_get {A} (P : Z -> (A -> prog) -> prog) c m x tr a m1 : mget m c = Ok x -> sim (P x) m tr a m1 ->
  sim (fun K => Get c (fun x => P x K)) m (AGet c :: tr) a m1.
Proof. intros Hx H K tr' p' m' He. simpl. rewrite Hx. cbn [rbind]. rewrite (H K _ _ _ He). done. Qed.
Lemma sim_put {A} (P : (A -> prog) -> prog) c x m m2 tr a m1 : mput m c x = Ok m2 -> sim P m2 tr a m1 ->
  sim (fun K => Put c x (P K)) m (APut c x :: tr) a m1.
Proof. intros Hx H K tr' p' m' He. simpl. rewrite Hx. cbn [rbind]. rewrite (H K _ _ _ He). done. Qed.
Lemma sim_bind {A B} (P : (A -> prog) -> prog) (Q : A -> (B -> prog) -> prog) m tr a m1 tr2 b m2 :
  sim P m tr a m1 -> sim (Q a) m1 tr2 b m2 -> sim (fun K => P (fun a => Q a K)) m (tr ++ tr2) b m2.
Proof. intros HP HQ K tr' p' m' He. rewrite <- app_assoc. apply HP. apply (HQ K _ _ _ He). Qed.
(** a loop against a fold *)
Lemma sim_fold {X S T} (f : T -> X -> (T -> prog) -> prog) (F : S -> X -> res S) (pi : S -> T) (M : S -> mem) l :
  (forall s x s', x ∈ l -> F s x = Ok s' -> exists tr, sim (f (pi s) x) (M s) tr (pi s') (M s')) ->
  forall s s', foldM F l s = Ok s' -> exists tr, sim (foldP f l (pi s)) (M s) tr (pi s') (M s').
Proof.
  induction l as [|x l IH]; intros Hf s s' H; cbn [foldM] in H.
  - injection H as <-. exists []. apply sim_ret.
  - destruct (F s x) as [s1|] eqn:E; [|done]. cbn [rbind] in H.
    destruct (Hf s x s1) as [tr1 H1]; [left|done|]. destruct (IH) with (2 := H) as [tr2 H2]; [intros s2 y s3 Hy; apply Hf; by right|].
    exists (tr1 ++ tr2). simpl. exact (sim_bind (f (pi s) x) (fun a K => foldP f l a K) _ _ _ _ _ _ _ H1 H2).
Qed.

Ltac sget E := match goal with |- sim (fun K => Get ?c (@?F K)) ?m _ ?a ?m1 => eapply (sim_get (fun x K => F K x) c m _ _ a m1 E); cbv beta end.
Ltac sput E := match goal with |- sim (fun K => Put ?c ?x (@?P K)) ?m _ ?a ?m1 => eapply (sim_put P c x m _ _ a m1 E); cbv beta end.

Ltac dyes := match goal with |- context [decide ?P] => destruct (decide P) as [?|?]; [|done] end.
Ltac dno := match goal with |- context [decide ?P] => destruct (decide P) as [?|?]; [done|] end.

Section job.
Context (pb : problem) (em : emb) (wbd : Z).

(** memory with the rows of [v] replaced *)
Definition rowm (m : mem) (v : nat) (k : work) (d : list Z) : mem :=
  let b := m_sr m in set_m m (set_row b (<[v := wpar k]> (par b)) (<[v := wvis k]> (vis b)) (<[v := d]> (dist b))).
Section row.
Context (m : mem) (v : nat) (L1 : (v < length (par (m_sr m)))%nat) (L2 : (v < length (vis (m_sr m)))%nat) (L3 : (v < length (dist (m_sr m)))%nat).

Lemma row_at {A} (l : list (list A)) r : (v < length l)%nat -> <[v := r]> l !! v = Some r.
Proof. apply list_lookup_insert. Qed.
Lemma get_vis k d p : mget (rowm m v k d) (CVis v p) = vget (wvis k) p.
Proof. simpl. unfold vget2. rewrite (vget_ok _ _ _ (row_at _ _ L2)). done. Qed.
Lemma get_qw k d p : mget (rowm m v k d) (CQw p) = vget (qw (m_sr m)) p.
Proof. done. Qed.
Lemma vset2_row {A} (l : list (list A)) r p x r' : (v < length l)%nat -> vset r p x = Ok r' -> vset2 (<[v := r]> l) v p x = Ok (<[v := r']> l).
Proof.
  intros Hl (Hp & ->)%vset_inv. unfold vset2. rewrite (vget_ok _ _ _ (row_at _ _ Hl)). cbn [rbind]. rewrite vset_ok by done. cbn [rbind].
  rewrite vset_ok by (by rewrite insert_length). by rewrite list_insert_insert.
Qed.
Lemma put_vis k d p x vs : vset (wvis k) p x = Ok vs -> mput (rowm m v k d) (CVis v p) x = Ok (rowm m v (mkW (wpar k) vs (wpq k)) d).
Proof. intros H. simpl. rewrite (vset2_row _ _ _ _ _ L2 H). done. Qed.
Lemma put_par k d p o pr : vset (wpar k) p o = Ok pr -> mput (rowm m v k d) (CPar v p) (zpar o) = Ok (rowm m v (mkW pr (wvis k) (wpq k)) d).
Proof.
  intros H. simpl. rewrite decide_False by (destruct o; simpl; lia). rewrite parz_zpar. rewrite (vset2_row _ _ _ _ _ L1 H). done.
Qed.
Lemma put_dist k d p x d' : vset d p x = Ok d' -> mput (rowm m v k d) (CDist v p) x = Ok (rowm m v k d').
Proof. intros H. simpl. rewrite (vset2_row _ _ _ _ _ L3 H). done. Qed.

Lemma sim_init_fixed pm q d k p k' : init_fixed_step em (qw (m_sr m)) pm false q k p = Ok k' ->
  exists tr, sim (init_fixed_P pm v q (wpq k) p) (rowm m v k d) tr (wpq k') (rowm m v k' d).
Proof.
  unfold init_fixed_step. intros H. destruct (vget (wvis k) p) as [s|] eqn:Es; [|done]. cbn [rbind] in H.
  rewrite <- (get_vis k d p) in Es. unfold init_fixed_P. case_decide as Hs.
  - injection H as <-. eexists. sget Es. dyes. apply sim_ret.
  - destruct (vget (qw (m_sr m)) p) as [w|] eqn:Ew; [|done]. cbn [rbind] in H.
    destruct (vget pm p) as [t|] eqn:Et; [|done]. cbn [rbind] in H.
    destruct (q_emplace (wpq k) (mkNode p t w)) as [pq|] eqn:Eq; [|done]. cbn [rbind] in H.
    destruct (vset (wpar k) p (Some q)) as [pr|] eqn:Ep; [|done]. cbn [rbind] in H.
    destruct (vset (wvis k) p 1) as [vs|] eqn:Ev; [|done]. cbn [rbind] in H. injection H as <-.
    eexists. sget Es. dno.
    sget Ew. cbn [liftP]. rewrite Eq. cbn [liftP].
    sput (put_par k d p (Some q) pr Ep).
    sput (put_vis (mkW pr (wvis k) (wpq k)) d p 1 vs Ev). apply sim_ret.
Qed.
Lemma sim_init pm d k k' : dijkstra_init pb em (qw (m_sr m)) pm false v k = Ok k' ->
  exists tr, sim (init_P pb em pm v (wpq k)) (rowm m v k d) tr (wpq k') (rowm m v k' d).
Proof.
  unfold dijkstra_init, init_P. destruct (vget (chains em) v) as [c|]; [|done]. cbn [rbind liftP]. destruct (fixedb pb v).
  - apply (sim_fold _ _ wpq (fun k => rowm m v k d)). intros s q s' _ H.
    destruct (vset (wpar s) q None) as [pr|] eqn:Ep; [|done]. cbn [rbind] in H.
    destruct (vget (qnb pb) q) as [nb|]; [|done]. cbn [rbind liftP] in *.
    destruct (sim_fold (init_fixed_P pm v q) (init_fixed_step em (qw (m_sr m)) pm false q) wpq (fun k => rowm m v k d) nb) with (2 := H) as [tr Ht].
    { intros k1 p k2 _. apply sim_init_fixed. }
    eexists. sput (put_par s d q None pr Ep). exact Ht.
  - apply (sim_fold _ _ wpq (fun k => rowm m v k d)). intros s q s' _ H.
    destruct (vget pm q) as [t|]; [|done]. cbn [rbind liftP] in *.
    destruct (q_emplace (wpq s) (mkNode q t 0)) as [pq|] eqn:Eq; [|done]. cbn [rbind liftP] in *.
    destruct (vset (wpar s) q None) as [pr|] eqn:Ep; [|done]. cbn [rbind] in H.
    destruct (vset (wvis s) q 1) as [vs|] eqn:Ev; [|done]. cbn [rbind] in H. injection H as <-.
    eexists. sput (put_par s d q None pr Ep).
    sput (put_vis (mkW pr (wvis s) (wpq s)) d q 1 vs Ev). apply sim_ret.
Qed.
Lemma sim_relax pm z k d p k' d' : relax em wbd (qw (m_sr m)) pm z (k, d) p = Ok (k', d') ->
  exists tr, sim (relax_P em wbd pm v z (wpq k) p) (rowm m v k d) tr (wpq k') (rowm m v k' d').
Proof.
  unfold relax. intros H. destruct (vget (wvis k) p) as [s|] eqn:Es; [|done]. cbn [rbind] in H.
  rewrite <- (get_vis k d p) in Es. unfold relax_P. case_decide as Hs.
  - injection H as <- <-. eexists. sget Es. dyes. apply sim_ret.
  - destruct (vset (wvis k) p 1) as [vs|] eqn:Ev; [|done]. cbn [rbind] in H.
    destruct (vget (eweight em) p) as [w|]; [|done]. cbn [rbind] in H. case_decide as Hw.
    + destruct (vset d p max_distance) as [d1|] eqn:Ed; [|done]. cbn [rbind] in H. injection H as <- <-.
      eexists. sget Es. dno.
      sput (put_vis k d p 1 vs Ev). cbn [liftP]. dyes.
      sput (put_dist (mkW (wpar k) vs (wpq k)) d p _ _ Ed). apply sim_ret.
    + destruct (vset (wpar k) p (Some (pnode_id z))) as [pr|] eqn:Ep; [|done]. cbn [rbind] in H.
      destruct (vget pm p) as [t|]; [|done]. cbn [rbind] in H.
      destruct (vget (qw (m_sr m)) p) as [c|] eqn:Ec; [|done]. cbn [rbind] in H.
      destruct (dadd (pdist z) c) as [nd|] eqn:En; [|done]. cbn [rbind] in H.
      destruct (q_emplace (wpq k) (mkNode p t nd)) as [pq|] eqn:Eq; [|done]. cbn [rbind] in H. injection H as <- <-.
      eexists. sget Es. dno.
      sput (put_vis k d p 1 vs Ev). cbn [liftP]. dno.
      sput (put_par (mkW (wpar k) vs (wpq k)) d p (Some (pnode_id z)) pr Ep). cbn [liftP].
      sget Ec. rewrite En. cbn [liftP]. rewrite Eq. cbn [liftP]. apply sim_ret.
Qed.
Lemma sim_loop pm fuel : forall k d k' d', dijkstra_loop fuel pb em wbd (qw (m_sr m)) pm k d = Ok (k', d') ->
  exists tr, sim (fun K : unit -> prog => dijkstra_P fuel pb em wbd pm v (wpq k) (K tt)) (rowm m v k d) tr tt (rowm m v k' d').
Proof.
  induction fuel as [|fuel IH]; intros k d k' d' H; cbn [dijkstra_loop dijkstra_P] in *.
  - destruct (q_empty (wpq k)); [|done]. injection H as <- <-. exists []. apply sim_ret.
  - destruct (q_empty (wpq k)); [injection H as <- <-; exists []; apply sim_ret|].
    destruct (q_top (wpq k)) as [z|]; [|done]. cbn [rbind liftP] in *.
    destruct (q_pop (wpq k)) as [pq|]; [|done]. cbn [rbind liftP] in *.
    destruct (vset d (pnode_id z) (pdist z)) as [d1|] eqn:Ed; [|done]. cbn [rbind] in H.
    destruct (vget (qnb pb) (pnode_id z)) as [nb|]; [|done]. cbn [rbind liftP] in *.
    destruct (foldM _ nb _) as [[k2 d2]|] eqn:Ef; [|done]. cbn [rbind] in H. destruct (IH _ _ _ _ H) as [tr2 H2].
    destruct (sim_fold (relax_P em wbd pm v z) (relax em wbd (qw (m_sr m)) pm z) (fun s => wpq s.1) (fun s => rowm m v s.1 s.2) nb) with (2 := Ef) as [tr1 H1].
    { intros [k3 d3] p [k4 d4] _. apply sim_relax. }
    simpl in H1. eexists. sput (put_dist k d _ _ _ Ed).
    exact (sim_bind _ (fun pq K => dijkstra_P fuel pb em wbd pm v pq (K tt)) _ _ _ _ _ _ _ H1 H2).
Qed.
End row.

Lemma foldM_fill (f : nat -> res Z) (r r' : list Z) n : length r = n -> length r' = n ->
  (forall q, (q < n)%nat -> exists x, f q = Ok x /\ r' !! q = Some x) ->
  foldM (fun r q => let! x := f q in vset r q x) (seq 0 n) r = Ok r'.
Proof.
  intros L L' H. assert (Hk : forall k, (k <= n)%nat -> foldM (fun r q => let! x := f q in vset r q x) (seq 0 k) r = Ok (take k r' ++ drop k r)).
  { induction k as [|k IH]; intros Hk; [done|]. rewrite seq_S, foldM_app, IH by lia. cbn [rbind foldM]. simpl.
    destruct (H k) as (x & -> & Hx); [lia|]. cbn [rbind]. rewrite vset_ok by (rewrite app_length, take_length, drop_length; lia). cbn [rbind]. f_equal.
    destruct (lookup_lt_is_Some_2 r k) as [y Hy]; [lia|]. rewrite (take_S_r _ _ _ Hx), <- app_assoc. simpl.
    rewrite (drop_S r y k Hy). rewrite insert_app_r_alt by (rewrite take_length; lia). rewrite take_length, Nat.min_l, Nat.sub_diag by lia. done. }
  rewrite Hk by done. rewrite drop_ge, app_nil_r by lia. by rewrite take_ge by lia.
Qed.
Lemma prepare_visited_vals vv u v vv' : prepare_visited pb vv u v = Ok vv' -> length vv' = length vv /\
  forall q, (q < length vv)%nat -> exists x, vis_init pb u v q = Ok x /\ vv' !! q = Some x.
Proof.
  unfold prepare_visited, vis_init. destruct (masks pb) as [ms|].
  - destruct (vget ms u) as [mu|] eqn:Eu; [|done]. cbn [rbind]. destruct (vget ms v) as [mv|] eqn:Ev; [|done]. cbn [rbind].
    case_decide as Hd; [|done]. intros [= <-].
    split; [rewrite zip_with_length, !take_length; lia|]. intros q Hq.
    destruct (lookup_lt_is_Some_2 mu q) as [x Hx]; [lia|]. destruct (lookup_lt_is_Some_2 mv q) as [y Hy]; [lia|].
    unfold vget2. rewrite Eu, Ev. cbn [rbind]. rewrite (vget_ok _ _ _ Hx), (vget_ok _ _ _ Hy). cbn [rbind].
    eexists. split; [done|]. rewrite lookup_zip_with, !lookup_take by done. by rewrite Hx, Hy.
  - intros [= <-]. split; [by rewrite replicate_length|]. intros q Hq. exists 0. split; [done|]. by apply lookup_replicate_2.
Qed.

Lemma sim_job u v m b' : (forall r, vis (m_sr m) !! v = Some r -> length r = nq pb) ->
  (let! b := prep_vis pb u v (m_sr m) in compute_distances_from_chain pb em wbd v b) = Ok b' ->
  exists tr, sim (fun K : unit -> prog => job_P pb em wbd (perm (m_sr m)) u v (K tt)) m tr tt (set_m m b').
Proof.
  intros HL H. set (b := m_sr m) in *.
  assert (Hv : exists vv, vis b !! v = Some vv).
  { unfold prep_vis in H. destruct (vget (vis b) v) as [vv|] eqn:E; [|done]. apply vget_inv in E. eauto. }
  destruct Hv as [vv Hv].
  destruct (par b !! v) as [pv|] eqn:Hp; cycle 1.
  { exfalso. unfold prep_vis in H. rewrite (vget_ok _ _ _ Hv) in H. cbn [rbind] in H. destruct (prepare_visited pb vv u v) as [l|]; [|done]. cbn [rbind] in H.
    destruct (vset (vis b) v l); [|done]. cbn [rbind] in H. unfold compute_distances_from_chain in H. simpl in H. unfold vget in H at 1. by rewrite Hp in H. }
  destruct (dist b !! v) as [dv|] eqn:Hd; cycle 1.
  { exfalso. unfold prep_vis in H. rewrite (vget_ok _ _ _ Hv) in H. cbn [rbind] in H. destruct (prepare_visited pb vv u v) as [l|]; [|done]. cbn [rbind] in H.
    destruct (vset (vis b) v l) as [l2|]; [|done]. cbn [rbind] in H. unfold compute_distances_from_chain in H. simpl in H. rewrite (vget_ok _ _ _ Hp) in H. cbn [rbind] in H.
    destruct (vget l2 v); [|done]. cbn [rbind] in H. unfold vget in H at 1. by rewrite Hd in H. }
  destruct (perm b !! v) as [pm|] eqn:Hpm; cycle 1.
  { exfalso. unfold prep_vis in H. rewrite (vget_ok _ _ _ Hv) in H. cbn [rbind] in H. destruct (prepare_visited pb vv u v) as [l|]; [|done]. cbn [rbind] in H.
    destruct (vset (vis b) v l) as [l2|]; [|done]. cbn [rbind] in H. unfold compute_distances_from_chain in H. simpl in H. rewrite (vget_ok _ _ _ Hp) in H. cbn [rbind] in H.
    destruct (vget l2 v); [|done]. cbn [rbind] in H. rewrite (vget_ok _ _ _ Hd) in H. cbn [rbind] in H. unfold vget in H at 1. by rewrite Hpm in H. }
  rewrite (compute_rowcomp pb em wbd u v b pm pv vv dv) in H by done.
  destruct (rowcomp pb em wbd (qw b) u v pm pv vv dv) as [[[p vs] d]|] eqn:Er; [|done]. cbn [rbind] in H. injection H as <-.
  unfold rowcomp in Er. destruct (prepare_visited pb vv u v) as [vv'|] eqn:Ev; [|done]. cbn [rbind] in Er.
  destruct (dijkstra_init pb em (qw b) pm false v _) as [k|] eqn:Ei; [|done]. cbn [rbind] in Er.
  destruct (dijkstra_loop _ _ _ _ _ _ _ _) as [[k' d']|] eqn:El; [|done]. cbn [rbind] in Er. injection Er as <- <- <-.
  pose proof (lookup_lt_Some _ _ _ Hp) as L1. pose proof (lookup_lt_Some _ _ _ Hv) as L2. pose proof (lookup_lt_Some _ _ _ Hd) as L3.
  specialize (HL vv Hv). destruct (prepare_visited_vals _ _ _ _ Ev) as [LV VV]. rewrite HL in *.
  destruct (sim_fold (fun (_ : unit) q K => liftP (vis_init pb u v q) (fun x => Put (CVis v q) x (K tt))) (fun r q => let! x := vis_init pb u v q in vset r q x)
     (fun _ => tt) (fun r => rowm m v (mkW pv r (q_new (nq pb))) dv) (seq 0 (nq pb))) with (2 := foldM_fill _ vv vv' _ HL LV VV) as [tr1 S1].
  { intros r q r' Hq H. destruct (vis_init pb u v q) as [x|]; [|done]. cbn [rbind liftP] in *. eexists.
    sput (put_vis m v L2 (mkW pv r (q_new (nq pb))) dv q x r' H). apply sim_ret. }
  assert (Em : rowm m v (mkW pv vv (q_new (nq pb))) dv = m).
  { unfold rowm, set_m, set_row. simpl. fold b. rewrite !list_insert_id by done. by destruct m as [[] ]. }
  rewrite Em in S1.
  destruct (sim_init m v L1 L2 L3 pm dv _ _ Ei) as [tr2 S2].
  destruct (sim_loop m v L1 L2 L3 pm _ _ _ _ _ El) as [tr3 S3]. simpl in S2.
  pose proof (sim_bind _ (fun pq K => dijkstra_P (S (nq pb)) pb em wbd pm v pq (K tt)) _ _ _ _ _ _ _ S2 S3) as S4.
  pose proof (sim_bind _ (fun (_ : unit) K => init_P pb em pm v (q_new (nq pb)) (fun pq => dijkstra_P (S (nq pb)) pb em wbd pm v pq (K tt))) _ _ _ _ _ _ _ S1 S4) as S5.
  exists (tr1 ++ (tr2 ++ tr3)). intros K tr' p' m' He. unfold job_P. fold b. rewrite (vget_ok _ _ _ Hpm). cbn [liftP].
  apply (S5 K). exact He.
Qed.

(** the words used by a search for [v] *)
Definition job_R (v : nat) (c : cell) : Prop := on_row v c \/ match c with CQw _ => True | _ => False end.
Lemma fp_job pms u v K : (forall R W, fp R W K) -> fp (job_R v) (on_row v) (job_P pb em wbd pms u v K).
Proof.
  intros HK. unfold job_P, prep_vis_P. apply fp_foldP.
  - intros s q K' _ HK'. apply fp_liftP. intros x _. simpl. split; [done|]. apply HK'.
  - intros _. apply fp_liftP. intros pm _. unfold init_P. apply fp_liftP. intros c _.
    assert (Hd : forall fuel pq, fp (job_R v) (on_row v) (dijkstra_P fuel pb em wbd pm v pq K)).
    { induction fuel as [|fuel IH]; intros pq; simpl; destruct (q_empty pq); try apply HK; [done|].
      apply fp_liftP. intros z _. apply fp_liftP. intros pq' _. simpl. split; [done|]. apply fp_liftP. intros nb _.
      apply fp_foldP; [|intros; apply IH]. intros pq2 p K' _ HK'. unfold relax_P. simpl. split; [left; done|]. intros x. case_decide; [apply HK'|].
      simpl. split; [done|]. apply fp_liftP. intros w _. case_decide; simpl; [split; [done|apply HK']|]. split; [done|].
      apply fp_liftP. intros t _. simpl. split; [by right|]. intros y. apply fp_liftP. intros nd _. apply fp_liftP. intros pq3 _. apply HK'. }
    destruct (fixedb pb v).
    + apply fp_foldP; [|intros; apply Hd]. intros pq q K' _ HK'. simpl. split; [done|]. apply fp_liftP. intros nb _.
      apply fp_foldP; [|done]. intros pq2 p K2 _ HK2. unfold init_fixed_P. simpl. split; [left; done|]. intros x. case_decide; [apply HK2|].
      simpl. split; [by right|]. intros y. apply fp_liftP. intros t _. apply fp_liftP. intros pq3 _. simpl. split; [done|]. split; [done|]. apply HK2.
    + apply fp_foldP; [|intros; apply Hd]. intros pq q K' _ HK'. apply fp_liftP. intros t _. apply fp_liftP. intros pq2 _. simpl. split; [done|]. split; [done|]. apply HK'.
Qed.
End job.
