(** The worker threads: every schedule hands each embedded neighbour to one thread. *)
From stdpp Require Import base list numbers gmap.
From Verif Require Import Base ChainModel EmbModel SpecEmb QueueModel PathModel SpecPath PrepProofs ConcModel SpecConc ConcProofs1 ConcProofs2 ConcProofs3.
Local Open Scope nat_scope.

Definition ctl (c : cell) : Prop := match c with CNext | CCount => True | _ => False end.
Global Instance ctl_dec c : Decision (ctl c).
Proof. destruct c; simpl; apply _. Defined.
Lemma ctl_row v c : ctl c -> on_row v c -> False.
Proof. by destruct c. Qed.
Lemma ctl_job v c : ctl c -> job_R v c -> False.
Proof. intros H [Hr|Hr]; [by eapply ctl_row|]. by destruct c. Qed.
Lemma row_inj v v' c : on_row v c -> on_row v' c -> v = v'.
Proof. destruct c; simpl; try done; by intros <- <-. Qed.
Lemma job_row v v' c : job_R v c -> on_row v' c -> v = v'.
Proof. intros [H|H] H'; [by eapply row_inj|]. by destruct c. Qed.
(** events of one row *)
Definition act_row (v : nat) (a : act) : Prop := match a with AGet c | APut c _ => on_row v c | _ => False end.
Global Instance act_row_dec v a : Decision (act_row v a).
Proof. destruct a; simpl; apply _. Defined.
Definition rowacts (v : nat) (l : list act) : list act := base.filter (act_row v) l.
Definition events (v : nat) (tr : list (nat * act)) : list (nat * act) := base.filter (acts_on v) tr.
Lemma events_snoc v tr i a : events v (tr ++ [(i, a)]) = events v tr ++ (if decide (act_row v a) then [(i, a)] else []).
Proof. unfold events. rewrite filter_app. f_equal. Qed.
Lemma rowacts_cons v a l : rowacts v (a :: l) = (if decide (act_row v a) then [a] else []) ++ rowacts v l.
Proof. unfold rowacts. rewrite filter_cons. by case_decide. Qed.

Section dyn.
Context (pb : problem) (em : emb) (wbd : Z) (pms : list (list nat)) (nbrs : list nat) (u : nat) (nt : nat).
Context (m0 mf : mem) (TR : nat -> list act).
Notation len := (length nbrs).
Notation emb_at v := (chain_size em v <> 0).
Notation worker f := (worker_P f pb em wbd pms nbrs u).
Notation job v K := (job_P pb em wbd pms u v K).
Context (ND : NoDup nbrs).
Context (Hsz : forall v, v ∈ nbrs -> chainsize em v = Ok (chain_size em v)).
Context (Hjob : forall v f, v ∈ nbrs -> emb_at v -> f <> 0 -> exists m1, exec (job v (worker f)) m0 = Ok (TR v, worker f, m1) /\
   forall c, on_row v c -> mget m1 c = mget mf c).
Context (Hrest : forall c, ~ ctl c -> (forall v, v ∈ nbrs -> emb_at v -> ~ on_row v c) -> mget m0 c = mget mf c).
Context (Hshape : shape m0 = shape mf).
Context (Hn0 : mget m0 CNext = Ok 0%Z) (Hc0 : mget m0 CCount = Ok 0%Z).
Context (Hnf : mget mf CNext = Ok (Z.of_nat len)) (Hcf : mget mf CCount = Ok (Z.of_nat (length (embedded_of em nbrs)))).
Notation cnt j := (Z.of_nat (length (embedded_of em (take j nbrs)))).

Definition after (f : nat) (o : option nat) : prog := match o with None => Ret | Some v => job v (worker f) end.
Lemma worker_S f : worker (S f) = Lock (scan_P (S len) em nbrs (fun o => Unlock (after f o))).
Proof. done. Qed.

Lemma fp_scan fuel K : (forall o, fp ctl ctl (K o)) -> fp ctl ctl (scan_P fuel em nbrs K).
Proof.
  intros HK. induction fuel as [|fuel IH]; simpl; [done|]. split; [done|]. intros x. case_decide; [apply HK|]. simpl. split; [done|]. intros y.
  apply fp_liftP. intros v _. simpl. split; [done|]. apply fp_liftP. intros sz _. case_decide; [apply IH|]. simpl. split; [done|].
  intros z. split; [done|]. apply HK.
Qed.

Lemma scan_exec K fuel : (forall o m, exec (K o) m = Ok ([], K o, m)) -> forall j m, j <= len -> len - j < fuel ->
  mget m CNext = Ok (Z.of_nat j) -> mget m CCount = Ok (cnt j) ->
  exists tr o j' m', exec (scan_P fuel em nbrs K) m = Ok (tr, K o, m') /\ j <= j' <= len /\
    mget m' CNext = Ok (Z.of_nat j') /\ mget m' CCount = Ok (cnt j') /\ length tr <= 6 * (j' - j) + 1 /\
    (forall v', v' ∈ take j' nbrs -> emb_at v' -> v' ∈ take j nbrs \/ o = Some v') /\
    match o with None => j' = len | Some v => j < j' /\ v ∈ take j' nbrs /\ v ∉ take j nbrs /\ emb_at v /\ length tr <= 6 * (j' - j) end.
Proof.
  intros HK. induction fuel as [|fuel IH]; intros j m Hj Hf Hn Hc; [lia|]. cbn [scan_P exec]. rewrite Hn. cbn [rbind].
  destruct (decide (Z.of_nat len <= Z.of_nat j)%Z) as [Hd|Hd].
  - rewrite HK. cbn [rbind]. exists [AGet CNext], None, j, m. replace j with len by lia. repeat split; try done; try lia; try (simpl; lia).
    + rewrite Hn. do 2 f_equal. lia.
    + rewrite Hc. do 4 f_equal. replace j with len by lia. done.
    + intros v' Hv' He. left. by replace j with len by lia.
  - cbn [exec]. rewrite Hn. cbn [rbind]. rewrite Nat2Z.id.
    destruct (lookup_lt_is_Some_2 nbrs j) as [v Hv]; [lia|]. rewrite (vget_ok _ _ _ Hv). cbn [liftP exec].
    assert (Hvn : v ∈ nbrs) by (by eapply elem_of_list_lookup_2).
    destruct (put_ok m CNext (Z.of_nat j + 1) _ I Hn) as [m1 E1]. rewrite E1. cbn [rbind]. rewrite (Hsz v Hvn). cbn [liftP].
    assert (Hn1 : mget m1 CNext = Ok (Z.of_nat (S j))) by (rewrite (mput_same _ _ _ _ E1); f_equal; lia).
    assert (Hc1 : mget m1 CCount = Ok (cnt j)) by (by rewrite (mput_ne _ _ _ _ _ E1)).
    assert (Ht : take (S j) nbrs = take j nbrs ++ [v]) by (by apply take_S_r).
    assert (Hnew : v ∉ take j nbrs).
    { intros (i & Hi)%elem_of_list_lookup. apply lookup_take_Some in Hi as [Hi Hlt]. pose proof (NoDup_lookup _ _ _ _ ND Hi Hv). lia. }
    destruct (decide (chain_size em v = 0)) as [Hz|Hz].
    + assert (Hc2 : mget m1 CCount = Ok (cnt (S j))).
      { rewrite Hc1. do 3 f_equal. rewrite Ht. unfold embedded_of. rewrite filter_app, filter_cons_False by tauto. by rewrite app_nil_r. }
      destruct (IH (S j) m1) as (tr & o & j' & m' & -> & H1 & H2 & H3 & H4 & H5 & H6); [lia|lia|done|done|].
      cbn [rbind]. exists (AGet CNext :: AGet CNext :: APut CNext (Z.of_nat j + 1) :: tr), o, j', m'. split; [done|].
      split; [lia|]. split; [done|]. split; [done|]. split; [simpl; lia|]. split.
      * intros v' Hv' He. destruct (H5 v' Hv' He) as [Hin|?]; [|by right]. rewrite Ht in Hin. apply elem_of_app in Hin as [?|?%elem_of_list_singleton]; [by left|].
        subst. done.
      * destruct o as [v'|]; [|done]. destruct H6 as (? & ? & Hnin & ? & ?). rewrite Ht in Hnin. repeat split; try done; [lia| |simpl; lia].
        intros ?. apply Hnin. apply elem_of_app. by left.
    + cbn [exec]. rewrite Hc1. cbn [rbind]. destruct (put_ok m1 CCount (cnt j + 1) _ I Hc1) as [m2 E2]. rewrite E2. cbn [rbind]. rewrite HK. cbn [rbind].
      eexists _, (Some v), (S j), m2. split; [done|]. split; [lia|]. split; [by rewrite (mput_ne _ _ _ _ _ E2)|].
      split; [rewrite (mput_same _ _ _ _ E2); f_equal; rewrite Ht; unfold embedded_of; rewrite filter_app, app_length, filter_cons_True by done; simpl; lia|].
      split; [simpl; lia|]. split.
      * intros v' Hv' He. rewrite Ht in Hv'. apply elem_of_app in Hv' as [?| ->%elem_of_list_singleton]; [by left|by right].
      * repeat split; try done; [lia| |simpl; lia]. rewrite Ht. apply elem_of_app. right. left.
Qed.

(** what a thread is doing: running towards its next lock (searching for a neighbour, or about to
    lock), holding the mutex, or returned *)
Inductive kind := KRun (f : nat) (o : option nat) (rest : list act) | KScan (f : nat) (o : option nat) (j' : nat) (rest : list act) | KDone.
Definition kok (j : nat) (lk : option nat) (m : mem) (i : nat) (p : prog) (k : kind) : Prop :=
  match k with
  | KRun f o rest => S (len - j) <= f /\ exists m', exec p m = Ok (rest, worker f, m') /\
      match o with
      | None => p = worker f
      | Some v => v ∈ take j nbrs /\ emb_at v /\ fp (job_R v) (on_row v) p /\ forall c, on_row v c -> mget m' c = mget mf c
      end
  | KScan f o j' rest => lk = Some i /\ len - j <= f /\ j <= j' <= len /\ fp ctl ctl p /\
      (exists m', exec p m = Ok (rest, Unlock (after f o), m') /\ mget m' CNext = Ok (Z.of_nat j') /\ mget m' CCount = Ok (cnt j')) /\
      (forall v', v' ∈ take j' nbrs -> emb_at v' -> v' ∈ take j nbrs \/ o = Some v') /\
      match o with None => j' = len | Some v => j < j' /\ v ∈ take j' nbrs /\ v ∉ take j nbrs /\ emb_at v end
  | KDone => p = Ret /\ j = len
  end.
(** remaining work *)
Definition cost (k : kind) : nat :=
  match k with KRun _ _ r => length r + 3 | KScan _ o _ r => length r + 1 + match o with Some v => length (TR v) + 3 | None => 0 end | KDone => 0 end.
Definition later (j : nat) : nat := sum_list (map (fun v => length (TR v) + 20) (drop j nbrs)).
Definition nextj (j : nat) (lk : option nat) (ks : list kind) : nat :=
  match lk with Some i => match ks !! i with Some (KScan _ _ j' _) => j' | _ => j end | None => j end.

Record dst (s : cst) (tr : list (nat * act)) (j : nat) (ks : list kind) : Prop := {
  ds_j : j <= len;
  ds_len : length (c_thr s) = nt;
  ds_klen : length ks = nt;
  ds_kok : forall i p k, c_thr s !! i = Some p -> ks !! i = Some k -> kok j (c_lock s) (c_mem s) i p k;
  ds_free : c_lock s = None -> mget (c_mem s) CNext = Ok (Z.of_nat j) /\ mget (c_mem s) CCount = Ok (cnt j);
  ds_held : forall i, c_lock s = Some i -> exists f o j' r, ks !! i = Some (KScan f o j' r);
  ds_shape : shape (c_mem s) = shape mf;
  ds_rest : forall c, ~ ctl c -> (forall v, v ∈ nbrs -> emb_at v -> ~ on_row v c) -> mget (c_mem s) c = mget mf c;
  ds_new : forall v, v ∈ nbrs -> emb_at v -> v ∉ take j nbrs -> (forall c, on_row v c -> mget (c_mem s) c = mget m0 c) /\ events v tr = [];
  ds_old : forall v, v ∈ take j nbrs -> emb_at v ->
    (exists i f r, ks !! i = Some (KRun f (Some v) r) /\ events v tr ++ map (pair i) (rowacts v r) = map (pair i) (rowacts v (TR v))) \/
    ((forall i f r, ks !! i <> Some (KRun f (Some v) r)) /\ (forall c, on_row v c -> mget (c_mem s) c = mget mf c) /\ exists i, i < nt /\ events v tr = map (pair i) (rowacts v (TR v)));
  ds_uniq : forall i i' f f' v r r', ks !! i = Some (KRun f (Some v) r) -> ks !! i' = Some (KRun f' (Some v) r') -> i = i';
  ds_none : forall v, ~ (v ∈ nbrs /\ emb_at v) -> events v tr = []
}.
Definition potential (j : nat) (lk : option nat) (ks : list kind) : nat := sum_list (cost <$> ks) + later (nextj j lk ks).

Lemma take_sub j v : v ∈ take j nbrs -> v ∈ nbrs.
Proof. intros H. rewrite <- (take_drop j nbrs). apply elem_of_app. by left. Qed.

(** other threads are not disturbed by a change of memory outside their words *)
Lemma kok_frame j lk m m1 i p k : kok j lk m i p k ->
  (forall f v r, k = KRun f (Some v) r -> forall c, job_R v c -> mget m1 c = mget m c) ->
  (forall f o j' r, k = KScan f o j' r -> forall c, ctl c -> mget m1 c = mget m c) -> kok j lk m1 i p k.
Proof.
  intros H HR HS. destruct k as [f o r|f o j' r|]; cbn [kok] in *; [| |done].
  - destruct H as (Hf & m' & He & Ho). split; [done|]. destruct o as [v|].
    + destruct Ho as (H1 & H2 & H3 & H4).
      destruct (exec_agree (job_R v) (on_row v) p ltac:(by left) H3 m m1 r (worker f) m') as (m1' & E & A & _ & _); [by eapply HR|done|].
      exists m1'. split; [done|]. repeat split; try done. intros c Hc. rewrite A by (by left). by apply H4.
    + subst p. destruct f as [|f]; [lia|]. exists m1. rewrite worker_S in *. simpl in He. injection He as <- <-. done.
  - destruct H as (H1 & H2 & H3 & H4 & (m' & He & H5 & H6) & H7 & H8). split; [done|]. split; [done|]. split; [done|]. split; [done|]. split; [|done].
    destruct (exec_agree ctl ctl p ltac:(done) H4 m m1 r (Unlock (after f o)) m') as (m1' & E & A & _ & _); [by eapply HS|done|].
    exists m1'. rewrite !A by done. done.
Qed.
(** and stay as they are when more neighbours have been handed out or another thread has locked *)
Lemma kok_mono j j2 lk lk2 m i p k : kok j lk m i p k -> j <= j2 <= len -> (forall f o j' r, k <> KScan f o j' r) -> (k = KDone -> j2 = len) -> kok j2 lk2 m i p k.
Proof.
  intros H Hj Hk Hd. destruct k as [f o r|f o j' r|]; cbn [kok] in *; [|by edestruct Hk|].
  - destruct H as (Hf & m' & He & Ho). split; [lia|]. exists m'. split; [done|]. destruct o as [v|]; [|done].
    destruct Ho as (H1 & H2). split; [|done]. replace j2 with (j + (j2 - j)) by lia. 
    apply elem_of_list_lookup in H1 as [k Hk']. apply lookup_take_Some in Hk' as [Hk' ?]. apply elem_of_list_lookup. exists k. rewrite lookup_take by lia. done.
  - destruct H as [-> H]. split; [done|]. by apply Hd.
Qed.
Lemma later_split j j' v : j < j' <= len -> v ∈ take j' nbrs -> v ∉ take j nbrs -> later j' + (length (TR v) + 20 * (j' - j)) <= later j.
Proof.
  intros Hj Hv Hn. unfold later. replace (drop j' nbrs) with (drop (j' - j) (drop j nbrs)) by (rewrite drop_drop; f_equal; lia).
  rewrite <- (take_drop j (take j' nbrs)) in Hv. apply elem_of_app in Hv as [Hv|Hv]; [by rewrite take_take, Nat.min_l in Hv by lia|].
  rewrite skipn_firstn_comm in Hv.
  set (l := drop j nbrs) in *. assert (Hl : j' - j <= length l) by (subst l; rewrite drop_length; lia).
  set (k := j' - j) in *. clearbody k l. clear - Hv Hl. revert l Hv Hl. induction k as [|k IH]; intros l Hv Hl; [by apply elem_of_nil in Hv|].
  destruct l as [|x l]; simpl in *; [lia|]. apply elem_of_cons in Hv as [->|Hv].
  - rewrite drop_0 || idtac. 
    assert (G : forall k l, k <= length l -> sum_list (map (fun v => length (TR v) + 20) (drop k l)) + 20 * k <= sum_list (map (fun v => length (TR v) + 20) l)).
    { clear. induction k as [|k IH]; intros [|y l] H; simpl in *; try lia. specialize (IH l). lia. }
    specialize (G k l ltac:(lia)). lia.
  - specialize (IH l Hv ltac:(lia)). lia.
Qed.
Lemma later_mono j j' : j <= j' <= len -> later j' + 20 * (j' - j) <= later j.
Proof.
  intros Hj. unfold later. replace (drop j' nbrs) with (drop (j' - j) (drop j nbrs)) by (rewrite drop_drop; f_equal; lia).
  set (l := drop j nbrs) in *. assert (Hl : j' - j <= length l) by (subst l; rewrite drop_length; lia).
  set (k := j' - j) in *. clearbody k l. clear - Hl. revert l Hl. induction k as [|k IH]; intros [|y l] H; simpl in *; try lia. specialize (IH l). lia.
Qed.

Lemma lookup_ins {A} (l : list A) i j x y : <[i := x]> l !! j = Some y -> (j = i /\ y = x) \/ (j <> i /\ l !! j = Some y).
Proof. intros [(-> & -> & _)|(? & ?)]%list_lookup_insert_Some; [by left|]. right. by split. Qed.
Lemma potential_ins j lk ks i k k' : ks !! i = Some k ->
  potential j lk (<[i := k']> ks) + cost k + later (nextj j lk ks) = potential j lk ks + cost k' + later (nextj j lk (<[i := k']> ks)).
Proof.
  intros H. unfold potential. rewrite list_fmap_insert. pose proof (sum_list_insert (cost <$> ks) i (cost k) (cost k')) as G.
  rewrite list_lookup_fmap, H in G. specialize (G eq_refl). lia.
Qed.

Lemma old_spec s tr j ks v : dst s tr j ks -> v ∈ take j nbrs -> emb_at v ->
    (exists i f r, ks !! i = Some (KRun f (Some v) r) /\ events v tr ++ map (pair i) (rowacts v r) = map (pair i) (rowacts v (TR v))) \/
    ((forall i f r, ks !! i <> Some (KRun f (Some v) r)) /\ (forall c, on_row v c -> mget (c_mem s) c = mget mf c) /\ exists i, i < nt /\ events v tr = map (pair i) (rowacts v (TR v))).
Proof. intros D. exact (ds_old _ _ _ _ D v). Qed.

(** a thread makes an access of its search *)
Lemma step_run ts m m1 l tr j ks i p p1 f v a tr1 m2 : dst (mkC ts m l) tr j ks -> ts !! i = Some p -> ks !! i = Some (KRun f (Some v) (a :: tr1)) ->
  fp (job_R v) (on_row v) p1 -> exec p1 m1 = Ok (tr1, worker f, m2) -> (forall c, on_row v c -> mget m2 c = mget mf c) ->
  (forall c, ~ on_row v c -> mget m1 c = mget m c) -> shape m1 = shape m -> (forall v', act_row v' a -> v' = v) ->
  dst (mkC (<[i := p1]> ts) m1 l) (tr ++ [(i, a)]) j (<[i := KRun f (Some v) tr1]> ks) /\
  potential j l (<[i := KRun f (Some v) tr1]> ks) < potential j l ks.
Proof.
  intros D Hi Hk Hfp He Hfin Hm Hsh Ha.
  assert (Hii : i < nt) by (rewrite <- (ds_len _ _ _ _ D); by eapply lookup_lt_Some).
  assert (Hik : i < length ks) by (by rewrite (ds_klen _ _ _ _ D)).
  pose proof (ds_kok _ _ _ _ D i _ _ Hi Hk) as Kk. cbn [c_lock c_mem kok] in Kk. destruct Kk as (Hf & _ & _ & Hv1 & Hv2 & _ & _).
  assert (Hvn : v ∈ nbrs) by (by eapply take_sub).
  split.
  - split; cbn [c_thr c_mem c_lock].
    + apply D.
    + rewrite insert_length. apply D.
    + rewrite insert_length. apply D.
    + intros i' p' k' Hp Hk'. apply lookup_ins in Hp as [[-> ->]|[Hne Hp]].
      * rewrite list_lookup_insert in Hk' by done. injection Hk' as <-. cbn [kok]. split; [done|]. exists m2. done.
      * rewrite list_lookup_insert_ne in Hk' by done. pose proof (ds_kok _ _ _ _ D i' _ _ Hp Hk') as Kk. cbn [c_lock c_mem] in Kk.
        eapply kok_frame; [done|..].
        -- intros f' v' r' -> c Hc. apply Hm. intros Hr. apply Hne. pose proof (job_row _ _ _ Hc Hr). subst v'. by eapply (ds_uniq _ _ _ _ D).
        -- intros f' o' j' r' _ c Hc. apply Hm. intros Hr. by eapply ctl_row.
    + intros ->. rewrite !Hm by (by intros ?). by apply D.
    + intros i' Hl. destruct (ds_held _ _ _ _ D i' Hl) as (f' & o' & j' & r' & Hk'). exists f', o', j', r'.
      rewrite list_lookup_insert_ne; [done|]. intros ->. rewrite Hk in Hk'. done.
    + rewrite Hsh. apply D.
    + intros c Hc Hno. rewrite Hm by (by apply Hno). by apply D.
    + intros v' H1 H2 H3. destruct (ds_new _ _ _ _ D v' H1 H2 H3) as [H4 H5]. assert (v' <> v) by (by intros ->). split.
      * intros c Hc. rewrite Hm; [by apply H4|]. intros Hr. pose proof (row_inj _ _ _ Hc Hr). by subst.
      * rewrite events_snoc, H5, decide_False; [done|]. by intros ?%Ha.
    + intros v' H1 H2. rewrite events_snoc. destruct (old_spec _ _ _ _ _ D H1 H2) as [(i' & f' & r' & Hk' & He')|(H0 & H3 & i' & Hi' & He')].
      * left. destruct (decide (i' = i)) as [->|Hne].
        -- rewrite Hk in Hk'. injection Hk' as <- <- <-. exists i, f, tr1. rewrite list_lookup_insert by done. split; [done|].
           rewrite <- He', <- app_assoc. f_equal. rewrite rowacts_cons, map_app. f_equal. by destruct (decide (act_row v a)).
        -- exists i', f', r'. rewrite list_lookup_insert_ne by done. split; [done|]. rewrite decide_False; [by rewrite app_nil_r|].
           intros ->%Ha. apply Hne. by eapply (ds_uniq _ _ _ _ D).
      * assert (v' <> v) by (intros ->; by eapply H0). right. split; [|split].
        -- intros i2 f2 r2 G. apply lookup_ins in G as [[-> G]|[N G]]; [congruence|]. by eapply H0.
        -- intros c Hc. rewrite Hm; [by apply H3|]. intros Hr. pose proof (row_inj _ _ _ Hc Hr). by subst.
        -- exists i'. split; [done|]. rewrite decide_False; [by rewrite app_nil_r|]. by intros ?%Ha.
    + intros i1 i2 f1 f2 v' r1 r2 G1 G2. apply lookup_ins in G1 as [[-> G1]|[N1 G1]], G2 as [[-> G2]|[N2 G2]]; try done.
      * injection G1 as -> -> ->. by eapply (ds_uniq _ _ _ _ D).
      * injection G2 as -> -> ->. by eapply (ds_uniq _ _ _ _ D).
      * by eapply (ds_uniq _ _ _ _ D).
    + intros v' Hv'. rewrite events_snoc, (ds_none _ _ _ _ D v' Hv'), decide_False; [done|]. intros ->%Ha. by apply Hv'.
  - pose proof (potential_ins j l ks i _ (KRun f (Some v) tr1) Hk) as G. cbn [cost length] in G.
    assert (nextj j l (<[i:=KRun f (Some v) tr1]> ks) = nextj j l ks) as E; [|rewrite E in G; lia].
    unfold nextj. destruct l as [i'|]; [|done]. destruct (ds_held _ _ _ _ D i' eq_refl) as (f' & o' & j' & r' & Hk'). rewrite list_lookup_insert_ne; [done|].
    intros ->. rewrite Hk in Hk'. done.
Qed.

(** the holder of the mutex makes an access *)
Lemma step_scan ts m m1 l tr j ks i p p1 f o j' a tr1 m2 : dst (mkC ts m l) tr j ks -> ts !! i = Some p -> ks !! i = Some (KScan f o j' (a :: tr1)) ->
  fp ctl ctl p1 -> exec p1 m1 = Ok (tr1, Unlock (after f o), m2) -> mget m2 CNext = Ok (Z.of_nat j') -> mget m2 CCount = Ok (cnt j') ->
  (forall c, ~ ctl c -> mget m1 c = mget m c) -> shape m1 = shape m -> (forall v', ~ act_row v' a) ->
  dst (mkC (<[i := p1]> ts) m1 l) (tr ++ [(i, a)]) j (<[i := KScan f o j' tr1]> ks) /\
  potential j l (<[i := KScan f o j' tr1]> ks) < potential j l ks.
Proof.
  intros D Hi Hk Hfp He Hf1 Hf2 Hm Hsh Ha.
  assert (Hii : i < nt) by (rewrite <- (ds_len _ _ _ _ D); by eapply lookup_lt_Some).
  assert (Hik : i < length ks) by (by rewrite (ds_klen _ _ _ _ D)).
  pose proof (ds_kok _ _ _ _ D i _ _ Hi Hk) as Kk. cbn [c_lock c_mem kok] in Kk. destruct Kk as (-> & Hf & Hj & _ & _ & Hnew & Ho).
  assert (Hev : forall v, events v (tr ++ [(i, a)]) = events v tr) by (intros v; rewrite events_snoc, decide_False by apply Ha; by rewrite app_nil_r).
  split.
  - split; cbn [c_thr c_mem c_lock].
    + apply D.
    + rewrite insert_length. apply D.
    + rewrite insert_length. apply D.
    + intros i' p' k' Hp Hk'. apply lookup_ins in Hp as [[-> ->]|[Hne Hp]].
      * rewrite list_lookup_insert in Hk' by done. injection Hk' as <-. cbn [kok]. split; [done|]. split; [done|]. split; [done|]. split; [done|].
        split; [by exists m2|done].
      * rewrite list_lookup_insert_ne in Hk' by done. pose proof (ds_kok _ _ _ _ D i' _ _ Hp Hk') as Kk. cbn [c_lock c_mem] in Kk.
        eapply kok_frame; [done|..].
        -- intros f' v' r' -> c Hc. apply Hm. intros Hr. by eapply ctl_job.
        -- intros f' o' j2 r' -> c Hc. cbn [kok] in Kk. destruct Kk as ([= ->] & _). done.
    + done.
    + intros i' [= <-]. exists f, o, j', tr1. by apply list_lookup_insert.
    + rewrite Hsh. apply D.
    + intros c Hc Hno. rewrite Hm by done. by apply D.
    + intros v' H1 H2 H3. destruct (ds_new _ _ _ _ D v' H1 H2 H3) as [H4 H5]. rewrite Hev. split; [|done].
      intros c Hc. rewrite Hm; [by apply H4|]. intros Hr. by eapply ctl_row.
    + intros v' H1 H2. rewrite Hev. destruct (old_spec _ _ _ _ _ D H1 H2) as [(i' & f' & r' & Hk' & He')|(H0 & H3 & i' & Hi' & He')].
      * left. exists i', f', r'. split; [|done]. rewrite list_lookup_insert_ne; [done|]. intros ->. congruence.
      * right. split; [|split].
        -- intros i2 f2 r2 G. apply lookup_ins in G as [[-> G]|[N G]]; [congruence|]. by eapply H0.
        -- intros c Hc. rewrite Hm; [by apply H3|]. intros Hr. by eapply ctl_row.
        -- by exists i'.
    + intros i1 i2 f1 f2 v' r1 r2 G1 G2. apply lookup_ins in G1 as [[-> G1]|[N1 G1]], G2 as [[-> G2]|[N2 G2]]; try done.
      by eapply (ds_uniq _ _ _ _ D).
    + intros v' Hv'. rewrite Hev. exact (ds_none _ _ _ _ D v' Hv').
  - pose proof (potential_ins j (Some i) ks i _ (KScan f o j' tr1) Hk) as G. cbn [cost length] in G.
    assert (nextj j (Some i) (<[i:=KScan f o j' tr1]> ks) = nextj j (Some i) ks) as E; [|rewrite E in G; lia].
    unfold nextj. rewrite list_lookup_insert by done. by rewrite Hk.
Qed.

Lemma dst_step s s' tr ev j ks : dst s tr j ks -> cstep ev s s' ->
  exists j2 ks2, dst s' (tr ++ [ev]) j2 ks2 /\ potential j2 (c_lock s') ks2 < potential j (c_lock s) ks.
Proof.
  intros D Hs. destruct Hs as [ts m l i c kk x Hi Hx|ts m l i c x kk m1 Hi Hx|ts m i kk Hi|ts m i kk Hi];
    assert (Hii : i < nt) by (rewrite <- (ds_len _ _ _ _ D); by eapply lookup_lt_Some);
    (destruct (lookup_lt_is_Some_2 ks i) as [k Hk]; [by rewrite (ds_klen _ _ _ _ D)|]);
    pose proof (ds_kok _ _ _ _ D i _ _ Hi Hk) as Kk; cbn [c_lock c_mem] in *.
  - (* read *)
    destruct k as [f o r|f o j' r|]; cbn [kok] in Kk; [| |by destruct Kk].
    + destruct Kk as (Hf & m' & He & Ho). destruct o as [v|]; [|destruct f; [lia|by rewrite worker_S in Ho]].
      destruct Ho as (Hv1 & Hv2 & Hfp & Hfin). cbn [exec fp] in He, Hfp. rewrite Hx in He. cbn [rbind] in He.
      destruct (exec (kk x) m) as [[[tr1 p1] m2]|] eqn:E1; [|done]. cbn [rbind] in He. injection He as <- -> <-. destruct Hfp as [Hc Hfp].
      exists j, (<[i := KRun f (Some v) tr1]> ks). eapply step_run; try done. intros v' H6. simpl in H6. symmetry. by eapply job_row.
    + destruct Kk as (-> & Hf & Hj & Hfp & (m' & He & H1 & H2) & _). cbn [exec fp] in He, Hfp. rewrite Hx in He. cbn [rbind] in He.
      destruct (exec (kk x) m) as [[[tr1 p1] m2]|] eqn:E1; [|done]. cbn [rbind] in He. injection He as <- -> <-. destruct Hfp as [Hc Hfp].
      exists j, (<[i := KScan f o j' tr1]> ks). eapply step_scan; try done. intros v' H6. by eapply ctl_row.
  - (* write *)
    destruct k as [f o r|f o j' r|]; cbn [kok] in Kk; [| |by destruct Kk].
    + destruct Kk as (Hf & m' & He & Ho). destruct o as [v|]; [|destruct f; [lia|by rewrite worker_S in Ho]].
      destruct Ho as (Hv1 & Hv2 & Hfp & Hfin). cbn [exec fp] in He, Hfp. rewrite Hx in He. cbn [rbind] in He.
      destruct (exec kk m1) as [[[tr1 p1] m2]|] eqn:E1; [|done]. cbn [rbind] in He. injection He as <- -> <-. destruct Hfp as [Hc Hfp].
      exists j, (<[i := KRun f (Some v) tr1]> ks). eapply step_run; try done.
      * intros c' Hc'. eapply mput_ne; [done|]. by intros ->.
      * by eapply mput_shape.
      * intros v' H6. simpl in H6. symmetry. eapply row_inj; [exact Hc|done].
    + destruct Kk as (-> & Hf & Hj & Hfp & (m' & He & H1 & H2) & _). cbn [exec fp] in He, Hfp. rewrite Hx in He. cbn [rbind] in He.
      destruct (exec kk m1) as [[[tr1 p1] m2]|] eqn:E1; [|done]. cbn [rbind] in He. injection He as <- -> <-. destruct Hfp as [Hc Hfp].
      exists j, (<[i := KScan f o j' tr1]> ks). eapply step_scan; try done.
      * intros c' Hc'. eapply mput_ne; [done|]. by intros ->.
      * by eapply mput_shape.
      * intros v' H6. by eapply ctl_row.
  - (* lock *)
    destruct k as [f o r|f o j' r|]; cbn [kok] in Kk; [| |by destruct Kk]; [|by destruct Kk].
    destruct Kk as (Hf & m' & He & Ho). cbn [exec] in He. injection He as <- E <-. destruct f as [|f]; [lia|]. assert (kk = scan_P (S len) em nbrs (fun o => Unlock (after f o))) as -> by (rewrite worker_S in E; by injection E).
    destruct (ds_free _ _ _ _ D eq_refl) as [Hn Hc]. cbn [c_mem] in *. pose proof (ds_j _ _ _ _ D) as Hj.
    destruct (scan_exec (fun o => Unlock (after f o)) (S len) ltac:(done) j m Hj ltac:(lia) Hn Hc) as (tr1 & o' & j' & m2 & He & Hj' & H1 & H2 & H3 & H4 & H5).
    exists j, (<[i := KScan f o' j' tr1]> ks). assert (Hik : i < length ks) by (by rewrite (ds_klen _ _ _ _ D)).
    assert (Hev : forall v, events v (tr ++ [(i, ALock)]) = events v tr) by (intros v; rewrite events_snoc, decide_False by (by intros ?); by rewrite app_nil_r).
    split.
    + split; cbn [c_thr c_mem c_lock].
      * done.
      * rewrite insert_length. apply D.
      * rewrite insert_length. apply D.
      * intros i' p' k' Hp Hk'. apply lookup_ins in Hp as [[-> ->]|[Hne Hp]].
        -- rewrite list_lookup_insert in Hk' by done. injection Hk' as <-. cbn [kok]. split; [done|]. split; [lia|]. split; [done|].
           split; [by apply fp_scan|]. split; [by exists m2|]. split; [done|]. destruct o'; [|done]. naive_solver.
        -- rewrite list_lookup_insert_ne in Hk' by done. pose proof (ds_kok _ _ _ _ D i' _ _ Hp Hk') as Kk. cbn [c_lock c_mem] in Kk.
           eapply kok_mono; [done|lia|..].
           ++ intros f' o2 j2 r' ->. by destruct Kk.
           ++ intros ->. by destruct Kk.
      * done.
      * intros i' [= <-]. exists f, o', j', tr1. by apply list_lookup_insert.
      * apply D.
      * apply D.
      * intros v' H6 H7 H8. rewrite Hev. by apply (ds_new _ _ _ _ D v').
      * intros v' H6 H7. rewrite Hev. destruct (old_spec _ _ _ _ _ D H6 H7) as [(i' & f' & r' & Hk' & He')|(H0 & H8 & i' & Hi' & He')].
        -- destruct (decide (i' = i)) as [->|Hne].
           ++ rewrite Hk in Hk'. injection Hk' as <- -> <-. right. split; [|split].
              ** intros i2 f2 r2 G. apply lookup_ins in G as [[-> G]|[N G]]; [done|]. apply N. by eapply (ds_uniq _ _ _ _ D).
              ** apply Ho.
              ** exists i. split; [done|]. rewrite <- He'. simpl. by rewrite app_nil_r.
           ++ left. exists i', f', r'. split; [|done]. by rewrite list_lookup_insert_ne.
        -- right. split; [|split; [done|by exists i']]. intros i2 f2 r2 G. apply lookup_ins in G as [[-> G]|[N G]]; [congruence|]. by eapply H0.
      * intros i1 i2 f1 f2 v' r1 r2 G1 G2. apply lookup_ins in G1 as [[-> G1]|[N1 G1]], G2 as [[-> G2]|[N2 G2]]; try done.
        by eapply (ds_uniq _ _ _ _ D).
      * intros v' Hv'. rewrite Hev. exact (ds_none _ _ _ _ D v' Hv').
    + pose proof (potential_ins j None ks i _ (KScan f o' j' tr1) Hk) as G. cbn [cost length nextj] in G.
      assert (E2 : potential j (Some i) (<[i:=KScan f o' j' tr1]> ks) + later j = potential j None (<[i:=KScan f o' j' tr1]> ks) + later j').
      { unfold potential, nextj. rewrite list_lookup_insert by done. lia. }
      destruct o' as [v|].
      * destruct H5 as (H5 & H6 & H7 & _ & H9). pose proof (later_split j j' v ltac:(lia) H6 H7). lia.
      * pose proof (later_mono j j' ltac:(lia)). lia.
  - (* unlock *)
    destruct k as [f o r|f o j' r|]; cbn [kok] in Kk; [| |by destruct Kk].
    { exfalso. destruct Kk as (Hf & m' & He & _). cbn [exec] in He. injection He as _ E _. destruct f; [lia|]. by rewrite worker_S in E. }
    destruct Kk as (_ & Hf & Hj' & _ & (m' & He & H1 & H2) & Hnew & Ho). cbn [exec] in He. injection He as <- -> <-.
    set (k2 := match o with Some v => KRun f (Some v) (TR v) | None => KDone end).
    exists j', (<[i := k2]> ks). assert (Hik : i < length ks) by (by rewrite (ds_klen _ _ _ _ D)).
    assert (Hev : forall v, events v (tr ++ [(i, AUnlock)]) = events v tr) by (intros v; rewrite events_snoc, decide_False by (by intros ?); by rewrite app_nil_r).
    assert (Hothers : forall v f' r', ks !! i <> Some (KRun f' (Some v) r')) by (intros v f' r' G; congruence).
    assert (Hfresh : forall v i' f' r', o = Some v -> ks !! i' = Some (KRun f' (Some v) r') -> False).
    { intros v i' f' r' -> G. destruct (lookup_lt_is_Some_2 ts i') as [p' Hp'].
      { pose proof (ds_len _ _ _ _ D) as L. simpl in L. rewrite L, <- (ds_klen _ _ _ _ D). by eapply lookup_lt_Some. }
      pose proof (ds_kok _ _ _ _ D i' _ _ Hp' G) as Kk. cbn [kok] in Kk. destruct Kk as (_ & _ & _ & Hin & _). destruct Ho as (_ & _ & Ho & _). done. }
    split.
    + split; cbn [c_thr c_mem c_lock].
      * lia.
      * rewrite insert_length. apply D.
      * rewrite insert_length. apply D.
      * intros i' p' k' Hp Hk'. apply lookup_ins in Hp as [[-> ->]|[Hne Hp]].
        -- rewrite list_lookup_insert in Hk' by done. injection Hk' as <-. subst k2. destruct o as [v|]; cbn [kok after]; [|done].
           destruct Ho as (Ho1 & Ho2 & Ho3 & Ho4). split; [lia|]. assert (Hvn : v ∈ nbrs) by (by eapply take_sub).
           destruct (Hjob v f Hvn Ho4 ltac:(lia)) as (mv & Hev1 & Hev2).
           assert (Hfp : fp (job_R v) (on_row v) (job v (worker f))) by (apply fp_job; intros R W; by destruct f).
           destruct (exec_agree (job_R v) (on_row v) _ ltac:(by left) Hfp m0 m (TR v) (worker f) mv) with (2 := Hev1) as (m1 & E1 & A1 & _ & _).
           { intros c [Hc|Hc].
             - by apply (ds_new _ _ _ _ D v Hvn Ho4 Ho3).
             - assert (Hc1 : ~ ctl c) by (by destruct c; intros ?). assert (Hc2 : forall v', v' ∈ nbrs -> emb_at v' -> ~ on_row v' c) by (intros v' _ _ Hr; by destruct c).
               transitivity (mget mf c); [exact (ds_rest _ _ _ _ D c Hc1 Hc2)|symmetry; exact (Hrest c Hc1 Hc2)]. }
           exists m1. split; [done|]. split; [done|]. split; [done|]. split; [done|]. intros c Hc. rewrite A1 by (by left). by apply Hev2.
        -- rewrite list_lookup_insert_ne in Hk' by done. pose proof (ds_kok _ _ _ _ D i' _ _ Hp Hk') as Kk. cbn [c_lock c_mem] in Kk.
           eapply kok_mono; [done|lia|..].
           ++ intros f' o2 j2 r' ->. destruct Kk as ([= <-] & _). done.
           ++ intros ->. destruct Kk as [_ ->]. lia.
      * intros _. done.
      * done.
      * apply D.
      * apply D.
      * intros v' H6 H7 H8. rewrite Hev. apply (ds_new _ _ _ _ D v'); [done|done|]. intros H9. apply H8.
        apply elem_of_list_lookup in H9 as [k Hk']. apply lookup_take_Some in Hk' as [Hk' ?]. apply elem_of_list_lookup. exists k. rewrite lookup_take by lia. done.
      * intros v' H6 H7. rewrite Hev. destruct (Hnew v' H6 H7) as [Hin|Heq].
        -- destruct (old_spec _ _ _ _ _ D Hin H7) as [(i' & f' & r' & Hk' & He')|(H0 & H8 & i' & Hi' & He')].
           ++ left. exists i', f', r'. split; [|done]. rewrite list_lookup_insert_ne; [done|]. intros ->. congruence.
           ++ right. split; [|split; [done|by exists i']]. intros i2 f2 r2 G. apply lookup_ins in G as [[-> G]|[N G]]; [|by eapply H0].
              subst k2. destruct o as [v|]; [|done]. injection G as -> -> ->. destruct Ho as (_ & _ & Ho & _). done.
        -- left. exists i, f, (TR v'). subst k2. rewrite Heq in *. rewrite list_lookup_insert by done. split; [done|].
           destruct Ho as (_ & _ & Ho3 & _). destruct (ds_new _ _ _ _ D v' ltac:(by eapply take_sub) H7 Ho3) as [_ ->]. done.
      * intros i1 i2 f1 f2 v' r1 r2 G1 G2. subst k2. apply lookup_ins in G1 as [[-> G1]|[N1 G1]], G2 as [[-> G2]|[N2 G2]]; try done.
        -- destruct o as [v|]; [|done]. injection G1 as -> -> ->. exfalso. by eapply Hfresh.
        -- destruct o as [v|]; [|done]. injection G2 as -> -> ->. exfalso. by eapply Hfresh.
        -- by eapply (ds_uniq _ _ _ _ D).
      * intros v' Hv'. rewrite Hev. exact (ds_none _ _ _ _ D v' Hv').
    + pose proof (potential_ins j' None ks i _ k2 Hk) as G. cbn [cost length nextj] in G.
      assert (E : potential j (Some i) ks = potential j' None ks).
      { unfold potential, nextj. by rewrite Hk. }
      subst k2. destruct o as [v|]; cbn [cost] in G; lia.
Qed.

Context (Hnt : 0 < nt).
Definition workers : list prog := replicate nt (worker (S len)).
Lemma dst_start : dst (start workers m0) [] 0 (replicate nt (KRun (S len) None [])).
Proof.
  split; cbn [c_thr c_mem c_lock start].
  - lia.
  - apply replicate_length.
  - apply replicate_length.
  - intros i p k [-> _]%lookup_replicate [-> _]%lookup_replicate. cbn [kok]. split; [lia|]. exists m0. done.
  - done.
  - done.
  - done.
  - done.
  - done.
  - intros v Hv. by apply elem_of_nil in Hv.
  - intros i i' f f' v r r' H. apply lookup_replicate in H as [H _]. done.
  - done.
Qed.
Lemma dst_runs tr s : runs (start workers m0) tr s -> exists j ks, dst s tr j ks /\
  potential j (c_lock s) ks + length tr <= potential 0 None (replicate nt (KRun (S len) None [])).
Proof.
  intros H. induction H as [|tr s1 ev s2 H IH Hs]; [exists 0, (replicate nt (KRun (S len) None [])); split; [apply dst_start|simpl; lia]|].
  destruct IH as (j & ks & D & Hle). destruct (dst_step _ _ _ _ _ _ D Hs) as (j2 & ks2 & D2 & Hlt).
  exists j2, ks2. split; [done|]. rewrite app_length. simpl. lia.
Qed.
Lemma kind_at s tr j ks i p : dst s tr j ks -> c_thr s !! i = Some p -> exists k, ks !! i = Some k /\ kok j (c_lock s) (c_mem s) i p k.
Proof.
  intros D Hi. destruct (lookup_lt_is_Some_2 ks i) as [k Hk].
  { rewrite (ds_klen _ _ _ _ D), <- (ds_len _ _ _ _ D). by eapply lookup_lt_Some. }
  exists k. split; [done|]. by apply (ds_kok _ _ _ _ D).
Qed.
(** what a thread about to read or write is allowed to touch *)
Lemma access s tr j ks i p c : dst s tr j ks -> c_thr s !! i = Some p -> (exists k, p = Get c k) \/ (exists x k, p = Put c x k) ->
  (c_lock s = Some i /\ ctl c) \/ (exists f v r, ks !! i = Some (KRun f (Some v) r) /\ job_R v c /\ ((exists x k, p = Put c x k) -> on_row v c)).
Proof.
  intros D Hi Hp. destruct (kind_at _ _ _ _ _ _ D Hi) as ([f o r|f o j' r|] & Hk & Kk); cbn [kok] in Kk.
  - destruct Kk as (Hf & m' & _ & Ho). destruct o as [v|].
    + right. exists f, v, r. split; [done|]. destruct Ho as (_ & _ & Hfp & _). destruct Hp as [[k ->]|(x & k & ->)]; destruct Hfp as [Hc _].
      * split; [done|]. by intros (x & k' & [=]).
      * split; [by left|done].
    + exfalso. destruct f as [|f]; [lia|]. rewrite worker_S in Ho. destruct Hp as [[k ->]|(x & k & ->)]; done.
  - left. destruct Kk as (-> & _ & _ & Hfp & _). split; [done|]. by destruct Hp as [[k ->]|(x & k & ->)]; destruct Hfp.
  - exfalso. destruct Kk as [-> _]. destruct Hp as [[k [=]]|(x & k & [=])].
Qed.
Lemma dst_final s tr j ks : dst s tr j ks -> (forall ev s', ~ cstep ev s s') -> s = mkC (replicate nt Ret) mf None /\ j = len.
Proof.
  intros D Hst. destruct s as [ts m lk].
  assert (Hlk : lk = None).
  { destruct lk as [i|]; [exfalso|done]. destruct (ds_held _ _ _ _ D i eq_refl) as (f & o & j' & r & Hk).
    destruct (lookup_lt_is_Some_2 ts i) as [p Hp]. { pose proof (ds_len _ _ _ _ D) as L. simpl in L. rewrite L, <- (ds_klen _ _ _ _ D). by eapply lookup_lt_Some. }
    pose proof (ds_kok _ _ _ _ D i _ _ Hp Hk) as Kk. cbn [kok c_mem] in Kk. destruct Kk as (_ & _ & _ & _ & (m' & He & _) & _).
    destruct p as [|x|c k|c x k|k|k]; simpl in He; try done.
    - destruct (mget m c) as [x|] eqn:E; [|done]. eapply Hst. by eapply cs_get.
    - destruct (mput m c x) as [m1|] eqn:E; [|done]. eapply Hst. by eapply cs_put.
    - eapply Hst. by eapply cs_unlock. }
  subst lk.
  assert (Hret : forall i p, ts !! i = Some p -> p = Ret /\ j = len).
  { intros i p Hp. destruct (kind_at _ _ _ _ _ p D Hp) as ([f o r|f o j' r|] & Hk & Kk); cbn [kok c_mem] in Kk; [exfalso| |done].
    - destruct Kk as (Hf & m' & He & _). destruct f as [|f]; [lia|]. rewrite worker_S in He.
      destruct p as [|x|c k|c x k|k|k]; simpl in He; try done.
      + destruct (mget m c) as [x|] eqn:E; [|done]. eapply Hst. by eapply cs_get.
      + destruct (mput m c x) as [m1|] eqn:E; [|done]. eapply Hst. by eapply cs_put.
      + eapply Hst. by eapply cs_lock.
    - by destruct Kk. }
  pose proof (ds_len _ _ _ _ D) as HL. simpl in HL.
  assert (Hj : j = len). { destruct (lookup_lt_is_Some_2 ts 0) as [p Hp]; [lia|]. by eapply Hret. }
  split; [|done]. assert (ts = replicate nt Ret) as ->.
  { symmetry. apply replicate_as_elem_of. split; [done|]. intros p (i & Hp)%elem_of_list_lookup. by eapply Hret. }
  f_equal. apply mem_ext; [apply (ds_shape _ _ _ _ D)|]. intros c.
  destruct (ds_free _ _ _ _ D eq_refl) as [Hn Hc]. cbn [c_mem] in *. rewrite Hj in *. rewrite take_ge in Hc by done.
  destruct (decide (ctl c)) as [Hctl|Hctl].
  { destruct c; try done; congruence. }
  destruct (decide (Exists (fun v => emb_at v /\ on_row v c) nbrs)) as [Hx|Hx].
  - apply Exists_exists in Hx as (v & Hv & He & Hr).
    destruct (old_spec _ _ _ _ v D) as [(i & f & r & Hk & _)|(_ & H3 & _)]; [by rewrite take_ge|done| |by apply H3].
    exfalso. destruct (lookup_lt_is_Some_2 (replicate nt Ret) i) as [p Hp].
    { rewrite replicate_length, <- (ds_klen _ _ _ _ D). by eapply lookup_lt_Some. }
    pose proof (ds_kok _ _ _ _ D i _ _ Hp Hk) as Kk. cbn [kok c_mem] in Kk. apply lookup_replicate in Hp as [-> _].
    destruct Kk as (Hf & m' & He' & _). destruct f; [lia|]. by rewrite worker_S in He'.
  - apply (ds_rest _ _ _ _ D); [done|]. intros v Hv He Hr. apply Hx, Exists_exists. eauto.
Qed.

Lemma can_step (s : cst) : (exists ev s', cstep ev s s') \/ (forall ev s', ~ cstep ev s s').
Proof.
  destruct s as [ts m lk].
  assert (Hd : forall l n, l = drop n ts -> (exists ev s', cstep ev (mkC ts m lk) s') \/ (forall i ev s', n <= i -> ev.1 = i -> ~ cstep ev (mkC ts m lk) s')).
  { induction l as [|p l IH]; intros n Hl.
    - right. intros i ev s' Hi <- Hc. apply (f_equal length) in Hl. rewrite drop_length in Hl. simpl in Hl.
      inversion Hc; subst; simpl in *; match goal with H : ts !! _ = Some _ |- _ => apply lookup_lt_Some in H end; lia.
    - assert (Hp : ts !! n = Some p) by (rewrite <- (Nat.add_0_r n), <- lookup_drop, <- Hl; done).
      destruct (IH (S n)) as [?|IH']; [|by left|].
      { change (S n) with (1 + n). rewrite Nat.add_comm, <- drop_drop, <- Hl. done. }
      assert (Hh : (exists ev s', cstep ev (mkC ts m lk) s') \/ forall ev s', ev.1 = n -> ~ cstep ev (mkC ts m lk) s').
      { destruct p as [|x|c k|c x k|k|k].
        - right. intros ev s' <- Hc. inversion Hc; subst; simpl in *; congruence.
        - right. intros ev s' <- Hc. inversion Hc; subst; simpl in *; congruence.
        - destruct (mget m c) as [x|] eqn:E; [left; eexists _, _; by eapply cs_get|right].
          intros ev s' <- Hc. inversion Hc; subst; simpl in *; congruence.
        - destruct (mput m c x) as [m1|] eqn:E; [left; eexists _, _; by eapply cs_put|right].
          intros ev s' <- Hc. inversion Hc; subst; simpl in *; congruence.
        - destruct lk as [i|]; [right|left; eexists _, _; by eapply cs_lock].
          intros ev s' <- Hc. inversion Hc; subst; simpl in *; congruence.
        - destruct (decide (lk = Some n)) as [->|N]; [left; eexists _, _; by eapply cs_unlock|right].
          intros ev s' <- Hc. inversion Hc; subst; simpl in *; congruence. }
      destruct Hh as [?|Hh]; [by left|]. right. intros i ev s' Hi He. destruct (decide (i = n)) as [->|N]; [by apply Hh|]. apply (IH' i); [lia|done]. }
  destruct (Hd ts 0 eq_refl) as [?|H]; [by left|right]. intros ev s'. apply (H ev.1); [lia|done].
Qed.

Lemma workers_end : ends workers m0 mf.
Proof.
  split.
  - exists (potential 0 None (replicate nt (KRun (S len) None []))). intros tr s H. destruct (dst_runs _ _ H) as (j & ks & _ & ?). lia.
  - intros tr s H (i & i' & c & x & k & Hne & Hi & Hj). destruct (dst_runs _ _ H) as (j & ks & D & _).
    assert (Hj' : exists p, c_thr s !! i' = Some p /\ ((exists k, p = Get c k) \/ exists x k, p = Put c x k)) by naive_solver.
    destruct Hj' as (p' & Hp' & Ha).
    destruct (access _ _ _ _ _ _ c D Hi) as [[H1 H2]|(f & v & r & H1 & H2 & H3)]; [right; eauto|..].
    + destruct (access _ _ _ _ _ _ c D Hp' Ha) as [[H3 _]|(f' & v' & r' & _ & H4 & _)]; [congruence|]. by eapply ctl_job.
    + destruct (access _ _ _ _ _ _ c D Hp' Ha) as [[_ H4]|(f' & v' & r' & H4 & H5 & _)]; [by eapply ctl_job|].
      assert (v' = v) as -> by (eapply job_row; [done|]; apply H3; eauto). apply Hne. by eapply (ds_uniq _ _ _ _ D).
  - intros tr s H. destruct (dst_runs _ _ H) as (j & ks & D & _). destruct (can_step s) as [?|Hno]; [by left|right].
    unfold workers. rewrite replicate_length. by apply (dst_final _ _ _ _ D).
Qed.
(** who searched for what *)
Lemma workers_trace tr s : runs (start workers m0) tr s -> (forall ev s', ~ cstep ev s s') ->
  (forall v, v ∈ embedded_of em nbrs -> exists i, i < nt /\ events v tr = map (pair i) (rowacts v (TR v))) /\
  (forall v, v ∉ embedded_of em nbrs -> events v tr = []).
Proof.
  intros H Hno. destruct (dst_runs _ _ H) as (j & ks & D & _). destruct (dst_final _ _ _ _ D Hno) as [-> ->]. split.
  - intros v (He & Hv)%elem_of_list_filter.
    destruct (old_spec _ _ _ _ v D) as [(i & f & r & Hk & _)|(_ & _ & H3)]; [by rewrite take_ge|done| |done].
    exfalso. destruct (lookup_lt_is_Some_2 (replicate nt Ret) i) as [p Hp].
    { rewrite replicate_length, <- (ds_klen _ _ _ _ D). by eapply lookup_lt_Some. }
    pose proof (ds_kok _ _ _ _ D i _ _ Hp Hk) as Kk. cbn [kok c_mem] in Kk. apply lookup_replicate in Hp as [-> _].
    destruct Kk as (Hf & m' & He' & _). destruct f; [lia|]. by rewrite worker_S in He'.
  - intros v Hv. apply (ds_none _ _ _ _ D). intros [? ?]. apply Hv, elem_of_list_filter. done.
Qed.
End dyn.
