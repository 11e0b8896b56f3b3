(** Memory laws, runs of a single thread, and threads with separate footprints. *)
From stdpp Require Import base list numbers gmap.
From Verif Require Import Base ChainModel EmbModel QueueModel PathModel ConcModel SpecConc.
Local Open Scope Z_scope.

Lemma vget2_inv {A} (l : list (list A)) i j x : vget2 l i j = Ok x -> exists r, l !! i = Some r /\ r !! j = Some x.
Proof. unfold vget2. destruct (vget l i) as [r|] eqn:E; [|done]. cbn [rbind]. intros H. exists r. split; by apply vget_inv. Qed.
Lemma vset2_inv {A} (l l' : list (list A)) i j x : vset2 l i j x = Ok l' ->
  exists r y, l !! i = Some r /\ r !! j = Some y /\ l' = <[i := <[j := x]> r]> l.
Proof.
  unfold vset2. destruct (vget l i) as [r|] eqn:E; [|done]. cbn [rbind]. apply vget_inv in E.
  destruct (vset r j x) as [r'|] eqn:E2; [|done]. cbn [rbind]. apply vset_inv in E2 as [Hj ->].
  intros (Hi & ->)%vset_inv. apply lookup_lt_is_Some_2 in Hj as [y Hy]. exists r, y. done.
Qed.
Lemma vget2_some {A} (l : list (list A)) i j r x : l !! i = Some r -> r !! j = Some x -> vget2 l i j = Ok x.
Proof. intros H1 H2. unfold vget2. rewrite (vget_ok _ _ _ H1). cbn [rbind]. by apply vget_ok. Qed.
Lemma vset2_some {A} (l : list (list A)) i j r y x : l !! i = Some r -> r !! j = Some y -> vset2 l i j x = Ok (<[i := <[j := x]> r]> l).
Proof.
  intros H1 H2. unfold vset2. rewrite (vget_ok _ _ _ H1). cbn [rbind]. rewrite vset_ok by (by eapply lookup_lt_Some).
  cbn [rbind]. apply vset_ok. by eapply lookup_lt_Some.
Qed.
Lemma vset2_same {A} (l l' : list (list A)) i j x : vset2 l i j x = Ok l' -> vget2 l' i j = Ok x.
Proof.
  intros (r & y & Hr & Hy & ->)%vset2_inv. eapply vget2_some.
  - apply list_lookup_insert. by eapply lookup_lt_Some.
  - apply list_lookup_insert. by eapply lookup_lt_Some.
Qed.
Lemma vset2_ne {A} (l l' : list (list A)) i j x i' j' : vset2 l i j x = Ok l' -> ~ (i' = i /\ j' = j) -> vget2 l' i' j' = vget2 l i' j'.
Proof.
  intros (r & y & Hr & Hy & ->)%vset2_inv Hne. unfold vget2, vget. destruct (decide (i' = i)) as [->|Hi].
  - rewrite list_lookup_insert by (by eapply lookup_lt_Some). rewrite Hr. cbn [rbind].
    rewrite list_lookup_insert_ne by (intros ->; by apply Hne). done.
  - by rewrite list_lookup_insert_ne by done.
Qed.
Lemma vset2_shape {A} (l l' : list (list A)) i j x : vset2 l i j x = Ok l' -> map length l' = map length l.
Proof.
  intros (r & y & Hr & Hy & ->)%vset2_inv. change (length <$> <[i:=<[j:=x]> r]> l = length <$> l).
  rewrite list_fmap_insert, insert_length. apply list_insert_id. by rewrite list_lookup_fmap, Hr.
Qed.
Lemma vset2_total {A} (l l' l1 : list (list A)) i j x y : vget2 l1 i j = Ok y -> exists l1', vset2 l1 i j x = Ok l1'.
Proof. intros (r & Hr & Hj)%vget2_inv. eexists. by eapply vset2_some. Qed.
Lemma ext2 {A} (l l' : list (list A)) : map length l = map length l' -> (forall i j, vget2 l i j = vget2 l' i j) -> l = l'.
Proof.
  intros Hs Hg. assert (Hl : length l = length l') by (by rewrite <- (map_length length l), Hs, map_length).
  apply list_eq_same_length with (length l); [done|done|]. intros i x y Hi Hx Hy.
  assert (Hxy : length x = length y).
  { assert (map length l !! i = map length l' !! i) as E by (by rewrite Hs). 
    change ((length <$> l) !! i = (length <$> l') !! i) in E. rewrite !list_lookup_fmap, Hx, Hy in E. simpl in E. by injection E. }
  apply list_eq. intros j. specialize (Hg i j). unfold vget2, vget in Hg. rewrite Hx, Hy in Hg. cbn [rbind] in Hg.
  destruct (x !! j), (y !! j); congruence.
Qed.
Lemma ext1 {A} (l l' : list A) : (forall i, vget l i = vget l' i) -> l = l'.
Proof. intros Hg. apply list_eq. intros j. specialize (Hg j). unfold vget in Hg. destruct (l !! j), (l' !! j); congruence. Qed.

Lemma vset_same {A} (l l' : list A) i x : vset l i x = Ok l' -> vget l' i = Ok x.
Proof. intros (H & ->)%vset_inv. apply vget_ok. by apply list_lookup_insert. Qed.
Lemma vset_ne {A} (l l' : list A) i x j : vset l i x = Ok l' -> j <> i -> vget l' j = vget l j.
Proof. intros (H & ->)%vset_inv Hne. unfold vget. by rewrite list_lookup_insert_ne. Qed.
Lemma vget_lt {A} (l : list A) i x : vget l i = Ok x -> (i < length l)%nat.
Proof. intros H%vget_inv. by eapply lookup_lt_Some. Qed.

(** sizes and constants of a memory *)
Definition shape (m : mem) := (map length (vis (m_sr m)), map length (dist (m_sr m)), map length (par (m_sr m)),
  length (m_tw m), perm (m_sr m)).

Lemma parz_zpar o : parz (zpar o) = o.
Proof. destruct o; simpl; unfold parz; case_decide; try done; [lia|]. by rewrite Nat2Z.id. Qed.
Lemma zpar_parz x : -1 <= x -> zpar (parz x) = x.
Proof. intros H. unfold parz. case_decide; simpl; lia. Qed.

Ltac mput_inv H := unfold mput in H; cbv zeta in H;
  repeat match type of H with
  | (if decide ?P then _ else _) = _ => destruct (decide P); [done|]
  | rbind ?r _ = _ => let l := fresh "l" in let E := fresh "E" in destruct r as [l|] eqn:E; [|done]; cbn [rbind] in H
  end; injection H as <-.

Lemma mput_same m c x m' : mput m c x = Ok m' -> mget m' c = Ok x.
Proof.
  intros H. destruct c; mput_inv H; simpl; try done; try (by eapply vset2_same); try (by eapply vset_same).
  rewrite (vset2_same _ _ _ _ _ E). cbn [rbind]. by rewrite zpar_parz by lia.
Qed.
Lemma mput_ne m c x m' c' : mput m c x = Ok m' -> c' <> c -> mget m' c' = mget m c'.
Proof.
  intros H Hne. destruct c; mput_inv H; destruct c'; simpl; try done;
    try (eapply vset2_ne; [done|]; intros [-> ->]; by apply Hne);
    try (eapply vset_ne; [done|]; intros ->; by apply Hne).
  erewrite vset2_ne; [done..|]. intros [-> ->]; by apply Hne.
Qed.
Lemma mput_shape m c x m' : mput m c x = Ok m' -> shape m' = shape m.
Proof.
  intros H. destruct c; mput_inv H; unfold shape; simpl; try done; try (apply vset2_shape in E; by rewrite E).
  apply vset_inv in E as [_ ->]. by rewrite insert_length.
Qed.
Lemma mput_total m c x m' m1 y : mput m c x = Ok m' -> mget m1 c = Ok y -> exists m1', mput m1 c x = Ok m1'.
Proof.
  intros H Hg. destruct c; mput_inv H; unfold mput; simpl in *; cbv zeta;
    try (destruct (vset2_total (vis (m_sr m)) (vis (m_sr m)) _ _ _ x y Hg) as [l' ->]; eexists; done);
    try (destruct (vset2_total (dist (m_sr m)) (dist (m_sr m)) _ _ _ x y Hg) as [l' ->]; eexists; done);
    try (apply vget_lt in Hg; rewrite vset_ok by done; eexists; done); try (eexists; done).
  rewrite decide_False by done. destruct (vget2 (par (m_sr m1)) v q) as [o|] eqn:Ho; [|done].
  destruct (vset2_total (par (m_sr m)) (par (m_sr m)) _ _ _ (parz x) o Ho) as [l' ->]. eexists; done.
Qed.
Lemma mput_get m c x m' : mput m c x = Ok m' -> exists y, mget m c = Ok y.
Proof.
  intros H. destruct c; mput_inv H; simpl; try (by eexists);
    try (apply vset2_inv in E as (r & y & Hr & Hy & _); eexists; by eapply vget2_some);
    try (apply vset_inv in E as [Hl _]; apply lookup_lt_is_Some_2 in Hl as [y Hy]; eexists; by apply vget_ok).
  apply vset2_inv in E as (r & y & Hr & Hy & _). rewrite (vget2_some _ _ _ _ _ Hr Hy). by eexists.
Qed.
Lemma mem_ext m m' : shape m = shape m' -> (forall c, mget m c = mget m' c) -> m = m'.
Proof.
  destruct m as [[p v d t w pm] tw n k], m' as [[p' v' d' t' w' pm'] tw' n' k']. unfold shape. simpl. intros [= H1 H2 H3 H4 <-] Hg.
  assert (v = v') as <- by (apply ext2; [done|]; intros i j; apply (Hg (CVis i j))).
  assert (d = d') as <- by (apply ext2; [done|]; intros i j; apply (Hg (CDist i j))).
  assert (p = p') as <-.
  { apply ext2; [done|]. intros i j. specialize (Hg (CPar i j)). simpl in Hg.
    destruct (vget2 p i j) as [a|] eqn:Ea, (vget2 p' i j) as [b|] eqn:Eb; cbn [rbind] in Hg; try congruence.
    injection Hg as Hab. f_equal. by rewrite <- (parz_zpar a), Hab, parz_zpar. }
  assert (t = t') as <- by (apply ext1; intros i; apply (Hg (CTot i))).
  assert (w = w') as <- by (apply ext1; intros i; apply (Hg (CQw i))).
  assert (tw = tw') as <- by (apply ext1; intros i; apply (Hg (CTw i))).
  pose proof (Hg CNext) as [= <-]. pose proof (Hg CCount) as [= <-]. done.
Qed.

(** ** a thread running alone up to its next mutex operation *)
Fixpoint exec (p : prog) (m : mem) : res (list act * prog * mem) :=
  match p with
  | Ret | Lock _ | Unlock _ => Ok ([], p, m)
  | Fail x => Err x
  | Get c k => let! x := mget m c in let! (tr, p', m') := exec (k x) m in Ok (AGet c :: tr, p', m')
  | Put c x k => let! m1 := mput m c x in let! (tr, p', m') := exec k m1 in Ok (APut c x :: tr, p', m')
  end.
(** footprint up to the next mutex operation *)
Fixpoint fp (R W : cell -> Prop) (p : prog) : Prop :=
  match p with
  | Ret | Lock _ | Unlock _ | Fail _ => True
  | Get c k => R c /\ forall x, fp R W (k x)
  | Put c x k => W c /\ fp R W k
  end.

(** the result depends on the footprint only, and nothing else changes *)
Lemma exec_agree (R W : cell -> Prop) p : (forall c, W c -> R c) -> fp R W p -> forall m m1 tr p' m',
  (forall c, R c -> mget m1 c = mget m c) -> exec p m = Ok (tr, p', m') ->
  exists m1', exec p m1 = Ok (tr, p', m1') /\ (forall c, R c -> mget m1' c = mget m' c) /\
    (forall c, ~ W c -> mget m1' c = mget m1 c) /\ shape m1' = shape m1.
Proof.
  intros HWR. induction p as [|x|c k IH|c x k IH|k IH|k IH]; intros Hfp m m1 tr p' m' Hag He; simpl in *.
  - injection He as <- <- <-. exists m1. done.
  - done.
  - destruct Hfp as [Hc Hk]. rewrite (Hag _ Hc). destruct (mget m c) as [x|] eqn:Ex; [|done]. cbn [rbind] in *.
    destruct (exec (k x) m) as [[[tr1 p1] m2]|] eqn:E1; [|done]. cbn [rbind] in He. injection He as <- <- <-.
    destruct (IH x (Hk x) m m1 _ _ _ Hag E1) as (m1' & -> & H1 & H2 & H3). cbn [rbind]. exists m1'. done.
  - destruct Hfp as [Hc Hk]. destruct (mput m c x) as [m2|] eqn:Ex; [|done]. cbn [rbind] in *.
    destruct (exec k m2) as [[[tr1 p1] m3]|] eqn:E1; [|done]. cbn [rbind] in He. injection He as <- <- <-.
    destruct (mput_get _ _ _ _ Ex) as [y Hy]. destruct (mput_total m c x m2 m1 y Ex) as [m4 E4]; [by rewrite Hag by auto|].
    rewrite E4. cbn [rbind].
    destruct (IH Hk m2 m4 tr1 p1 m3) as (m1' & -> & H1 & H2 & H3); [|done|].
    { intros c' Hc'. destruct (decide (c' = c)) as [->|Hne].
      - by rewrite (mput_same _ _ _ _ E4), (mput_same _ _ _ _ Ex).
      - rewrite (mput_ne _ _ _ _ _ E4 Hne), (mput_ne _ _ _ _ _ Ex Hne). by apply Hag. }
    cbn [rbind]. exists m1'. split; [done|]. split; [done|]. split.
    + intros c' Hc'. rewrite H2 by done. eapply mput_ne; [done|]. by intros ->.
    + by rewrite H3, (mput_shape _ _ _ _ E4).
  - injection He as <- <- <-. exists m1. done.
  - injection He as <- <- <-. exists m1. done.
Qed.
(** in particular, in the memory itself *)
Lemma exec_frame (R W : cell -> Prop) p m tr p' m' : (forall c, W c -> R c) -> fp R W p -> exec p m = Ok (tr, p', m') ->
  (forall c, ~ W c -> mget m' c = mget m c) /\ shape m' = shape m.
Proof.
  intros HWR Hfp He. destruct (exec_agree R W p HWR Hfp m m tr p' m') as (m1 & E1 & _ & H2 & H3); [done..|].
  rewrite He in E1. injection E1 as <-. done.
Qed.
Lemma fp_mono (R W R' W' : cell -> Prop) p : (forall c, R c -> R' c) -> (forall c, W c -> W' c) -> fp R W p -> fp R' W' p.
Proof. intros HR HW. induction p as [| |c k IH|c x k IH| |]; simpl; try done; intros [Hc Hk]; split; auto. Qed.

Lemma all_ret (ts : list prog) : Forall (fun p => p = Ret) ts \/ exists i p, ts !! i = Some p /\ p <> Ret.
Proof.
  induction ts as [|p ts IH]; [left; constructor|].
  assert (p = Ret \/ p <> Ret) as [->|H] by (destruct p; auto).
  - destruct IH as [IH|(i & p & Hi & Hp)]; [left; by constructor|right; by exists (S i), p].
  - right. by exists 0%nat, p.
Qed.

(** ** threads with separate footprints *)
Section static.
  Context (n : nat) (R W : nat -> cell -> Prop) (m0 mf : mem).
  Context (HWR : forall i c, W i c -> R i c).
  Context (Hdec : forall c, (exists i, (i < n)%nat /\ W i c) \/ forall i, (i < n)%nat -> ~ W i c).
  Context (Hdisj : forall i j c, (i < n)%nat -> (j < n)%nat -> i <> j -> W i c -> ~ R j c).

  Record sinv (s : cst) (bound : nat) : Prop := {
    si_len : length (c_thr s) = n;
    si_lock : c_lock s = None;
    si_shape : shape (c_mem s) = shape mf;
    si_rest : forall c, (forall i, (i < n)%nat -> ~ W i c) -> mget (c_mem s) c = mget mf c;
    si_thr : exists ls, length ls = n /\ sum_list ls = bound /\
      forall i p, c_thr s !! i = Some p -> fp (R i) (W i) p /\ exists tr m', exec p (c_mem s) = Ok (tr, Ret, m') /\
        ls !! i = Some (length tr) /\ forall c, W i c -> mget m' c = mget mf c
  }.

  Lemma sum_list_insert (ls : list nat) i x y : ls !! i = Some x -> (sum_list (<[i := y]> ls) + x = sum_list ls + y)%nat.
  Proof.
    revert i. induction ls as [|z ls IH]; intros [|i]; simpl; try done; [intros [= ->]; lia|]. intros H%IH. lia.
  Qed.

  Lemma sinv_step e s s' k : sinv s k -> cstep e s s' -> exists k', sinv s' k' /\ (k' < k)%nat.
  Proof.
    intros [Hl Hlk Hsh Hr (ls & Hls & Hsum & Hthr)] Hs. destruct Hs as [ts m l i c kk x Hi Hx|ts m l i c x kk m1 Hi Hx|ts m i kk Hi|ts m i kk Hi]; simpl in *.
    - destruct (Hthr _ _ Hi) as ((Hc & Hk) & tr & m' & He & Hti & Hf). simpl in He. rewrite Hx in He. cbn [rbind] in He.
      destruct (exec (kk x) m) as [[[tr1 p1] m2]|] eqn:E1; [|done]. cbn [rbind] in He. injection He as <- -> <-.
      assert (Hin : (i < n)%nat) by (apply lookup_lt_Some in Hi; lia).
      exists (k - 1)%nat. simpl in Hti. pose proof (sum_list_insert ls i _ (length tr1) Hti).
      split; [|lia]. split; simpl; [by rewrite insert_length|done|done|done|].
      exists (<[i := length tr1]> ls). rewrite insert_length. split; [done|]. split; [lia|].
      intros j p Hj. destruct (decide (j = i)) as [->|Hne].
      + rewrite list_lookup_insert in Hj by lia. injection Hj as <-. split; [apply Hk|]. exists tr1, m2.
        split; [done|]. rewrite list_lookup_insert by lia. done.
      + rewrite list_lookup_insert_ne in Hj by done. rewrite list_lookup_insert_ne by done. by apply Hthr.
    - destruct (Hthr _ _ Hi) as ((Hc & Hk) & tr & m' & He & Hti & Hf). simpl in He. rewrite Hx in He. cbn [rbind] in He.
      destruct (exec kk m1) as [[[tr1 p1] m2]|] eqn:E1; [|done]. cbn [rbind] in He. injection He as <- -> <-.
      assert (Hin : (i < n)%nat) by (apply lookup_lt_Some in Hi; lia).
      exists (k - 1)%nat. simpl in Hti. pose proof (sum_list_insert ls i _ (length tr1) Hti).
      split; [|lia]. split; simpl; [by rewrite insert_length|done|by rewrite (mput_shape _ _ _ _ Hx)|..].
      { intros c' Hc'. rewrite (mput_ne _ _ _ _ c' Hx); [by apply Hr|]. intros ->. by apply (Hc' i). }
      exists (<[i := length tr1]> ls). rewrite insert_length. split; [done|]. split; [lia|].
      intros j p Hj. destruct (decide (j = i)) as [->|Hne].
      + rewrite list_lookup_insert in Hj by lia. injection Hj as <-. split; [apply Hk|]. exists tr1, m2.
        split; [done|]. rewrite list_lookup_insert by lia. done.
      + rewrite list_lookup_insert_ne in Hj by done. rewrite list_lookup_insert_ne by done.
        assert (Hjn : (j < n)%nat) by (apply lookup_lt_Some in Hj; lia).
        destruct (Hthr _ _ Hj) as (Hfp & trj & mj & Hej & Htj & Hfj). split; [done|].
        destruct (exec_agree (R j) (W j) p (HWR j) Hfp m m1 trj Ret mj) as (mj' & E' & H1 & _ & _); [|done|].
        { intros c' Hc'. eapply mput_ne; [done|]. intros ->. by eapply (Hdisj i j c). }
        exists trj, mj'. split; [done|]. split; [done|]. intros c' Hc'. rewrite H1 by auto. by apply Hfj.
    - destruct (Hthr _ _ Hi) as (_ & tr & m' & He & _). done.
    - destruct (Hthr _ _ Hi) as (_ & tr & m' & He & _). done.
  Qed.

  Lemma sinv_runs s0 k : sinv s0 k -> forall tr s, runs s0 tr s -> exists k', sinv s k' /\ (k' + length tr <= k)%nat.
  Proof.
    intros H0 tr s H. induction H as [|tr s1 e s2 H IH Hs]; [exists k; split; [done|simpl; lia]|].
    destruct IH as (k1 & H1 & Hle). destruct (sinv_step _ _ _ _ H1 Hs) as (k2 & H2 & Hlt).
    exists k2. split; [done|]. rewrite app_length. simpl. lia.
  Qed.

  Lemma static_ends ts : length ts = n -> shape m0 = shape mf ->
    (forall c, (forall i, (i < n)%nat -> ~ W i c) -> mget m0 c = mget mf c) ->
    (forall i p, ts !! i = Some p -> fp (R i) (W i) p /\ exists tr m', exec p m0 = Ok (tr, Ret, m') /\ forall c, W i c -> mget m' c = mget mf c) ->
    ends ts m0 mf.
  Proof.
    intros Hl Hsh Hr Hts.
    set (ls := (fun p => match exec p m0 with Ok (tr, _, _) => length tr | Err _ => 0%nat end) <$> ts).
    assert (H0 : sinv (start ts m0) (sum_list ls)).
    { split; simpl; [done|done|done|done|]. exists ls. split; [subst ls; by rewrite fmap_length|]. split; [done|].
      intros i p Hi. destruct (Hts i p Hi) as (Hfp & tr & m' & He & Hf). split; [done|]. exists tr, m'. split; [done|]. split; [|done].
      subst ls.
      rewrite list_lookup_fmap, Hi. simpl. by rewrite He. }
    split.
    - exists (sum_list ls). intros tr s H. destruct (sinv_runs _ _ H0 _ _ H) as (k' & _ & ?). lia.
    - intros tr s H. destruct (sinv_runs _ _ H0 _ _ H) as (k' & [HL _ _ _ (ls' & _ & _ & HT)] & _).
      intros (i & j & c & x & k & Hne & Hi & Hj).
      destruct (HT _ _ Hi) as ((Hc & _) & _). assert ((i < n)%nat) by (apply lookup_lt_Some in Hi; lia).
      destruct Hj as [(y & k2 & Hj)|(k2 & Hj)]; destruct (HT _ _ Hj) as ((Hc2 & _) & _); assert ((j < n)%nat) by (apply lookup_lt_Some in Hj; lia);
        apply (Hdisj i j c); auto.
    - intros tr s H. destruct (sinv_runs _ _ H0 _ _ H) as (k' & [HL HLk HSh HR' (ls' & Hls' & _ & HT)] & _).
      destruct (all_ret (c_thr s)) as [Hall|(i & p & Hi & Hp)]; [right|left].
      + destruct s as [ts' m lk]. simpl in *. subst lk.
        assert (ts' = replicate (length ts) Ret) as ->.
        { symmetry. apply replicate_as_elem_of. split; [lia|]. intros p Hp. by rewrite Forall_forall in Hall; apply Hall. }
        f_equal. apply mem_ext; [done|]. intros c. destruct (Hdec c) as [(i & Hi & Hc)|Hno]; [|by apply HR'].
        destruct (HT i Ret) as (_ & tr' & m' & He & _ & Hf); [by apply lookup_replicate_2; lia|].
        simpl in He. injection He as <- <-. by apply Hf.
      + destruct (HT _ _ Hi) as (_ & tr' & m' & He & _ & _). destruct s as [ts' m lk]. simpl in *.
        destruct p as [|x|c k|c x k|k|k]; simpl in He; try done.
        * destruct (mget m c) as [x|] eqn:E; [|done]. eexists _, _. by eapply cs_get.
        * destruct (mput m c x) as [m1|] eqn:E; [|done]. eexists _, _. by eapply cs_put.
  Qed.
End static.
