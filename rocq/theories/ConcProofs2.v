(** Chunks of the parallel sections, and the sections whose threads work on separate chunks. *)
From stdpp Require Import base list numbers gmap.
From Verif Require Import Base ChainModel EmbModel SpecEmb QueueModel PathModel SpecPath PrepProofs ConcModel SpecConc ConcProofs1.
Local Open Scope Z_scope.

(** ** chunks *)
Section chunks.
Local Open Scope nat_scope.
Definition span (c : nat * nat * nat) : list nat := let '(_, a, b) := c in seq a (b - a).

Lemma chunk_loop_facts i a g gm : gm <= i ->
  length (chunk_loop i a g gm) = i /\
  map (fun c => c.1.1) (chunk_loop i a g gm) = rev (seq 0 i) /\
  concat (map span (chunk_loop i a g gm)) = seq a (i * g + gm) /\
  forall c, c ∈ chunk_loop i a g gm -> a <= c.1.2 /\ c.1.2 + g <= c.2 /\ c.2 <= a + (i * g + gm).
Proof.
  revert a gm. induction i as [|i IH]; intros a gm H; simpl.
  - replace gm with 0 by lia. repeat split; try done; intros; by apply elem_of_nil in H0.
  - set (b := a + g + (if decide (0 < gm) then 1 else 0)).
    assert (Hb : b + (i * g + (gm - 1)) = a + (g + i * g + gm) /\ a + g <= b) by (subst b; case_decide; lia).
    destruct (IH b (gm - 1)) as (H1 & H2 & H3 & H4); [lia|]. split; [by rewrite H1|]. split; [|split].
    + rewrite H2. change (rev (seq 1 i) ++ [0]) with (rev (seq 0 (S i))). rewrite seq_S, rev_app_distr. done.
    + rewrite H3. replace (g + i * g + gm) with ((b - a) + (i * g + (gm - 1))) by lia.
      rewrite (seq_app (b - a)). do 2 f_equal. lia.
    + intros c [->|Hc]%elem_of_cons; simpl; [lia|]. apply H4 in Hc. lia.
Qed.
Lemma chunks_facts n t : 0 < t -> t <= n ->
  length (chunks n t) = t /\ map (fun c => c.1.1) (chunks n t) = rev (seq 0 t) /\
  concat (map span (chunks n t)) = seq 0 n /\ forall c, c ∈ chunks n t -> c.1.2 < c.2 /\ c.2 <= n.
Proof.
  intros Ht Hn. unfold chunks. pose proof (Nat.mod_upper_bound n t ltac:(lia)). pose proof (Nat.div_mod_eq n t).
  destruct (chunk_loop_facts t 0 (n / t) (n mod t)) as (H1 & H2 & H3 & H4); [lia|].
  assert (1 <= n / t) by (apply Nat.div_le_lower_bound; lia).
  split; [done|]. split; [done|]. split; [rewrite H3; f_equal; lia|]. intros c Hc. apply H4 in Hc. lia.
Qed.

Lemma concat_index {A} (l : list (list A)) x : x ∈ concat l <-> exists i r, l !! i = Some r /\ x ∈ r.
Proof.
  induction l as [|r l IH]; simpl.
  - split; [by intros ?%elem_of_nil|intros (i & r & H & _); by destruct i].
  - rewrite elem_of_app, IH. split.
    + intros [H|(i & r' & H & Hx)]; [by exists 0, r|by exists (S i), r'].
    + intros ([|i] & r' & H & Hx); simpl in H; [injection H as <-; by left|]. right. by exists i, r'.
Qed.
Lemma NoDup_concat_disj {A} (l : list (list A)) i j r r' x : NoDup (concat l) -> l !! i = Some r -> l !! j = Some r' -> x ∈ r -> x ∈ r' -> i = j.
Proof.
  revert i j. induction l as [|z l IH]; intros [|i] [|j] Hn Hi Hj Hx Hy; simpl in *; try done; apply NoDup_app in Hn as (Hz & Hd & Hn).
  - injection Hi as <-. exfalso. apply (Hd x Hx). apply concat_index. eauto.
  - injection Hj as <-. exfalso. apply (Hd x Hy). apply concat_index. eauto.
  - f_equal. eauto.
Qed.
Lemma span_in i a b q : q ∈ span (i, a, b) <-> a <= q < b.
Proof. unfold span. rewrite elem_of_seq. lia. Qed.
End chunks.

(** ** words that exist can be written *)
Definition plain (c : cell) : Prop := match c with CPar _ _ => False | _ => True end.
Lemma put_ok m c x y : plain c -> mget m c = Ok y -> exists m', mput m c x = Ok m'.
Proof.
  intros Hp Hg. destruct c; simpl in *; try done; cbv zeta; try (by eexists);
    try (apply vget_lt in Hg; rewrite vset_ok by done; by eexists);
    (apply vget2_inv in Hg as (r & Hr & Hq); rewrite (vset2_some _ _ _ _ _ _ Hr Hq); by eexists).
Qed.

(** [exec p m] passes through memory [m1] with [K] left to run *)
Definition leads (p : prog) (m : mem) (K : prog) (m1 : mem) : Prop :=
  exists tr0, forall tr p' m', exec K m1 = Ok (tr, p', m') -> exec p m = Ok (tr0 ++ tr, p', m').
Lemma leads_refl p m : leads p m p m.
Proof. exists []. done. Qed.
Lemma leads_trans p m K m1 K' m2 : leads p m K m1 -> leads K m1 K' m2 -> leads p m K' m2.
Proof. intros [t1 H1] [t2 H2]. exists (t1 ++ t2). intros tr p' m' H. rewrite <- app_assoc. by apply H1, H2. Qed.
Lemma leads_put c x k m m1 : mput m c x = Ok m1 -> leads (Put c x k) m k m1.
Proof. intros H. exists [APut c x]. intros tr p' m' He. simpl. rewrite H. cbn [rbind]. rewrite He. done. Qed.
Lemma leads_get c k m x : mget m c = Ok x -> leads (Get c k) m (k x) m.
Proof. intros H. exists [AGet c]. intros tr p' m' He. simpl. rewrite H. cbn [rbind]. rewrite He. done. Qed.
Lemma leads_ret p m m1 : leads p m Ret m1 -> exists tr, exec p m = Ok (tr, Ret, m1).
Proof. intros [t H]. eexists. by apply H. Qed.

(** a loop that rewrites one word per index *)
Definition upd (m : mem) (c : cell) (x : Z) (m1 : mem) : Prop :=
  mget m1 c = Ok x /\ (forall c', c' <> c -> mget m1 c' = mget m c') /\ shape m1 = shape m.
Lemma upd_put m c x m1 : mput m c x = Ok m1 -> upd m c x m1.
Proof. intros H. split; [by eapply mput_same|]. split; [intros c'; by eapply mput_ne|by eapply mput_shape]. Qed.
Lemma upd_refl m c x : mget m c = Ok x -> upd m c x m.
Proof. done. Qed.

Lemma leads_loop (C : nat -> cell) (h : nat -> Z -> res Z) (Q : nat -> (unit -> prog) -> prog) (m0 : mem) l :
  (forall q q', C q = C q' -> q = q') -> NoDup l ->
  (forall q m K y x, q ∈ l -> (forall c, (forall q', c <> C q') -> mget m c = mget m0 c) -> mget m (C q) = Ok y -> h q y = Ok x ->
     exists m1, leads (Q q K) m (K tt) m1 /\ upd m (C q) x m1) ->
  forall m K, (forall c, (forall q', c <> C q') -> mget m c = mget m0 c) -> (forall q, q ∈ l -> exists y x, mget m (C q) = Ok y /\ h q y = Ok x) ->
  exists m1, leads (foldP (fun (_ : unit) q K => Q q K) l tt K) m (K tt) m1 /\
    (forall q, q ∈ l -> exists y, mget m (C q) = Ok y /\ mget m1 (C q) = h q y) /\
    (forall c, (forall q, q ∈ l -> c <> C q) -> mget m1 c = mget m c) /\ shape m1 = shape m.
Proof.
  intros Hinj. induction l as [|q l IH]; intros Hnd Hst m K Ho Hl; simpl.
  - exists m. split; [apply leads_refl|]. split; [by intros q ?%elem_of_nil|done].
  - apply NoDup_cons in Hnd as [Hq Hnd]. destruct (Hl q) as (y & x & Hy & Hx); [left|].
    destruct (Hst q m (fun s' => foldP (fun (_ : unit) q K => Q q K) l s' K) y x) as (m2 & L2 & U1 & U2 & U3); [left|done..|].
    destruct (IH Hnd) with (m := m2) (K := K) as (m1 & L & H1 & H2 & H3).
    { intros q' m' K' y' x' Hq'. apply Hst. by right. }
    { intros c Hc. rewrite U2 by apply Hc. by apply Ho. }
    { intros q' Hq'. destruct (Hl q') as (y' & x' & Hy' & Hx'); [by right|]. exists y', x'. split; [|done].
      rewrite U2; [done|]. intros E%Hinj. by subst. }
    exists m1. split; [by eapply leads_trans|]. split; [|split].
    + intros q' [->|Hq']%elem_of_cons.
      * exists y. split; [done|]. rewrite H2, U1; [done|]. intros q' Hq' E%Hinj. by subst.
      * destruct (H1 q' Hq') as (y' & Hy' & E). exists y'. split; [|done]. rewrite U2 in Hy'; [done|]. intros E'%Hinj. by subst.
    + intros c Hc. rewrite H2 by (intros q' Hq'; apply Hc; by right). apply U2. apply Hc. left.
    + by rewrite H3.
Qed.
(** the same in the model *)
Lemma foldM_point (h : nat -> Z -> res Z) (f : list Z -> nat -> res (list Z)) l (N : nat) : NoDup l ->
  (forall t q t', q ∈ l -> length t = N -> f t q = Ok t' -> exists y x, t !! q = Some y /\ h q y = Ok x /\ t' = <[q := x]> t) ->
  forall t t', length t = N -> foldM f l t = Ok t' -> length t' = length t /\
    (forall q, q ∈ l -> exists y x, t !! q = Some y /\ h q y = Ok x /\ t' !! q = Some x) /\ (forall q, q ∉ l -> t' !! q = t !! q).
Proof.
  induction l as [|q l IH]; intros Hnd Hf t t' HN H; cbn [foldM] in H.
  - injection H as <-. split; [done|]. split; [by intros q ?%elem_of_nil|done].
  - apply NoDup_cons in Hnd as [Hq Hnd]. destruct (f t q) as [t1|] eqn:E1; [|done]. cbn [rbind] in H.
    destruct (Hf t q t1) as (y & x & Hy & Hx & ->); [left|done|done|].
    destruct (IH Hnd) with (3 := H) as (H1 & H2 & H3); [intros t2 q' t3 Hq'; apply Hf; by right|by rewrite insert_length|].
    rewrite insert_length in H1. split; [done|]. split.
    + intros q' [->|Hq']%elem_of_cons.
      * exists y, x. split; [done|]. split; [done|]. rewrite H3 by done. apply list_lookup_insert. by eapply lookup_lt_Some.
      * destruct (H2 q' Hq') as (y' & x' & Hy' & Hx' & E'). exists y', x'. rewrite list_lookup_insert_ne in Hy'; [done|]. intros ->. done.
    + intros q' Hq'. rewrite H3 by (intros ?; apply Hq'; by right). apply list_lookup_insert_ne. intros ->. apply Hq'. left.
Qed.

Lemma fp_foldP {S A} (R W : cell -> Prop) (f : S -> A -> (S -> prog) -> prog) l :
  (forall s x K, x ∈ l -> (forall s', fp R W (K s')) -> fp R W (f s x K)) ->
  forall s K, (forall s', fp R W (K s')) -> fp R W (foldP f l s K).
Proof.
  induction l as [|x l IH]; intros Hf s K HK; simpl; [apply HK|]. apply Hf; [left|]. intros s'. apply IH; [|done].
  intros s1 y K1 Hy. apply Hf. by right.
Qed.
Lemma fp_liftP {A} (R W : cell -> Prop) (r : res A) K : (forall x, r = Ok x -> fp R W (K x)) -> fp R W (liftP r K).
Proof. intros H. destruct r; simpl; [by apply H|done]. Qed.

(** ** the static sections *)
Section sections.
Context (e : env) (em : emb) (wbd : Z) (nbrs : list nat) (u : nat) (nt : nat).
Notation n := (nq (pb e)).
Context (Hnt : (0 < nt)%nat) (Hn : (nt <= n)%nat).

Lemma chunk_at i c : chunks n nt !! i = Some c -> (i < nt)%nat /\ c.1.1 = (nt - 1 - i)%nat /\ (c.1.2 < c.2 <= n)%nat.
Proof.
  intros Hi. destruct (chunks_facts n nt Hnt Hn) as (H1 & H2 & H3 & H4).
  assert (i < nt)%nat by (rewrite <- H1; by eapply lookup_lt_Some). split; [done|]. split.
  - assert (E : ((fun c => c.1.1) <$> chunks n nt) !! i = Some c.1.1) by (by rewrite list_lookup_fmap, Hi).
    change (fmap (M := list)) with (@map (nat * nat * nat) nat) in E. rewrite H2 in E.
    rewrite rev_alt in E. change (rev_append (seq 0 nt) []) with (reverse (seq 0 nt)) in E.
    rewrite reverse_lookup in E by (rewrite seq_length; lia).
    rewrite seq_length in E. apply lookup_seq in E as [E _]. lia.
  - destruct (H4 c); [by eapply elem_of_list_lookup_2|]. lia.
Qed.
Lemma chunk_of q : (q < n)%nat -> exists i c, chunks n nt !! i = Some c /\ (c.1.2 <= q < c.2)%nat.
Proof.
  intros Hq. destruct (chunks_facts n nt Hnt Hn) as (H1 & H2 & H3 & H4).
  assert (Hin : q ∈ seq 0 n) by (apply elem_of_seq; lia). rewrite <- H3 in Hin. apply concat_index in Hin as (i & r & Hi & Hr).
  change (map span (chunks n nt)) with (span <$> chunks n nt) in Hi. rewrite list_lookup_fmap in Hi.
  destruct (chunks n nt !! i) as [[[j a] b]|] eqn:E; [|done]. simpl in Hi. injection Hi as <-.
  exists i, (j, a, b). split; [done|]. apply (span_in j a b q) in Hr. done.
Qed.
Lemma chunk_disj i j c c' q : chunks n nt !! i = Some c -> chunks n nt !! j = Some c' -> (c.1.2 <= q < c.2)%nat -> (c'.1.2 <= q < c'.2)%nat -> i = j.
Proof.
  intros Hi Hj Hq Hq'. destruct (chunks_facts n nt Hnt Hn) as (H1 & H2 & H3 & H4).
  destruct c as [[k a] b], c' as [[k' a'] b']. simpl in *.
  eapply (NoDup_concat_disj (map span (chunks n nt)) i j (span (k, a, b)) (span (k', a', b')) q).
  - rewrite H3. apply NoDup_seq.
  - change (map span (chunks n nt)) with (span <$> chunks n nt). by rewrite list_lookup_fmap, Hi.
  - change (map span (chunks n nt)) with (span <$> chunks n nt). by rewrite list_lookup_fmap, Hj.
  - by apply span_in.
  - by apply span_in.
Qed.

(** phase 1 *)
Lemma max_list_spec l m : max_list l = Ok m <-> m ∈ l /\ forall x, x ∈ l -> x <= m.
Proof.
  unfold max_list. destruct l as [|y l]; [split; [done|intros [H _]; by apply elem_of_nil in H]|].
  assert (H : forall l y, foldl Z.max y l ∈ y :: l /\ forall x, x ∈ y :: l -> x <= foldl Z.max y l).
  { clear. induction l as [|z l IH]; intros y; simpl.
    - split; [left|]. intros x Hx%elem_of_list_singleton. lia.
    - destruct (IH (Z.max y z)) as [H1 H2]. split.
      + apply elem_of_cons in H1 as [H1|H1]; [rewrite H1|by right; right].
        destruct (Z.max_spec y z) as [[_ ->]|[_ ->]]; [by right; left|by left].
      + intros x Hx. rewrite !elem_of_cons in Hx. pose proof (H2 (Z.max y z) ltac:(left)).
        destruct Hx as [->|[->|Hx]]; [lia|lia|]. apply H2. by right. }
  destruct (H l y) as [H1 H2]. split.
  - intros [= <-]. done.
  - intros [H3 H4]. f_equal. apply Z.le_antisymm; [by apply H4|by apply H2].
Qed.
Lemma max_in a b : (a < b <= length (eweight em))%nat -> exists w, max_weight_in em a b = Ok w /\
  (exists q, (a <= q < b)%nat /\ eweight em !! q = Some w) /\ forall q x, (a <= q < b)%nat -> eweight em !! q = Some x -> x <= w.
Proof.
  intros H. unfold max_weight_in. change (match take (b - a) (drop a (eweight em)) with [] => Err UB | x :: l => Ok (foldl Z.max x l) end)
    with (max_list (take (b - a) (drop a (eweight em)))).
  destruct (max_list (take (b - a) (drop a (eweight em)))) as [w|] eqn:E.
  - exists w. split; [done|]. apply max_list_spec in E as [H1 H2]. split.
    + apply elem_of_list_lookup in H1 as [i Hi]. apply lookup_take_Some in Hi as [Hi Hl]. rewrite lookup_drop in Hi.
      exists (a + i)%nat. split; [lia|done].
    + intros q x Hq Hx. apply H2. apply elem_of_list_lookup. exists (q - a)%nat. rewrite lookup_take by lia. rewrite lookup_drop.
      by replace (a + (q - a))%nat with q by lia.
  - exfalso. destruct (take (b - a) (drop a (eweight em))) eqn:E2; [|done].
    apply (f_equal length) in E2. rewrite take_length, drop_length in E2. simpl in E2. lia.
Qed.

Lemma phase1 m0 mw : length (m_tw m0) = nt -> (n <= length (eweight em))%nat -> max_weight (pb e) em = Ok mw ->
  exists tw, ends (map (max_P em) (chunks n nt)) m0 (mkMem (m_sr m0) tw (m_next m0) (m_count m0)) /\ length tw = nt /\ max_list tw = Ok mw.
Proof.
  intros Htw Hew Hmw.
  set (g := fun i => match chunks n nt !! (nt - 1 - i)%nat with Some c => match max_weight_in em c.1.2 c.2 with Ok w => w | Err _ => 0 end | None => 0 end).
  set (tw := g <$> seq 0 nt). assert (Hl : length tw = nt) by (subst tw; by rewrite fmap_length, seq_length).
  assert (Hat : forall i c, chunks n nt !! i = Some c -> exists w, max_weight_in em c.1.2 c.2 = Ok w /\ tw !! c.1.1 = Some w).
  { intros i c Hi. destruct (chunk_at _ _ Hi) as (H1 & H2 & H3). destruct (max_in c.1.2 c.2) as (w & Hw & _); [lia|].
    exists w. split; [done|]. subst tw. rewrite list_lookup_fmap, lookup_seq_lt by lia. simpl. f_equal. subst g. simpl.
    replace (nt - 1 - c.1.1)%nat with i by lia. by rewrite Hi, Hw. }
  exists tw. split; [|split; [done|]].
  - apply (static_ends nt (fun i c => c = CTw (nt - 1 - i)) (fun i c => c = CTw (nt - 1 - i))).
    + done.
    + intros c. destruct c; try (right; intros i Hi E; discriminate).
      destruct (decide (i < nt)%nat) as [Hi|Hi].
      * left. exists (nt - 1 - i)%nat. split; [lia|]. f_equal. lia.
      * right. intros j Hj [= E]. lia.
    + intros i j c Hi Hj Hne -> [= E]. lia.
    + rewrite map_length. by apply chunks_facts.
    + unfold shape. simpl. by rewrite Htw, Hl.
    + intros c Hc. destruct c; simpl; try done.
      assert (nt <= i)%nat. { destruct (decide (nt <= i)%nat); [done|]. exfalso. apply (Hc (nt - 1 - i)%nat); [lia|]. f_equal. lia. }
      unfold vget. by rewrite !lookup_ge_None_2 by lia.
    + intros i p Hp. rewrite list_lookup_fmap in Hp. destruct (chunks n nt !! i) as [c|] eqn:Ec; [|done]. simpl in Hp. injection Hp as <-.
      destruct (chunk_at _ _ Ec) as (H1 & H2 & H3). destruct (Hat _ _ Ec) as (w & Hw & Hx).
      destruct c as [[k a] b]. simpl in *. subst k. rewrite Hw. simpl. split; [done|].
      rewrite vset_ok by lia. cbn [rbind]. eexists _, _. split; [done|]. intros c ->. simpl.
      rewrite (vget_ok _ _ _ Hx). apply vget_ok. apply list_lookup_insert. lia.
  - apply max_list_spec. assert (Hm : max_list (take n (eweight em)) = Ok mw) by exact Hmw. apply max_list_spec in Hm as [M1 M2].
    assert (Htw' : forall i, (i < nt)%nat -> exists c w, chunks n nt !! (nt - 1 - i)%nat = Some c /\ max_weight_in em c.1.2 c.2 = Ok w /\ tw !! i = Some w).
    { intros i Hi. destruct (lookup_lt_is_Some_2 (chunks n nt) (nt - 1 - i)) as [c Hc].
      { destruct (chunks_facts n nt Hnt Hn) as (-> & _). lia. }
      destruct (Hat _ _ Hc) as (w & Hw & Hx). destruct (chunk_at _ _ Hc) as (H1 & H2 & H3). exists c, w. split; [done|]. split; [done|].
      rewrite <- Hx. f_equal. lia. }
    split.
    + apply elem_of_list_lookup in M1 as [q Hq]. apply lookup_take_Some in Hq as [Hq Hqn].
      destruct (chunk_of q Hqn) as (i & c & Hc & Hr). destruct (Hat _ _ Hc) as (w & Hw & Hx). destruct (chunk_at _ _ Hc) as (H1 & H2 & H3).
      destruct (max_in c.1.2 c.2) as (w' & Hw' & (q' & Hq' & Hv') & Hle); [lia|]. rewrite Hw in Hw'. injection Hw' as <-.
      assert (w = mw) as ->.
      { apply Z.le_antisymm; [|exact (Hle q mw Hr Hq)]. apply M2. apply elem_of_list_lookup. exists q'. rewrite lookup_take by lia. done. }
      by eapply elem_of_list_lookup_2.
    + intros x Hx. apply elem_of_list_lookup in Hx as [i Hi]. assert (i < nt)%nat by (rewrite <- Hl; by eapply lookup_lt_Some).
      destruct (Htw' i) as (c & w & Hc & Hw & Hx); [done|]. rewrite Hi in Hx. injection Hx as <-. destruct (chunk_at _ _ Hc) as (H1 & H2 & H3).
      destruct (max_in c.1.2 c.2) as (w' & Hw' & (q' & Hq' & Hv') & Hle); [lia|]. rewrite Hw in Hw'. injection Hw' as <-.
      apply M2. apply elem_of_list_lookup. exists q'. rewrite lookup_take by lia. done.
Qed.

(** cells of a chunk *)
Definition in_chunk (i q : nat) : Prop := exists c, chunks n nt !! i = Some c /\ (c.1.2 <= q < c.2)%nat.
Lemma in_chunk_disj i j q : in_chunk i q -> in_chunk j q -> i = j.
Proof. intros (c & Hc & Hq) (c' & Hc' & Hq'). by eapply chunk_disj. Qed.
Lemma in_chunk_ex q : (exists i, (i < nt)%nat /\ in_chunk i q) <-> (q < n)%nat.
Proof.
  split.
  - intros (i & _ & c & Hc & Hq). apply chunk_at in Hc. lia.
  - intros Hq. destruct (chunk_of q Hq) as (i & c & Hc & Hr). exists i. split; [|by exists c]. apply chunk_at in Hc as (? & _). done.
Qed.

Lemma weights_vals b b' : compute_qubit_weights e em b = Ok b' -> exists mw, max_weight (pb e) em = Ok mw /\
  b' = mkSr (par b) (vis b) (dist b) (total b) (qw b') (perm b) /\ length (qw b') = length (qw b) /\
  (forall q, (q < n)%nat -> exists y w, qw b !! q = Some y /\ vget (eweight em) q = Ok w /\ qw b' !! q = Some (weight_of e mw w)) /\
  (forall q, (n <= q)%nat -> qw b' !! q = qw b !! q).
Proof.
  unfold compute_qubit_weights. destruct (max_weight (pb e) em) as [mw|]; [|done]. cbn [rbind]. intros H.
  destruct (foldM _ _ _) as [q'|] eqn:E in H; [|done]. cbn [rbind] in H. injection H as <-. exists mw. split; [done|]. split; [done|]. simpl.
  destruct (foldM_point (fun q _ => let! w := vget (eweight em) q in Ok (weight_of e mw w)) (fun acc q => let! w := vget (eweight em) q in vset acc q (weight_of e mw w))
    _ (length (qw b)) (NoDup_seq 0 n)) with (3 := E) as (H1 & H2 & H3); [|done|].
  - intros t q t' Hq _ Ht. destruct (vget (eweight em) q) as [w|]; [|done]. cbn [rbind] in *.
    apply vset_inv in Ht as [Hl ->]. apply lookup_lt_is_Some_2 in Hl as [y Hy]. by exists y, (weight_of e mw w).
  - split; [done|]. split.
    + intros q Hq. destruct (H2 q) as (y & x & Hy & Hx & Ht); [apply elem_of_seq; lia|].
      destruct (vget (eweight em) q) as [w|] eqn:Ew; [|done]. cbn [rbind] in Hx. injection Hx as <-. by exists y, w.
    + intros q Hq. apply H3. rewrite elem_of_seq. lia.
Qed.
Lemma distances_vals t t' : prepare_distances (pb e) t u = Ok t' -> length t' = length t /\
  forall q, (q < length t)%nat -> exists x, dist_init (pb e) u q = Ok x /\ t' !! q = Some x.
Proof.
  unfold prepare_distances, dist_init. destruct (masks (pb e)) as [ms|].
  - destruct (vget ms u) as [mu|] eqn:Eu; [|done]. cbn [rbind]. case_decide as Hd; [|done]. intros [= <-].
    split; [by rewrite map_length, take_length, Nat.min_l|]. intros q Hq.
    destruct (lookup_lt_is_Some_2 mu q) as [x Hx]; [lia|]. unfold vget2. rewrite Eu. cbn [rbind]. rewrite (vget_ok _ _ _ Hx). cbn [rbind].
    eexists. split; [done|]. change (map ?f ?l) with (f <$> l). rewrite list_lookup_fmap, lookup_take by done. by rewrite Hx.
  - intros [= <-]. split; [by rewrite replicate_length|]. intros q Hq. exists 0. split; [done|]. by apply lookup_replicate_2.
Qed.

Lemma phase2 m0 mw b1 t : length (qw (m_sr m0)) = n -> length (total (m_sr m0)) = n -> max_weight (pb e) em = Ok mw ->
  compute_qubit_weights e em (m_sr m0) = Ok b1 -> prepare_distances (pb e) (total b1) u = Ok t ->
  ends (map (weights_P e mw em u) (chunks n nt)) m0 (set_m m0 (set_total b1 t)).
Proof.
  intros Hq Ht Hmw H1 H2. destruct (weights_vals _ _ H1) as (mw' & Hmw' & Eb & L1 & V1 & V1').
  rewrite Hmw in Hmw'. injection Hmw' as <-. assert (Et : total b1 = total (m_sr m0)) by (by rewrite Eb).
  rewrite Et in H2. destruct (distances_vals _ _ H2) as (L2 & V2). rewrite Ht in V2.
  apply (static_ends nt (fun i c => exists q, in_chunk i q /\ (c = CQw q \/ c = CTot q)) (fun i c => exists q, in_chunk i q /\ (c = CQw q \/ c = CTot q))).
  - done.
  - intros c. destruct c; try (right; intros ? _ (q' & _ & [?|?]); discriminate).
    + destruct (decide (q < n)%nat) as [Hl|Hl].
      * left. apply in_chunk_ex in Hl as (i & Hi & Hc). exists i. split; [done|]. exists q. auto.
      * right. intros i Hi (q' & Hc & [E|E]); [discriminate|]. injection E as <-. apply Hl, in_chunk_ex. eauto.
    + destruct (decide (q < n)%nat) as [Hl|Hl].
      * left. apply in_chunk_ex in Hl as (i & Hi & Hc). exists i. split; [done|]. exists q. auto.
      * right. intros i Hi (q' & Hc & [E|E]); [|discriminate]. injection E as <-. apply Hl, in_chunk_ex. eauto.
  - intros i j c Hi Hj Hne (q & Hc & E) (q' & Hc' & E'). apply Hne, (in_chunk_disj i j q); [done|].
    destruct E as [->| ->], E' as [E'|E']; try discriminate; by injection E' as <-.
  - rewrite map_length. by apply chunks_facts.
  - rewrite Eb. done.
  - intros c Hc. rewrite Eb. destruct c; simpl; try done; unfold vget.
    + assert (~ (q < n)%nat) by (intros (i & Hi & Hq')%in_chunk_ex; apply (Hc i Hi); eauto). rewrite !lookup_ge_None_2 by lia. done.
    + assert (~ (q < n)%nat) by (intros (i & Hi & Hq')%in_chunk_ex; apply (Hc i Hi); eauto). rewrite !lookup_ge_None_2 by lia. done.
  - intros i p Hp. change (map ?f ?l) with (f <$> l) in Hp. rewrite list_lookup_fmap in Hp. destruct (chunks n nt !! i) as [c|] eqn:Ec; [|done].
    simpl in Hp. injection Hp as <-. destruct (chunk_at _ _ Ec) as (G1 & _ & G3). destruct c as [[k a] b]. simpl in G3. unfold weights_P.
    assert (Hin : forall q, q ∈ seq a (b - a) <-> (a <= q < b)%nat) by (intros q; rewrite elem_of_seq; lia).
    assert (Hic : forall q, q ∈ seq a (b - a) -> in_chunk i q) by (intros q Hq'%Hin; by exists (k, a, b)).
    split.
    + apply fp_foldP.
      * intros s q K Hq' HK. apply fp_liftP. intros w _. simpl. split; [exists q; split; [by apply Hic|by left]|apply HK].
      * intros s. apply fp_foldP; [|done].
        intros s' q K Hq' HK. apply fp_liftP. intros w _. simpl. split; [exists q; split; [by apply Hic|by right]|apply HK].
    + destruct (leads_loop CQw (fun q _ => let! w := vget (eweight em) q in Ok (weight_of e mw w))
        (fun q K => liftP (vget (eweight em) q) (fun w => Put (CQw q) (weight_of e mw w) (K tt))) m0 (seq a (b - a))) with (m := m0)
        (K := fun _ : unit => foldP (fun (_ : unit) q K => liftP (dist_init (pb e) u q) (fun x => Put (CTot q) x (K tt))) (seq a (b - a)) tt (fun _ => Ret))
        as (m1 & Ld1 & A1 & A2 & A3).
      { by intros q q' [= ->]. } { apply NoDup_seq. }
      { intros q m K y x Hq' _ Hy Hx. destruct (vget (eweight em) q) as [w|]; [|done]. cbn [rbind liftP] in *. injection Hx as <-.
        destruct (put_ok m (CQw q) (weight_of e mw w) y) as [m1 E1]; [done|done|]. exists m1. split; [by apply leads_put|by apply upd_put]. }
      { done. }
      { intros q Hq'%Hin. destruct (V1 q) as (y & w & Hy & Hw & _); [lia|]. exists y, (weight_of e mw w). rewrite Hw. split; [|done]. by apply vget_ok. }
      destruct (leads_loop CTot (fun q _ => dist_init (pb e) u q)
        (fun q K => liftP (dist_init (pb e) u q) (fun x => Put (CTot q) x (K tt))) m1 (seq a (b - a))) with (m := m1) (K := fun _ : unit => Ret)
        as (m2 & Ld2 & B1 & B2 & B3).
      { by intros q q' [= ->]. } { apply NoDup_seq. }
      { intros q m K y x Hq' _ Hy Hx. rewrite Hx. cbn [liftP].
        destruct (put_ok m (CTot q) x y) as [m2 E1]; [done|done|]. exists m2. split; [by apply leads_put|by apply upd_put]. }
      { done. }
      { intros q Hq'%Hin. destruct (V2 q) as (x & Hx & _); [lia|]. destruct (lookup_lt_is_Some_2 (total (m_sr m0)) q) as [y Hy]; [lia|].
        exists y, x. split; [|done]. rewrite A2 by (intros; discriminate). by apply vget_ok. }
      destruct (leads_ret _ _ _ (leads_trans _ _ _ _ _ _ Ld1 Ld2)) as [tr Etr]. exists tr, m2. split; [exact Etr|].
      intros c (q & Hc & Hcq). destruct Hc as (c' & Ec' & Hr). rewrite Ec in Ec'. injection Ec' as <-. simpl in Hr.
      destruct Hcq as [-> | ->].
      * rewrite B2 by (intros; discriminate). destruct (A1 q) as (y & Hy & ->); [by apply Hin|].
        destruct (V1 q) as (y' & w & Hy' & Hw & Hv); [lia|]. rewrite Hw. simpl. symmetry. by apply vget_ok.
      * destruct (B1 q) as (y & Hy & ->); [by apply Hin|]. destruct (V2 q) as (x & -> & Hx); [lia|]. simpl. symmetry. by apply vget_ok.
Qed.

(** phase 4 *)
Definition adst (b : search) (v q : nat) (y : Z) : res Z :=
  let! s := vget2 (vis b) v q in
  let! d := vget2 (dist b) v q in
  let! ew := vget (eweight em) q in
  if decide (s = 1 /\ y <> max_distance /\ reservedb (pb e) q = false /\ d <> max_distance /\ ew < wbd) then dadd y d else Ok max_distance.
Lemma acc_dist_vals v b b' : accumulate_dist (pb e) em wbd v b = Ok b' -> b' = set_total b (total b') /\ length (total b') = length (total b) /\
  (forall q, (q < n)%nat -> exists y x, total b !! q = Some y /\ adst b v q y = Ok x /\ total b' !! q = Some x) /\
  (forall q, (n <= q)%nat -> total b' !! q = total b !! q).
Proof.
  unfold accumulate_dist. destruct (vget (dist b) v) as [dv|] eqn:Ed; [|done]. cbn [rbind].
  destruct (vget (vis b) v) as [vv|] eqn:Ev; [|done]. cbn [rbind]. intros H.
  match type of H with (let! t := foldM ?f _ _ in _) = _ => set (F := f) in H end.
  destruct (foldM F _ _) as [t|] eqn:E; [|done]. cbn [rbind] in H. injection H as <-. split; [done|]. simpl.
  destruct (foldM_point (adst b v) F _ (length (total b)) (NoDup_seq 0 n)) with (3 := E) as (H1 & H2 & H3); [|done|].
  - intros t1 q t' Hq _ Ht. unfold F in Ht. unfold adst, vget2. rewrite Ed, Ev. cbn [rbind].
    destruct (vget vv q) as [s|]; [|done]. cbn [rbind] in *.
    destruct (vget t1 q) as [y|] eqn:Ey; [|done]. apply vget_inv in Ey. cbn [rbind] in *.
    destruct (vget dv q) as [d|]; [|done]. cbn [rbind] in *.
    destruct (vget (eweight em) q) as [ew|]; [|done]. cbn [rbind] in *. exists y.
    case_decide.
    + destruct (dadd y d) as [x|]; [|done]. cbn [rbind] in *. exists x. apply vset_inv in Ht as [_ ->]. done.
    + exists max_distance. apply vset_inv in Ht as [_ ->]. done.
  - split; [done|]. split; [|intros q Hq; apply H3; rewrite elem_of_seq; lia]. intros q Hq. apply H2. apply elem_of_seq. lia.
Qed.
Lemma accum_leads a b v sb sb' m K : (a <= b <= n)%nat -> accumulate_dist (pb e) em wbd v sb = Ok sb' ->
  (forall q, (a <= q < b)%nat -> mget m (CTot q) = vget (total sb) q) ->
  (forall v q, mget m (CVis v q) = vget2 (vis sb) v q /\ mget m (CDist v q) = vget2 (dist sb) v q) ->
  exists m1, leads (accum_P (pb e) em wbd v a b K) m K m1 /\ (forall q, (a <= q < b)%nat -> mget m1 (CTot q) = vget (total sb') q) /\
    (forall c, (forall q, (a <= q < b)%nat -> c <> CTot q) -> mget m1 c = mget m c) /\ shape m1 = shape m.
Proof.
  intros Hab H Ht Ho. destruct (acc_dist_vals _ _ _ H) as (Eb & L & V & _).
  assert (Hin : forall q, q ∈ seq a (b - a) <-> (a <= q < b)%nat) by (intros q; rewrite elem_of_seq; lia).
  destruct (leads_loop CTot (adst sb v) (fun q K => Get (CVis v q) (fun s =>
    Get (CTot q) (fun t => Get (CDist v q) (fun d => liftP (vget (eweight em) q) (fun ew =>
    if decide (s = 1 /\ t <> max_distance /\ reservedb (pb e) q = false /\ d <> max_distance /\ ew < wbd)
    then liftP (dadd t d) (fun x => Put (CTot q) x (K tt)) else Put (CTot q) max_distance (K tt)))))) m (seq a (b - a)))
    with (m := m) (K := fun _ : unit => K) as (m1 & Ld & A1 & A2 & A3).
  - by intros q q' [= ->].
  - apply NoDup_seq.
  - intros q m' K' y x Hq Hm' Hy Hx. unfold adst in Hx.
    destruct (vget2 (vis sb) v q) as [s|] eqn:Es; [|done]. cbn [rbind] in Hx.
    destruct (vget2 (dist sb) v q) as [d|] eqn:Ed; [|done]. cbn [rbind] in Hx.
    destruct (vget (eweight em) q) as [ew|]; [|done]. cbn [rbind liftP] in *.
    assert (Hs : mget m' (CVis v q) = Ok s) by (rewrite Hm' by (intros; discriminate); rewrite <- Es; apply Ho).
    assert (Hd : mget m' (CDist v q) = Ok d) by (rewrite Hm' by (intros; discriminate); rewrite <- Ed; apply Ho).
    destruct (put_ok m' (CTot q) x y) as [m2 E2]; [done|done|]. exists m2. split; [|by apply upd_put].
    eapply leads_trans; [by apply leads_get|]. eapply leads_trans; [by apply leads_get|]. eapply leads_trans; [by apply leads_get|].
    cbv beta. case_decide.
    + rewrite Hx. cbn [liftP]. by apply leads_put.
    + injection Hx as ->. by apply leads_put.
  - done.
  - intros q Hq%Hin. destruct (V q) as (y & x & Hy & Hx & _); [lia|]. exists y, x. split; [|done]. rewrite Ht by done. by apply vget_ok.
  - exists m1. split; [exact Ld|]. split; [|split; [|done]].
    + intros q Hq. destruct (A1 q) as (y & Hy & ->); [by apply Hin|]. rewrite Ht in Hy by done. apply vget_inv in Hy.
      destruct (V q) as (y' & x & Hy' & Hx & E); [lia|]. rewrite Hy in Hy'. injection Hy' as <-. rewrite Hx. symmetry. by apply vget_ok.
    + intros c Hc. apply A2. intros q Hq%Hin. by apply Hc.
Qed.
Lemma totals_leads a b l : (a <= b <= n)%nat -> forall sb sb' m K,
  foldM (fun b v => let! sz := chainsize em v in if decide (sz = 0%nat) then Ok b else accumulate_dist (pb e) em wbd v b) l sb = Ok sb' ->
  (forall q, (a <= q < b)%nat -> mget m (CTot q) = vget (total sb) q) ->
  (forall v q, mget m (CVis v q) = vget2 (vis sb) v q /\ mget m (CDist v q) = vget2 (dist sb) v q) ->
  (exists m1, leads (foldP (fun (_ : unit) v K => liftP (chainsize em v) (fun sz => if decide (sz = 0%nat) then K tt else accum_P (pb e) em wbd v a b (K tt))) l tt K)
      m (K tt) m1 /\ (forall q, (a <= q < b)%nat -> mget m1 (CTot q) = vget (total sb') q) /\
    (forall c, (forall q, (a <= q < b)%nat -> c <> CTot q) -> mget m1 c = mget m c) /\ shape m1 = shape m) /\
  sb' = set_total sb (total sb') /\ length (total sb') = length (total sb) /\ (forall q, (n <= q)%nat -> total sb' !! q = total sb !! q).
Proof.
  intros Hab. induction l as [|v l IH]; intros sb sb' m K H Ht Ho; cbn [foldM] in H; simpl.
  - injection H as <-. split; [|by destruct sb]. exists m. split; [apply leads_refl|done].
  - destruct (chainsize em v) as [sz|]; [|done]. cbn [rbind liftP] in *. case_decide as Hz; cbn [rbind] in H; [by apply IH|].
    destruct (accumulate_dist (pb e) em wbd v sb) as [sb1|] eqn:E1; [|done]. cbn [rbind] in H.
    destruct (acc_dist_vals _ _ _ E1) as (Eb & L & _ & V').
    destruct (accum_leads a b v sb sb1 m (foldP (fun (_ : unit) v K => liftP (chainsize em v) (fun sz => if decide (sz = 0%nat) then K tt else accum_P (pb e) em wbd v a b (K tt))) l tt K))
      as (m1 & Ld & A1 & A2 & A3); [done..|].
    destruct (IH sb1 sb' m1 K) as ((m2 & Ld2 & B1 & B2 & B3) & B4 & B5 & B6); [done|done| |].
    { intros v' q. rewrite !A2 by (intros; discriminate). rewrite Eb. apply Ho. }
    split; [|split; [|split]].
    + exists m2. split; [by eapply leads_trans|]. split; [done|]. split; [|by rewrite B3]. intros c Hc. by rewrite B2, A2.
    + rewrite B4, Eb. done.
    + by rewrite B5.
    + intros q Hq. by rewrite B6, V'.
Qed.

Lemma phase4 m0 b4 b' k : length (total (m_sr m0)) = n -> m_count m0 = Z.of_nat k ->
  foldM (fun b v => let! sz := chainsize em v in if decide (sz = 0%nat) then Ok b else accumulate_dist (pb e) em wbd v b) nbrs (m_sr m0) = Ok b4 ->
  (if decide (k = 0%nat) then
    let! t := foldM (fun t q => let! w := vget (eweight em) q in if decide (wbd <= w) then vset t q max_distance else Ok t) (seq 0 n) (total b4) in
    Ok (set_total b4 t) else Ok b4) = Ok b' ->
  ends (map (totals_P (pb e) em wbd nbrs) (chunks n nt)) m0 (set_m m0 b').
Proof.
  intros Ht Hk H4 H5.
  destruct (totals_leads 0 0 nbrs ltac:(lia) (m_sr m0) b4 m0 (fun _ => Ret) H4) as (_ & E4 & L4 & V4); [intros; lia|done|].
  set (h := fun q y => if decide (k = 0%nat) then let! w := vget (eweight em) q in Ok (if decide (wbd <= w) then max_distance else y) else Ok y).
  assert (H5' : b' = set_total b4 (total b') /\ length (total b') = n /\
    forall q, (q < n)%nat -> exists y x, total b4 !! q = Some y /\ h q y = Ok x /\ total b' !! q = Some x).
  { unfold h. case_decide as Hd.
    - match type of H5 with (let! t := foldM ?f _ _ in _) = _ => set (F := f) in H5 end.
      destruct (foldM F _ _) as [t|] eqn:E; [|done]. cbn [rbind] in H5. injection H5 as <-. split; [done|]. simpl.
      destruct (foldM_point h F _ (length (total b4)) (NoDup_seq 0 n)) with (3 := E) as (H1 & H2 & H3); [|done|].
      + intros t1 q t' Hq%elem_of_seq Hlt Hf. unfold F in Hf. unfold h. destruct (vget (eweight em) q) as [w|] eqn:Ew; [|done]. cbn [rbind] in *.
        destruct (lookup_lt_is_Some_2 t1 q) as [y Hy]; [lia|]. exists y. eexists. split; [done|]. split; [done|].
        case_decide; [by apply vset_inv in Hf as [_ ->]|]. injection Hf as <-. by rewrite list_insert_id.
      + split; [congruence|]. intros q Hq. destruct (H2 q) as (y & x & Hy & Hx & Hv); [apply elem_of_seq; lia|]. exists y, x.
        split; [done|]. done.
    - injection H5 as <-. split; [by destruct b4|]. split; [congruence|]. intros q Hq.
      destruct (lookup_lt_is_Some_2 (total b4) q) as [y Hy]; [lia|]. by exists y, y. }
  destruct H5' as (E5 & L5 & V5). clear H5.
  apply (static_ends nt (fun i c => match c with CTot q => in_chunk i q | CQw _ | CTw _ => False | _ => True end)
     (fun i c => match c with CTot q => in_chunk i q | _ => False end)).
  - intros i c. by destruct c.
  - intros c. destruct c; try (right; intros ? ? []; fail).
    destruct (decide (q < n)%nat) as [Hl|Hl].
    + left. by apply in_chunk_ex in Hl.
    + right. intros i Hi Hc. apply Hl, in_chunk_ex. eauto.
  - intros i j c Hi Hj Hne. destruct c; try done. intros H1 H2. by apply Hne, (in_chunk_disj i j q).
  - rewrite map_length. by apply chunks_facts.
  - rewrite E5, E4. done.
  - intros c Hc. rewrite E5, E4. destruct c; simpl; try done; unfold vget.
    assert (~ (q < n)%nat) by (intros (i & Hi & Hq')%in_chunk_ex; by apply (Hc i Hi)). rewrite !lookup_ge_None_2 by lia. done.
  - intros i p Hp. change (map ?f ?l) with (f <$> l) in Hp. rewrite list_lookup_fmap in Hp. destruct (chunks n nt !! i) as [c|] eqn:Ec; [|done].
    simpl in Hp. injection Hp as <-. destruct (chunk_at _ _ Ec) as (G1 & _ & G3). destruct c as [[j a] b]. simpl in G3. unfold totals_P.
    assert (Hin : forall q, q ∈ seq a (b - a) <-> (a <= q < b)%nat) by (intros q; rewrite elem_of_seq; lia).
    assert (Hic : forall q, q ∈ seq a (b - a) -> in_chunk i q) by (intros q Hq'%Hin; by exists (j, a, b)).
    split.
    + apply fp_foldP.
      * intros s v K Hq' HK. apply fp_liftP. intros sz _. case_decide; [apply HK|]. unfold accum_P. apply fp_foldP; [|done].
        intros s' q K' Hq HK'. simpl. split; [done|]. intros x1. split; [by apply Hic|]. intros x2. split; [done|]. intros x3.
        apply fp_liftP. intros ew _. case_decide.
        -- apply fp_liftP. intros x _. simpl. split; [by apply Hic|]. apply HK'.
        -- simpl. split; [by apply Hic|]. apply HK'.
      * intros s. simpl. split; [done|]. intros x. case_decide; [|done]. apply fp_foldP; [|done].
        intros s' q K Hq' HK. apply fp_liftP. intros w _. case_decide; [|apply HK]. simpl. split; [by apply Hic|apply HK].
    + destruct (totals_leads a b nbrs ltac:(lia) (m_sr m0) b4 m0 (fun _ => Get CCount (fun n => if decide (n = 0) then
        foldP (fun (_ : unit) q K => liftP (vget (eweight em) q) (fun w => if decide (wbd <= w) then Put (CTot q) max_distance (K tt) else K tt))
        (seq a (b - a)) tt (fun _ => Ret) else Ret)) H4) as ((m1 & Ld & A1 & A2 & A3) & _); [done|done|].
      assert (Hcnt : mget m1 CCount = Ok (Z.of_nat k)) by (rewrite A2 by (intros; discriminate); simpl; by rewrite Hk).
      destruct (leads_loop CTot h (fun q K => if decide (k = 0%nat) then liftP (vget (eweight em) q) (fun w => if decide (wbd <= w) then Put (CTot q) max_distance (K tt) else K tt) else K tt)
        m1 (seq a (b - a))) with (m := m1) (K := fun _ : unit => Ret) as (m2 & Ld2 & B1 & B2 & B3).
      { by intros q q' [= ->]. } { apply NoDup_seq. }
      { intros q m K y x Hq' _ Hy Hx. unfold h in Hx. case_decide; [|injection Hx as <-; exists m; split; [apply leads_refl|by apply upd_refl]].
        destruct (vget (eweight em) q) as [w|]; [|done]. cbn [rbind liftP] in *. injection Hx as <-. case_decide.
        - destruct (put_ok m (CTot q) max_distance y) as [m2 E1]; [done|done|]. exists m2. split; [by apply leads_put|by apply upd_put].
        - exists m; split; [apply leads_refl|by apply upd_refl]. }
      { done. }
      { intros q Hq'%Hin. destruct (V5 q) as (y & x & Hy & Hx & _); [lia|]. exists y, x. split; [|done]. rewrite A1 by done. by apply vget_ok. }
      assert (Ld3 : leads (Get CCount (fun n => if decide (n = 0) then
        foldP (fun (_ : unit) q K => liftP (vget (eweight em) q) (fun w => if decide (wbd <= w) then Put (CTot q) max_distance (K tt) else K tt))
        (seq a (b - a)) tt (fun _ => Ret) else Ret)) m1 Ret m2).
      { eapply leads_trans; [by apply leads_get|]. cbv beta. destruct (decide (k = 0%nat)) as [Hk0|Hk0].
        - rewrite decide_True by lia. exact Ld2.
        - rewrite decide_False by lia.
          assert (m2 = m1) as ->; [|apply leads_refl]. apply mem_ext; [done|]. intros c.
          destruct (decide (Exists (fun q => c = CTot q) (seq a (b - a)))) as [Hx|Hx].
          + apply Exists_exists in Hx as (q & Hq & ->). destruct (B1 q Hq) as (y & Hy & ->). done.
          + apply B2. intros q Hq E. apply Hx, Exists_exists. eauto. }
      destruct (leads_ret _ _ _ (leads_trans _ _ _ _ _ _ Ld Ld3)) as [tr Etr]. exists tr, m2. split; [exact Etr|].
      intros c. destruct c; try done. intros (c' & Ec' & Hr). rewrite Ec in Ec'. injection Ec' as <-. simpl in Hr.
      destruct (B1 q) as (y & Hy & ->); [by apply Hin|]. rewrite A1 in Hy by done. apply vget_inv in Hy.
      destruct (V5 q) as (y' & x & Hy' & Hx & Hv); [lia|]. rewrite Hy in Hy'. injection Hy' as <-. rewrite Hx. simpl. symmetry. by apply vget_ok.
Qed.
End sections.
