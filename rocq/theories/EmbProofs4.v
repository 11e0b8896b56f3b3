(** Copying, statistics, linkedness and initialization of embeddings. *)
From stdpp Require Import base list numbers gmap fin_maps.
From Verif Require Import Base ChainModel ChainProofs ChainProofs2 EmbModel EmbProofs EmbProofs2 EmbProofs3.
Local Open Scope Z_scope.

Section emb.
Context (pb : problem) (E : nat -> nat -> Prop) (F : fixdom).
Notation adj := (adjq pb).
Notation einv := (einv pb E F).

(** the invariant only depends on the chains and the size of the weight vector *)
Lemma einv_chains e e' : einv e -> chains e' = chains e -> length (eweight e') = length (eweight e) -> einv e'.
Proof. intros [] C L. split; rewrite ?C, ?L; auto. Qed.
Lemma wexact_chains e e' : wexact e -> chains e' = chains e -> eweight e' = eweight e -> wexact e'.
Proof. intros X C L q. rewrite C, L. apply X. Qed.

(** ** copy assignment *)
Lemma emb_assign_spec dst src :
  length (chains dst) = length (chains src) -> wexact dst ->
  (forall v c, chains dst !! v = Some c -> below c (length (eweight dst))) ->
  (forall v c, chains src !! v = Some c -> below c (length (eweight dst))) ->
  exists e, emb_assign dst src = Ok e /\ chains e = chains src /\ wexact e /\ efrozen e = efrozen dst /\
    length (eweight e) = length (eweight dst).
Proof.
  intros L X Bd Bs. unfold emb_assign.
  set (f := fun e '(v, c) => _).
  destruct (foldM_inv f (fun dn e => chains e = take (length dn) (chains src) ++ drop (length dn) (chains dst) /\
     wexact e /\ efrozen e = efrozen dst /\ length (eweight e) = length (eweight dst))
     (imap pair (chains src)) dst) as (e & -> & Hc & Xe & Fe & Le).
  - simpl. done.
  - intros dn [v c] rest e El (Hc & Xe & Fe & Le).
    assert (Hv : imap pair (chains src) !! length dn = Some (v, c)).
    { rewrite El, lookup_app_r, Nat.sub_diag by done. done. }
    rewrite list_lookup_imap in Hv. destruct (chains src !! length dn) as [c'|] eqn:Hs; [|done].
    simpl in Hv. injection Hv as Ev ->. subst v. set (n := length dn) in *.
    assert (Ln : (n < length (chains src))%nat) by (by eapply lookup_lt_Some).
    destruct (lookup_lt_is_Some_2 (chains dst) n) as [c0 H0]; [lia|].
    assert (Hen : chains e !! n = Some c0).
    { rewrite Hc, lookup_app_r by (rewrite take_length; lia).
      rewrite take_length, Nat.min_l by lia. rewrite Nat.sub_diag, lookup_drop, Nat.add_0_r. done. }
    subst f. simpl. unfold on_chain. rewrite (vget_ok _ _ _ Hen). cbn [rbind]. unfold assign_chain, clear.
    destruct (wadd_chain_spec (-1) c0 (eweight e)) as (w1 & -> & L1 & H1); [rewrite Le; by eapply Bd|]. cbn [rbind].
    destruct (wadd_chain_spec 1 c w1) as (w2 & -> & L2 & H2); [rewrite L1, Le; by eapply Bs|]. cbn [rbind].
    rewrite vset_ok by (by eapply lookup_lt_Some). cbn [rbind].
    eexists; split; [done|]. simpl.
    assert (Ec : mkChain (cdata c) (clinks c) = c) by (by destruct c). rewrite Ec.
    split; [|split; [|split; [done|congruence]]].
    + rewrite Hc, app_length. simpl. replace (length dn + 1)%nat with (S n) by lia.
      rewrite insert_app_r_alt by (rewrite take_length; lia).
      rewrite take_length, Nat.min_l by lia. rewrite Nat.sub_diag.
      rewrite (drop_S _ _ _ H0). simpl. rewrite (take_S_r _ _ _ Hs), <- app_assoc. done.
    + eapply wexact_one; eauto. intros x. rewrite H2, H1. lia.
  - exists e. split; [done|]. split; [|done].
    rewrite Hc, imap_length, take_ge, drop_ge by lia. apply app_nil_r.
Qed.

(** ** linked *)
Definition linkedb_spec (vn : list (list nat)) (e : emb) (u : nat) : Prop :=
  linkedto e u u /\ forall v, nbr vn u v -> linkedto e u v.

Lemma linked_at_spec vn e u l c : chains e !! u = Some c -> vn !! u = Some l ->
  exists b, linked_at vn e u = Ok b /\ (b = true <-> linkedb_spec vn e u).
Proof.
  intros Hc Hl. unfold linked_at. rewrite (vget_ok _ _ _ Hc), (vget_ok _ _ _ Hl). cbn [rbind].
  unfold linkedb_spec, linkedto, nbr. rewrite Hc. setoid_rewrite Hl. unfold get_link.
  destruct (clinks c !! u) as [q|] eqn:K.
  - eexists; split; [done|]. rewrite forallb_forall. split.
    + intros H. split; [exists c; split; [done|]; by rewrite K|]. intros v (l0 & [= <-] & Hv). exists c. split; [done|].
      specialize (H v (proj1 (elem_of_list_In _ _) Hv)). destruct (clinks c !! v); [eauto|done].
    + intros [_ H] v Hv. apply elem_of_list_In in Hv. destruct (H v) as (c' & [= <-] & [y ->]); eauto.
  - exists false. split; [done|]. split; [done|]. intros [(c' & [= <-] & [y Hy]) _]. congruence.
Qed.

Lemma linked_spec vn e : length (chains e) = (nv pb + nf pb)%nat -> length vn = (nv pb + nf pb)%nat ->
  exists b, linked pb vn e = Ok b /\ (b = true <-> forall u, (u < nv pb)%nat -> linkedb_spec vn e u).
Proof.
  intros Lc Lv. unfold linked.
  destruct (foldM_inv (fun (b : bool) u => if b then linked_at vn e u else Ok false)
    (fun dn b => b = true <-> forall u, u ∈ dn -> linkedb_spec vn e u) (rev (seq 0 (nv pb))) true) as (b & -> & Hb).
  - split; [|done]. intros _ u Hu. by apply elem_of_nil in Hu.
  - intros dn u rest b El Hb.
    assert (Hu : (u < nv pb)%nat).
    { assert (H : u ∈ rev (seq 0 (nv pb))) by (rewrite El; apply elem_of_app; right; left).
      apply elem_of_list_In, in_rev, in_seq in H. lia. }
    destruct b.
    + destruct (lookup_lt_is_Some_2 (chains e) u) as [c Hc]; [lia|].
      destruct (lookup_lt_is_Some_2 vn u) as [l Hl]; [lia|].
      destruct (linked_at_spec vn e u l c Hc Hl) as (b & -> & Hb'). eexists; split; [done|].
      rewrite Hb'. split.
      * intros H u' Hu'. apply elem_of_app in Hu' as [G|G]; [by apply Hb|]. apply elem_of_list_singleton in G. by subst.
      * intros H. apply H. apply elem_of_app. right; left.
    + eexists; split; [done|]. split; [done|]. intros H. apply Hb. intros u' Hu'. apply H, elem_of_app. by left.
  - exists b. split; [done|]. rewrite Hb. split; intros H u Hu; apply H.
    + apply elem_of_list_In, in_rev. rewrite rev_involutive. apply in_seq. lia.
    + apply elem_of_list_In, in_rev, in_seq in Hu. lia.
Qed.

(** ** statistics *)
Definition countZ {A} (f : A -> bool) (l : list A) : Z := Z.of_nat (length (List.filter f l)).
Lemma countZ_app {A} (f : A -> bool) l1 l2 : countZ f (l1 ++ l2) = countZ f l1 + countZ f l2.
Proof. unfold countZ. rewrite List.filter_app, app_length. lia. Qed.
Lemma countZ_one {A} (f : A -> bool) x : countZ f [x] = if f x then 1 else 0.
Proof. unfold countZ. simpl. by destruct (f x). Qed.
Lemma countZ_rev {A} (f : A -> bool) l : countZ f (rev l) = countZ f l.
Proof.
  induction l as [|x l IH]; simpl; [done|]. rewrite countZ_app, IH. 
  replace (x :: l) with ([x] ++ l) by done. rewrite (countZ_app f [x] l). lia.
Qed.

Definition maxwt (e : emb) (n : nat) : Z := foldr (fun q a => Z.max (wt (eweight e) q) a) 0 (seq 0 n).
Definition szof (e : emb) (v : nat) : nat := match chains e !! v with Some c => csize c | None => 0%nat end.
Definition maxsz (e : emb) (n : nat) : nat := foldr (fun v a => Nat.max (szof e v) a) 0%nat (seq 0 n).
Definition fill_hist (e : emb) (W : Z) : list Z :=
  map (fun i => countZ (fun q => Z.eqb (wt (eweight e) q) (Z.of_nat i + 2)) (seq 0 (nq pb))) (seq 0 (Z.to_nat (W - 1))).
Definition size_hist (e : emb) (W : nat) : list Z :=
  map (fun i => countZ (fun v => Nat.eqb (szof e v) i) (seq 0 (nv pb))) (seq 0 (W + 1)).

Lemma foldr_max_le {A} (f : A -> Z) l x : x ∈ l -> f x <= foldr (fun q a => Z.max (f q) a) 0 l.
Proof. induction 1; simpl; lia. Qed.
Lemma foldr_max_in {A} (f : A -> Z) l : 0 < foldr (fun q a => Z.max (f q) a) 0 l ->
  exists x, x ∈ l /\ f x = foldr (fun q a => Z.max (f q) a) 0 l.
Proof.
  induction l as [|y l IH]; simpl; [lia|]. intros H.
  destruct (decide (f y < foldr (fun q a => Z.max (f q) a) 0 l)).
  - destruct IH as (x & Hx & Ex); [lia|]. exists x. split; [by right|]. lia.
  - exists y. split; [left|]. lia.
Qed.
Lemma foldr_nmax_le {A} (f : A -> nat) l x : x ∈ l -> (f x <= foldr (fun q a => Nat.max (f q) a) 0 l)%nat.
Proof. induction 1; simpl; lia. Qed.
Lemma foldr_nmax_in {A} (f : A -> nat) l : (0 < foldr (fun q a => Nat.max (f q) a) 0 l)%nat ->
  exists x, x ∈ l /\ f x = foldr (fun q a => Nat.max (f q) a) 0%nat l.
Proof.
  induction l as [|y l IH]; simpl; [lia|]. intros H.
  destruct (decide (f y < foldr (fun q a => Nat.max (f q) a) 0 l)%nat).
  - destruct IH as (x & Hx & Ex); [lia|]. exists x. split; [by right|]. lia.
  - exists y. split; [left|]. lia.
Qed.
Lemma foldr_max_app {A} (f : A -> Z) l1 l2 :
  foldr (fun q a => Z.max (f q) a) 0 (l1 ++ l2) =
  Z.max (foldr (fun q a => Z.max (f q) a) 0 l1) (foldr (fun q a => Z.max (f q) a) 0 l2).
Proof.
  induction l1 as [|x l IH]; simpl; [|lia].
  assert (0 <= foldr (fun q a => Z.max (f q) a) 0 l2); [|lia]. clear. induction l2; simpl; lia.
Qed.
Lemma foldr_max_rev {A} (f : A -> Z) l :
  foldr (fun q a => Z.max (f q) a) 0 (rev l) = foldr (fun q a => Z.max (f q) a) 0 l.
Proof.
  induction l as [|x l IH]; simpl; [done|]. rewrite foldr_max_app, IH. simpl.
  assert (0 <= foldr (fun q a => Z.max (f q) a) 0 l); [|lia]. clear. induction l; simpl; lia.
Qed.
Lemma foldr_nmax_app {A} (f : A -> nat) l1 l2 :
  foldr (fun q a => Nat.max (f q) a) 0%nat (l1 ++ l2) =
  Nat.max (foldr (fun q a => Nat.max (f q) a) 0%nat l1) (foldr (fun q a => Nat.max (f q) a) 0%nat l2).
Proof. induction l1 as [|x l IH]; simpl; lia. Qed.
Lemma foldr_nmax_rev {A} (f : A -> nat) l :
  foldr (fun q a => Nat.max (f q) a) 0%nat (rev l) = foldr (fun q a => Nat.max (f q) a) 0%nat l.
Proof. induction l as [|x l IH]; simpl; [done|]. rewrite foldr_nmax_app, IH. simpl. lia. Qed.

Lemma vadd_hist w i : (i < length w)%nat ->
  exists w', vadd w i 1 = Ok w' /\ length w' = length w /\ forall k x, w !! k = Some x ->
    w' !! k = Some (x + if Nat.eqb i k then 1 else 0).
Proof.
  intros H. unfold vadd. destruct (lookup_lt_is_Some_2 w i H) as [y Hy]. rewrite Hy.
  eexists; split; [done|]. split; [by rewrite insert_length|]. intros k x Hk.
  destruct (Nat.eqb_spec i k) as [->|N].
  - rewrite list_lookup_insert by done. congruence.
  - rewrite list_lookup_insert_ne by done. rewrite Hk. f_equal. lia.
Qed.

Lemma hist_eq (stats : list Z) n (f : nat -> Z) : (n <= length stats)%nat ->
  (forall k x, stats !! k = Some x -> x = f k) -> take n stats = map f (seq 0 n).
Proof.
  intros L H. apply list_eq. intros k. destruct (decide (k < n)%nat) as [Hk|Hk].
  - rewrite lookup_take by done. rewrite list_lookup_fmap, lookup_seq_lt by done. simpl.
    destruct (lookup_lt_is_Some_2 stats k) as [x Hx]; [lia|]. rewrite Hx. f_equal. by apply H.
  - rewrite lookup_take_ge by lia. symmetry. apply lookup_ge_None. rewrite fmap_length, seq_length. lia.
Qed.

Lemma statistics_spec e : einv e -> wexact e ->
  exists b stats, statistics pb e = Ok (b, stats) /\ stats <> [] /\
    (b = true <-> forall q, (q < nq pb)%nat -> sumind (chains e) q <= 1) /\
    (b = false -> stats = fill_hist e (maxwt e (nq pb)) /\ 1 < maxwt e (nq pb)) /\
    (b = true -> stats = size_hist e (maxsz e (nv pb))).
Proof.
  intros I X. unfold statistics.
  set (f := fun '(W, stats) q => _).
  assert (Hq : forall q, q ∈ rev (seq 0 (nq pb)) <-> (q < nq pb)%nat).
  { intros q. rewrite elem_of_list_In, <- in_rev, in_seq. lia. }
  assert (HV : forall q, q ∈ rev (seq 0 (nv pb)) <-> (q < nv pb)%nat).
  { intros q. rewrite elem_of_list_In, <- in_rev, in_seq. lia. }
  destruct (foldM_inv f (fun dn '(W, stats) =>
     W = foldr (fun q a => Z.max (wt (eweight e) q) a) 0 dn /\ length stats = (nv pb + nf pb)%nat /\
     forall k x, stats !! k = Some x -> x = countZ (fun q => Z.eqb (wt (eweight e) q) (Z.of_nat k + 2)) dn)
     (rev (seq 0 (nq pb))) (0, replicate (nv pb + nf pb) 0)) as ([W stats] & -> & HW & Ls & Hs).
  - split; [done|]. split; [by rewrite replicate_length|]. intros k x Hk. apply lookup_replicate in Hk as [-> _]. done.
  - intros dn q rest [W stats] El (HW & Ls & Hs). subst f. cbv beta iota.
    assert (Lq : (q < nq pb)%nat). { apply Hq. rewrite El. apply elem_of_app. right; left. }
    destruct (lookup_lt_is_Some_2 (eweight e) q) as [w Hw]; [rewrite (ei_wlen _ _ _ _ I); lia|].
    rewrite (vget_ok _ _ _ Hw). cbn [rbind].
    assert (Ew : wt (eweight e) q = w) by (unfold wt; by rewrite Hw).
    assert (Wle : w <= Z.of_nat (nv pb + nf pb)).
    { rewrite <- Ew, X, <- (ei_len _ _ _ _ I). apply sumind_le. }
    assert (HW' : Z.max W w = foldr (fun q a => Z.max (wt (eweight e) q) a) 0 (dn ++ [q])).
    { rewrite foldr_max_app. simpl. rewrite <- HW, Ew.
      assert (0 <= W). { rewrite HW. clear. induction dn; simpl; lia. } lia. }
    case_decide as Hgt.
    + destruct (vadd_hist stats (Z.to_nat (w - 2))) as (s' & -> & Ls' & Hs'); [lia|]. cbn [rbind].
      eexists; split; [done|]. split; [done|]. split; [congruence|]. intros k x Hk.
      destruct (lookup_lt_is_Some_2 stats k) as [y Hy]; [rewrite <- Ls'; by eapply lookup_lt_Some|].
      rewrite (Hs' k y Hy) in Hk. injection Hk as <-. rewrite countZ_app, countZ_one, <- (Hs k y Hy), Ew. f_equal.
      destruct (Nat.eqb_spec (Z.to_nat (w - 2)) k), (Z.eqb_spec w (Z.of_nat k + 2)); lia.
    + eexists; split; [done|]. split; [done|]. split; [done|]. intros k x Hk.
      rewrite countZ_app, countZ_one, <- (Hs k x Hk), Ew. destruct (Z.eqb_spec w (Z.of_nat k + 2)); lia.
  - cbn [rbind]. rewrite foldr_max_rev in HW. fold (maxwt e (nq pb)) in HW. subst W.
    assert (Hle : forall q, (q < nq pb)%nat -> sumind (chains e) q <= maxwt e (nq pb)).
    { intros q Lq. rewrite <- X. apply (foldr_max_le (fun q => wt (eweight e) q)).
      apply elem_of_list_In, in_seq. lia. }
    case_decide as Hgt.
    + assert (Hin : exists q, (q < nq pb)%nat /\ sumind (chains e) q = maxwt e (nq pb)).
      { destruct (foldr_max_in (fun q => wt (eweight e) q) (seq 0 (nq pb))) as (q & Hin & Eq).
        { unfold maxwt in Hgt. lia. }
        exists q. apply elem_of_list_In, in_seq in Hin. split; [lia|]. rewrite <- X. exact Eq. }
      destruct Hin as (q & Lq & Eq).
      assert (Wl : maxwt e (nq pb) <= Z.of_nat (nv pb + nf pb)).
      { rewrite <- Eq, <- (ei_len _ _ _ _ I). apply sumind_le. }
      assert (Hist : take (Z.to_nat (maxwt e (nq pb) - 1)) stats = fill_hist e (maxwt e (nq pb))).
      { apply hist_eq; [lia|]. intros k x Hk. rewrite (Hs k x Hk), countZ_rev. done. }
      exists false, (fill_hist e (maxwt e (nq pb))). rewrite <- Hist at 1.
      split; [done|]. split; [|split; [|split; [|done]]].
      * unfold fill_hist. destruct (Z.to_nat (maxwt e (nq pb) - 1)) eqn:En; [lia|]. done.
      * split; [done|]. intros H. specialize (H q Lq). lia.
      * done.
    + set (g := fun '(W, stats) v => _).
      destruct (foldM_inv g (fun dn '(W, stats) =>
        W = foldr (fun v a => Nat.max (szof e v) a) 0%nat dn /\ length stats = (nq pb + nr pb + 1)%nat /\
        forall k x, stats !! k = Some x -> x = countZ (fun v => Nat.eqb (szof e v) k) dn)
        (rev (seq 0 (nv pb))) (0%nat, replicate (nq pb + nr pb + 1) 0)) as ([W2 st2] & -> & HW2 & Ls2 & Hs2).
      * split; [done|]. split; [by rewrite replicate_length|]. intros k x Hk. apply lookup_replicate in Hk as [-> _]. done.
      * intros dn v rest [W st] El (HW2 & Ls2 & Hs2). subst g. cbv beta iota.
        assert (Lv : (v < nv pb)%nat). { apply HV. rewrite El. apply elem_of_app. right; left. }
        destruct (ei_get _ _ _ e v I) as [c Hc]; [lia|].
        assert (Esz : szof e v = csize c) by (unfold szof; by rewrite Hc).
        unfold chainsize. rewrite (vget_ok _ _ _ Hc). cbn [rbind].
        assert (Hsz : (csize c <= nq pb + nr pb)%nat).
        { rewrite <- size_pm, <- (size_dom (D:=gset nat)).
          rewrite <- (seq_length (nq pb + nr pb) 0).
          rewrite <- (size_list_to_set (C:=gset nat) (seq 0 (nq pb + nr pb))) by apply NoDup_seq.
          apply subseteq_size. intros q Hin. apply elem_of_dom in Hin. apply elem_of_list_to_set, elem_of_seq.
          pose proof (ei_below _ _ _ _ I v c Hc q Hin). lia. }
        destruct (vadd_hist st (csize c)) as (s' & -> & Ls' & Hs'); [lia|]. cbn [rbind].
        eexists; split; [done|]. split; [|split; [congruence|]].
        -- rewrite foldr_nmax_app. simpl. rewrite <- HW2, Esz. lia.
        -- intros k x Hk.
           destruct (lookup_lt_is_Some_2 st k) as [y Hy]; [rewrite <- Ls'; by eapply lookup_lt_Some|].
           rewrite (Hs' k y Hy) in Hk. injection Hk as <-. by rewrite countZ_app, countZ_one, <- (Hs2 k y Hy), Esz.
      * cbn [rbind]. rewrite foldr_nmax_rev in HW2. fold (maxsz e (nv pb)) in HW2. subst W2.
        assert (Hmz : (maxsz e (nv pb) <= nq pb + nr pb)%nat).
        { destruct (decide (maxsz e (nv pb) = 0%nat)) as [->|Nz]; [lia|].
          destruct (foldr_nmax_in (fun q => szof e q) (seq 0 (nv pb))) as (v & Hin & Ev).
          { unfold maxsz in Nz. lia. }
          unfold maxsz. rewrite <- Ev. apply elem_of_list_In, in_seq in Hin.
          destruct (ei_get _ _ _ e v I) as [c Hc]; [lia|]. unfold szof. rewrite Hc.
          rewrite <- size_pm, <- (size_dom (D:=gset nat)).
          rewrite <- (seq_length (nq pb + nr pb) 0).
          rewrite <- (size_list_to_set (C:=gset nat) (seq 0 (nq pb + nr pb))) by apply NoDup_seq.
          apply subseteq_size. intros q Hq'. apply elem_of_dom in Hq'. apply elem_of_list_to_set, elem_of_seq.
          pose proof (ei_below _ _ _ _ I v c Hc q Hq'). lia. }
        assert (Hist : take (maxsz e (nv pb) + 1) st2 = size_hist e (maxsz e (nv pb))).
        { apply hist_eq; [lia|]. intros k x Hk. rewrite (Hs2 k x Hk), countZ_rev. done. }
        exists true, (size_hist e (maxsz e (nv pb))). rewrite <- Hist at 1.
        split; [done|]. split; [|split; [|split; [done|done]]].
        -- unfold size_hist. destruct (maxsz e (nv pb) + 1)%nat eqn:En; [lia|]. done.
        -- split; [|done]. intros _ q Lq. specialize (Hle q Lq). lia.
Qed.
End emb.
