(** Statements about reachable embeddings in terms of sets of qubits. *)
From stdpp Require Import base list numbers gmap fin_maps relations.
From Verif Require Import Base Spec ChainModel ChainProofs ChainProofs2 EmbModel EmbProofs EmbProofs2 EmbProofs3 EmbProofs4 EmbProofs5 EmbProofs6 EmbOps EmbProofs7.
Local Open Scope Z_scope.

Lemma users_sumind e q : sumind (chains e) q = Z.of_nat (users e q).
Proof.
  unfold users. induction (chains e) as [|c cs IH]; simpl; [done|]. rewrite IH. unfold ind, ccount.
  case_bool_decide as D; destruct (cdata c !! q); simpl; try lia; exfalso.
  - by destruct D.
  - apply D. eauto.
Qed.

Section props.
Context (pb : problem) (E : nat -> nat -> Prop).

Lemma usage_exact e q : pb_wf pb -> reach pb E e -> (q < nq pb + nr pb)%nat ->
  eweight e !! q = Some (Z.of_nat (users e q)).
Proof.
  intros PW R L. destruct (reach_inv pb E e PW R) as (F & I & W).
  destruct (lookup_lt_is_Some_2 (eweight e) q) as [x H]; [by rewrite (ei_wlen _ _ _ _ I)|].
  rewrite H. f_equal. specialize (W q). unfold wt in W. rewrite H in W. simpl in W.
  rewrite W. apply users_sumind.
Qed.

Lemma refcounts_exact e v c : pb_wf pb -> reach pb E e -> chains e !! v = Some c ->
  run_diagnostic c = 0 /\
  forall q p r, cdata c !! q = Some (p, r) ->
    is_Some (cdata c !! p) /\
    r = Z.of_nat (size (filter (fun x : nat * (nat * Z) => x.2.1 = q) (cdata c))) +
        Z.of_nat (size (filter (fun x : nat * nat => x.2 = q) (clinks c))).
Proof.
  intros PW R H. destruct (reach_inv pb E e PW R) as (F & I & W).
  pose proof (ei_cwf _ _ _ _ I _ _ H) as C. split; [by eapply run_diagnostic_ok|].
  intros q p r K. split.
  - assert (X : is_Some (pm c !! q)) by (exists p; apply pm_lookup; eauto).
    destruct (cwf_anc _ _ _ C q X) as [rr A].
    assert (Y : pm c !! q = Some p) by (apply pm_lookup; eauto).
    apply (pm_is_Some c p). destruct A as [q A|q p' rr A N A'].
    + replace p with q by congruence. eauto.
    + replace p with p' by congruence. by eapply anc_in.
  - rewrite (cwf_refs _ _ _ C _ _ _ K). unfold ex0, occ. 
    replace (size (filter (fun e : nat * nat => e.2 = q) (pm c))) with
      (size (filter (fun x : nat * (nat * Z) => x.2.1 = q) (cdata c))); [lia|].
    unfold pm. rewrite map_filter_fmap, map_size_fmap. done.
Qed.

Lemma linked_self_connected e v : pb_wf pb -> reach pb E e -> has_link e v v ->
  connected_in (adjq pb) (in_chain e v).
Proof.
  intros PW R (c & H & [r K]). destruct (reach_inv pb E e PW R) as (F & I & W).
  pose proof (rooted_connected (adjq pb) c r (adjq_sym pb) (ei_cwf _ _ _ _ I _ _ H) (ei_root _ _ _ _ I _ _ _ H K)) as C.
  intros x y X Y. apply (in_chain_qin _ _ _ _ H) in X, Y. specialize (C x y X Y).
  eapply rtc_subrel; [|exact C]. intros a b (A1 & A2 & A3). split; [done|].
  split; by apply (in_chain_qin _ _ _ _ H).
Qed.

Lemma freeze_thaw e u : pb_wf pb -> reach pb E e -> (u < nv pb)%nat ->
  exists e1, freeze_out e u = Ok (chain_size e u, e1) /\ no_chain e1 u /\
    (forall v q, v <> u -> (in_chain e1 v q <-> in_chain e v q)) /\
    (forall v w, v <> u -> w <> u -> (has_link e1 v w <-> has_link e v w)) /\
    forall e2, retried pb E u e1 e2 ->
      exists e3, thaw_back e2 u = Ok e3 /\ chains e3 = chains e /\ eweight e3 = eweight e.
Proof.
  intros PW R L. destruct (reach_inv_any pb E e PW R) as (F & HD & I & W).
  destruct (freeze_out_spec pb E F e u I L) as (n & e1 & H & T & Fz & Sz).
  destruct (ei_get _ _ _ e u I) as [c K]; [lia|].
  assert (n = chain_size e u) as ->.
  { unfold chainsize in Sz. rewrite (vget_ok _ _ _ K) in Sz. simpl in Sz. injection Sz as <-.
    unfold chain_size. rewrite K. done. }
  exists e1. split; [done|]. split.
  { destruct (torn_absent _ _ _ _ T) as [A B]. split; [done|]. intros v (cv & Hv & X). rewrite (B _ _ Hv) in X. by destruct X. }
  destruct T as (L1 & L2 & T1 & T2 & T3). split.
  { intros v q N. split.
    - intros (c1 & H1 & Q). destruct (torn_inv_lookup pb e u e1 v c1) as (c0 & H0 & _ & P & _); [done..|].
      exists c0. split; [done|]. fold (qin c0 q). fold (qin c1 q) in Q. rewrite <- pm_is_Some in *. by rewrite <- P.
    - intros (c0 & H0 & Q). destruct (T2 v c0 N H0) as (c1 & H1 & _ & P & _). exists c1. split; [done|].
      fold (qin c0 q) in Q. fold (qin c1 q). rewrite <- pm_is_Some in *. by rewrite P. }
  split.
  { intros v w N N'. split.
    - intros (c1 & H1 & Q). destruct (torn_inv_lookup pb e u e1 v c1) as (c0 & H0 & _ & P & D); [done..|].
      exists c0. split; [done|]. rewrite D, lookup_delete_ne in Q by done. done.
    - intros (c0 & H0 & Q). destruct (T2 v c0 N H0) as (c1 & H1 & _ & P & D). exists c1. split; [done|].
      rewrite D, lookup_delete_ne by done. done. }
  intros e2 Re. assert (T : torn pb e u e1) by done.
  assert (I1 : einv pb E F e1) by (by eapply torn_einv).
  assert (W1 : wexact e1). { eapply (torn_wexact pb e); [done|exact T|]. by exists c. }
  destruct (retried_same pb E F u e1 e2 HD I1 W1 Re) as (C2 & W2 & F2).
  destruct (thaw_back_spec pb E F e e2 u) as (e3' & H3 & C3 & W3); auto.
  { unfold torn. rewrite C2, W2. done. } { by rewrite F2. }
  eauto.
Qed.

Lemma steal_props e u v limit : pb_wf pb -> reach pb E e -> (u < nv pb)%nat -> (v < nv pb)%nat -> u <> v ->
  has_link e u v ->
  exists e', on_two e u v (fun cu cv w => steal (accepts pb u) limit u v cu cv w) = Ok e' /\
    (** no other chain changes *)
    (forall a, a <> u -> a <> v -> chains e' !! a = chains e !! a) /\
    (** the victim only loses qubits, but not all of them *)
    (forall q, in_chain e' v q -> in_chain e v q) /\ (exists q, in_chain e' v q) /\
    (** the thief only gains qubits of the victim that it may use *)
    (forall q, in_chain e' u q -> in_chain e u q \/ (in_chain e v q /\ accepts pb u q = Ok true)) /\
    (** the thief never grows beyond the limit *)
    (limit <> 0%nat -> (chain_size e' u <= Nat.max (chain_size e u) limit)%nat) /\
    (** the total number of users of a qubit does not grow *)
    (forall q, (users e' q <= users e q)%nat) /\
    (** the links stay in place and keep pointing at equal or adjacent qubits *)
    (forall a b, has_link e' a b <-> has_link e a b) /\
    (exists cu cv p q, chains e' !! u = Some cu /\ chains e' !! v = Some cv /\
       clinks cu !! v = Some p /\ clinks cv !! u = Some q /\ in_chain e' u p /\ in_chain e' v q /\ (p = q \/ adjq pb p q)) /\
    (** rooted chains stay connected *)
    (has_link e u u -> connected_in (adjq pb) (in_chain e' u)) /\
    (has_link e v v -> connected_in (adjq pb) (in_chain e' v)).
Proof.
  intros PW R Lu Lv N HL. destruct (reach_inv pb E e PW R) as (F & I & W).
  destruct (steal_at pb E F e u v limit I PW Lu Lv N HL) as (e' & H & I' & W' & Fr & SL & SN & SO & SC & SS & Len & _).
  exists e'. split; [done|]. split; [done|].
  destruct HL as (cu & Hu & [q0 Hq]). destruct (ei_link _ _ _ _ I _ _ _ _ Hu N Hq) as (_ & cv & p0 & Hv & Hp & A).
  assert (BU : below cu (length (eweight e))) by (by eapply ei_below_w).
  assert (BV : below cv (length (eweight e))) by (by eapply ei_below_w).
  destruct (steal_spec (adjq pb) (adjq_sym pb) (accepts pb u) limit u v cu cv (eweight e) q0 p0)
    as (q' & p' & cu' & cv' & w' & ES & C1 & C2 & D1 & D2 & A' & K1 & K2 & V1 & U1 & R1 & R2 & LIM & _ & _); auto.
  { intros x Lx. unfold accepts. destruct (masks pb) as [m|] eqn:M; [|eauto].
    destruct (pbw_masks _ PW m M) as [Lm Lr].
    destruct (lookup_lt_is_Some_2 m u) as [r Hr]; [lia|]. rewrite (vget_ok _ _ _ Hr). simpl.
    destruct (lookup_lt_is_Some_2 r x) as [y Hy]. { rewrite (proj1 (Lr _ _ Hr)). by rewrite <- (ei_wlen _ _ _ _ I). }
    rewrite (vget_ok _ _ _ Hy). simpl. eauto. }
  { apply (ei_cwf _ _ _ _ I _ _ Hu). } { apply (ei_cwf _ _ _ _ I _ _ Hv). }
  assert (H' := H). rewrite (on_two_ok e u v cu cv _ cu' cv' w') in H' by done. injection H' as <-.
  assert (Xu : chains (mkEmb (set2 (chains e) u v cu' cv') w' (efrozen e)) !! u = Some cu').
  { simpl. apply set2_u; [done|]. rewrite (ei_len _ _ _ _ I). lia. }
  assert (Xv : chains (mkEmb (set2 (chains e) u v cu' cv') w' (efrozen e)) !! v = Some cv').
  { simpl. apply set2_v. rewrite (ei_len _ _ _ _ I). lia. }
  set (e' := mkEmb _ _ _) in *.
  split. { intros q. rewrite (in_chain_qin _ _ _ _ Xv), (in_chain_qin _ _ _ _ Hv), <- !pm_is_Some. apply V1. }
  split. { exists p'. rewrite (in_chain_qin _ _ _ _ Xv). by apply pm_is_Some. }
  split. { intros q. rewrite (in_chain_qin _ _ _ _ Xu), (in_chain_qin _ _ _ _ Hu), (in_chain_qin _ _ _ _ Hv), <- !pm_is_Some. apply U1. }
  split. { intros Z. unfold chain_size. rewrite Xu, Hu. by apply LIM. }
  split. { intros q. specialize (SS q). rewrite !users_sumind in SS. lia. }
  split; [done|].
  split. { exists cu', cv', q', p'. split; [done|]. split; [done|].
    rewrite K1, K2, !lookup_insert. split; [done|]. split; [done|].
    rewrite (in_chain_qin _ _ _ _ Xu), (in_chain_qin _ _ _ _ Xv). rewrite <- !pm_is_Some. done. }
  assert (CN : forall a c, chains e' !! a = Some c -> has_link e a a -> connected_in (adjq pb) (in_chain e' a)).
  { intros a c Ha HL. apply SL in HL as (c' & Hc' & [r K]).
    pose proof (rooted_connected (adjq pb) c' r (adjq_sym pb) (ei_cwf _ _ _ _ I' _ _ Hc') (ei_root _ _ _ _ I' _ _ _ Hc' K)) as C.
    intros x y X Y. apply (in_chain_qin _ _ _ _ Hc') in X, Y. specialize (C x y X Y).
    eapply rtc_subrel; [|exact C]. intros a1 b (A1 & A2 & A3). split; [done|].
    split; by apply (in_chain_qin _ _ _ _ Hc'). }
  split; eauto.
Qed.

Lemma statistics_einv F e : einv pb E F e -> wexact e ->
  exists b h, statistics pb e = Ok (b, h) /\ h <> [] /\
    (b = true <-> forall q, (q < nq pb)%nat -> (users e q <= 1)%nat) /\
    (b = true -> histogram (chain_size e) (seq 0 (nv pb)) h) /\
    (b = false -> histogram (users e) (seq 0 (nq pb))
        (Z.of_nat (length (List.filter (fun q => Nat.eqb (users e q) 0) (seq 0 (nq pb)))) ::
         Z.of_nat (length (List.filter (fun q => Nat.eqb (users e q) 1) (seq 0 (nq pb)))) :: h)).
Proof.
  intros I W.
  destruct (statistics_spec pb E F e I W) as (b & h & H & NE & B & Hf & Ht).
  exists b, h. split; [done|]. split; [done|]. split.
  { rewrite B. split; intros X q Lq; specialize (X q Lq); rewrite users_sumind in *; lia. }
  assert (WU : forall q, wt (eweight e) q = Z.of_nat (users e q)) by (intros q; rewrite <- users_sumind; apply W).
  split.
  - intros Tb. rewrite (Ht Tb). unfold size_hist. split; [|split].
    + intros i x Hx. apply list_lookup_fmap_inv in Hx as (i' & -> & Hi).
      apply lookup_seq in Hi as [-> Hi]. unfold countZ. f_equal.
    + intros v Hv. rewrite map_length, seq_length.
      pose proof (foldr_nmax_le (szof e) _ _ Hv) as X. fold (maxsz e (nv pb)) in X.
      change (chain_size e v) with (szof e v). lia.
    + intros L. rewrite map_length, seq_length in *.
      destruct (foldr_nmax_in (szof e) (seq 0 (nv pb))) as (v & Hv & Ev).
      { fold (maxsz e (nv pb)). lia. }
      exists v. split; [done|]. change (chain_size e v) with (szof e v). rewrite Ev. fold (maxsz e (nv pb)). lia.
  - intros Fb. destruct (Hf Fb) as [-> M]. unfold fill_hist.
    assert (ML : forall q, q ∈ seq 0 (nq pb) -> Z.of_nat (users e q) <= maxwt e (nq pb)).
    { intros q Hq. rewrite <- WU. unfold maxwt. apply (foldr_max_le (fun q => wt (eweight e) q)). done. }
    split; [|split].
    + intros [|[|i]] x Hx; simpl in Hx; [by injection Hx as <-|by injection Hx as <-|].
      apply list_lookup_fmap_inv in Hx as (i' & -> & Hi).
      apply lookup_seq in Hi as [-> Hi]. unfold countZ. do 2 f_equal.
      apply List.filter_ext. intros q. rewrite WU.
      destruct (Z.eqb_spec (Z.of_nat (users e q)) (Z.of_nat (0 + i) + 2)), (Nat.eqb_spec (users e q) (S (S i))); lia.
    + intros q Hq. simpl. rewrite map_length, seq_length. specialize (ML q Hq). lia.
    + intros _. simpl. rewrite map_length, seq_length.
      destruct (foldr_max_in (fun q => wt (eweight e) q) (seq 0 (nq pb))) as (q & Hq & Eq).
      { fold (maxwt e (nq pb)). lia. }
      exists q. split; [done|]. rewrite WU in Eq. fold (maxwt e (nq pb)) in Eq. lia.
Qed.

Lemma statistics_props e : pb_wf pb -> reach pb E e ->
  exists b h, statistics pb e = Ok (b, h) /\ h <> [] /\
    (b = true <-> forall q, (q < nq pb)%nat -> (users e q <= 1)%nat) /\
    (b = true -> histogram (chain_size e) (seq 0 (nv pb)) h) /\
    (b = false -> histogram (users e) (seq 0 (nq pb))
        (Z.of_nat (length (List.filter (fun q => Nat.eqb (users e q) 0) (seq 0 (nq pb)))) ::
         Z.of_nat (length (List.filter (fun q => Nat.eqb (users e q) 1) (seq 0 (nq pb)))) :: h)).
Proof. intros PW R. destruct (reach_inv pb E e PW R) as (F & I & W). by eapply statistics_einv. Qed.
End props.
