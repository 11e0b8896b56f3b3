(** [link_path] and [steal]: no undefined behaviour, termination, invariants. *)
From stdpp Require Import base list numbers gmap fin_maps.
From Verif Require Import Base ChainModel ChainProofs.
Local Open Scope Z_scope.
Global Arguments trim_branch : simpl never.
Global Arguments trim_leaf : simpl never.
Global Arguments add_leaf : simpl never.
Global Arguments add_ref : simpl never.
Global Arguments set_link : simpl never.
Global Arguments drop_link : simpl never.

(** [wp n q]: walking [parents] from [q] arrives, in [n] steps along adjacent qubits that
    satisfy [ok] and lie outside the other chain, at a qubit of the other chain. *)
Inductive wp (adj : nat -> nat -> Prop) (ok : nat -> Prop) (parents : list (option nat)) (oth : nat -> Prop)
  : nat -> nat -> Prop :=
| wp_in q : oth q -> wp adj ok parents oth 0 q
| wp_step n q p : ~ oth q -> ok q -> parents !! q = Some (Some p) -> adj q p ->
    wp adj ok parents oth n p -> wp adj ok parents oth (S n) q.

(** admissible start of [link_path] *)
Definition wp_start adj ok parents (oth : nat -> Prop) (q : nat) : Prop :=
  (oth q /\ parents !! q = Some None) \/ exists n, wp adj ok parents oth (S n) q.

Lemma wp_fun adj ok parents oth n m q :
  wp adj ok parents oth n q -> wp adj ok parents oth m q -> n = m.
Proof.
  intros H. revert m. induction H as [q H|n q p N O P A W IH]; intros m M.
  - destruct M; [done|]. done.
  - destruct M as [q M|m q p' N' O' P' A' W']; [done|].
    f_equal. apply IH. congruence.
Qed.

(** the nodes of a walk are distinct indices, so a walk is no longer than the vector *)
Lemma wp_bound adj ok parents oth n q :
  wp adj ok parents oth n q -> (n <= length parents)%nat.
Proof.
  intros H.
  assert (G : exists l, length l = n /\ NoDup l /\
    forall x, x ∈ l -> (x < length parents)%nat /\ exists m, (m <= n)%nat /\ wp adj ok parents oth m x).
  { induction H as [q H|n q p N O P A W IH].
    - exists []. split; [done|]. split; [constructor|]. intros x Hx. by apply elem_of_nil in Hx.
    - destruct IH as (l & L & ND & F). exists (q :: l). split; [simpl; lia|]. split.
      + constructor; [|done]. intros Hq. destruct (F q Hq) as (_ & m & Hm & Wm).
        assert (m = S n); [|lia]. eapply wp_fun; [done|]. by econstructor.
      + intros x Hx. apply elem_of_cons in Hx as [->|Hx].
        * split; [by eapply lookup_lt_Some|]. exists (S n). split; [lia|]. by econstructor.
        * destruct (F x Hx) as (? & m & ? & ?). split; [done|]. exists m. split; [lia|done]. }
  destruct G as (l & L & ND & F). rewrite <- L.
  transitivity (length (seq 0 (length parents))); [|by rewrite seq_length].
  apply submseteq_length, NoDup_submseteq; [done|].
  intros x Hx. apply elem_of_seq. destruct (F x Hx). lia.
Qed.

Lemma size_pm c : size (pm c) = csize c.
Proof. unfold pm, csize. apply map_size_fmap. Qed.

Lemma qin_size c q : qin c q -> csize c <> 0%nat.
Proof.
  intros [x H] E. unfold csize in E. apply map_size_empty_iff in E.
  rewrite E in H. by rewrite lookup_empty in H.
Qed.

Section link.
Context (adj : nat -> nat -> Prop) (adj_sym : forall x y, adj x y -> adj y x).
Context (ok : nat -> Prop).

Lemma tight_anchored c : cwf ex0 adj c -> tight ex0 c ->
  anchored ex0 (fun x => is_Some (pm c !! x)) c.
Proof.
  intros W T x Hx _. specialize (T x Hx). unfold nref, ex0 in T.
  destruct (decide (occ (clinks c) x = 0)) as [Z|Z].
  - right; left. destruct (decide (occ (pm c) x = 0)) as [Z'|Z']; [lia|].
    destruct (decide (Exists (fun e => e.2 = x) (map_to_list (pm c)))) as [E|E].
    + apply Exists_exists in E. destruct E as ([y z] & E & Ez). simpl in Ez. subst z.
      apply elem_of_map_to_list in E. exists y. split; [by eexists|done].
    + exfalso. apply Z'. apply occ_zero. intros k K. apply E. apply Exists_exists.
      exists (k, x). split; [|done]. by apply elem_of_map_to_list.
  - left. destruct (decide (Exists (fun e => e.2 = x) (map_to_list (clinks c)))) as [E|E].
    + apply Exists_exists in E. destruct E as ([y z] & E & Ez). simpl in Ez. subst z.
      apply elem_of_map_to_list in E. by exists y.
    + exfalso. apply Z. apply occ_zero. intros k K. apply E. apply Exists_exists.
      exists (k, x). split; [|done]. by apply elem_of_map_to_list.
Qed.

Lemma link_path_loop_spec (A : nat -> Prop) parents other : forall fuel n this w q p,
  let oth := qin other in
  cwf ex0 adj this -> is_Some (pm this !! q) -> adj q p -> wp adj ok parents oth n p -> (n <= fuel)%nat ->
  below this (length w) -> (forall x, ok x -> (x < length w)%nat) ->
  anchored ex0 A this -> (forall x, A x -> is_Some (pm this !! x)) ->
  (forall x, is_Some (pm this !! x) -> A x \/ exists m, (n < m)%nat /\ wp adj ok parents oth m x) ->
  tight_except ex0 q this ->
  exists q' p' this' w', link_path_loop fuel this other w parents q p = Ok (q', p', this', w') /\
    cwf ex0 adj this' /\ is_Some (pm this' !! q') /\ oth p' /\ adj q' p' /\
    clinks this' = clinks this /\ tight_except ex0 q' this' /\
    (forall x, A x -> is_Some (pm this' !! x)) /\
    (forall x, is_Some (pm this' !! x) -> is_Some (pm this !! x) \/ (ok x /\ ~ oth x)) /\
    (forall r, (forall x, is_Some (pm this !! x) -> anc (pm this) x r) ->
               (forall x, is_Some (pm this' !! x) -> anc (pm this') x r)) /\
    wspec w this w' this'.
Proof.
  induction fuel as [|fuel IH]; intros n this w q p oth W Hq Adj Wp Hn Hb Hok HA HAd Hd T.
  - assert (n = 0)%nat as -> by lia. inversion Wp as [? O|]; subst.
    simpl. pose proof (proj2 (ccount_true _ _) O) as ->.
    exists q, p, this, w. repeat (split; [done|]).
    split; [auto|]. split; [auto|]. split; [auto|]. apply wspec_refl.
  - simpl. destruct (ccount other p) eqn:Cp.
    { exists q, p, this, w. apply ccount_true in Cp. repeat (split; [done|]).
      split; [auto|]. split; [auto|]. split; [auto|]. apply wspec_refl. }
    pose proof Wp as Wp0.
    inversion Wp as [? O|m ? p' NO Okp Pp Adjp Wp']; subst.
    { apply ccount_true in O. congruence. }
    destruct (ccount this p) eqn:Ct.
    + apply ccount_true, pm_is_Some in Ct.
      assert (Ap : A p).
      { destruct (Hd p Ct) as [?|(m' & Hm & Wm)]; [done|].
        pose proof (wp_fun _ _ _ _ _ _ _ Wp0 Wm). lia. }
      destruct (trim_branch_spec (S (csize this)) ex0 adj this w q W) as
        (q1 & c1 & w1 & E & W1 & K1 & P1 & Q1 & S1 & A1 & T1 & R1);
        [done|done|done|rewrite size_pm; lia|].
      rewrite E. simpl. rewrite (vget_ok _ _ _ Pp). simpl.
      destruct (A1 A HA) as [HA1 Hk1].
      destruct (IH m c1 w1 p p') as (q' & pe & t' & w' & E' & R'); try done.
      * apply Hk1; auto.
      * lia.
      * intros x Hx. destruct S1 as [-> _]. apply Hb. eapply lookup_weaken_is_Some; eauto.
      * intros x Hx. destruct S1 as [-> _]. auto.
      * auto.
      * intros x Hx. destruct (Hd x) as [?|(m' & ? & ?)].
        { eapply lookup_weaken_is_Some; eauto. } { auto. } right. exists m'. split; [lia|done].
      * intros x Hx _. by apply T1.
      * exists q', pe, t', w'. split; [done|].
        destruct R' as (? & ? & ? & ? & K' & ? & ? & D' & RR & S').
        repeat (split; [done|]). split; [by rewrite K'|]. split; [done|]. split; [done|].
        split; [|split].
        { intros x Hx. destruct (D' x Hx) as [?|?]; [|auto]. left. eapply lookup_weaken_is_Some; eauto. }
        { intros r Hr. apply RR. intros x Hx. apply R1; [|done]. apply Hr.
          eapply lookup_weaken_is_Some; eauto. }
        by eapply wspec_trans.
    + apply ccount_false, pm_None in Ct.
      destruct (add_leaf_spec ex0 adj this w p q W Ct Hq) as (c1 & w1 & E & W1 & P1 & K1 & S1);
        [done|by apply adj_sym|by apply Hok|].
      rewrite E. simpl. rewrite (vget_ok _ _ _ Pp). simpl.
      assert (Npq : q <> p). { intros ->. destruct Hq. congruence. }
      destruct (IH m c1 w1 p p') as (q' & pe & t' & w' & E' & R'); try done.
      * rewrite P1, lookup_insert. eauto.
      * lia.
      * intros x. rewrite P1. destruct S1 as [-> _]. destruct (decide (x = p)) as [->|N].
        { intros _. auto. } rewrite lookup_insert_ne by done. apply Hb.
      * intros x Hx. destruct S1 as [-> _]. auto.
      * intros x Ax Hx. rewrite K1. destruct (HA x Ax (HAd _ Ax)) as [?|[(y & Ay & Y)|?]]; auto.
        right; left. exists y. split; [done|]. rewrite P1, lookup_insert_ne; [done|congruence].
      * intros x Ax. rewrite P1, lookup_insert_is_Some'. auto.
      * intros x. rewrite P1, lookup_insert_is_Some'. intros [<-|Hx].
        { right. exists (S m). split; [lia|done]. }
        destruct (Hd x Hx) as [?|(m' & ? & ?)]; [auto|]. right. exists m'. split; [lia|done].
      * intros x. rewrite P1, lookup_insert_is_Some'. intros Hx Nx. destruct Hx as [<-|Hx]; [done|].
        unfold nref. rewrite P1, K1, occ_insert by done.
        destruct (decide (q = x)) as [<-|Nq].
        { pose proof (occ_nonneg (pm this) q). pose proof (occ_nonneg (clinks this) q).
          unfold ex0. lia. }
        pose proof (T x Hx (not_eq_sym Nq)). unfold nref in *. lia.
      * exists q', pe, t', w'. split; [done|].
        destruct R' as (? & ? & ? & ? & K' & ? & ? & D' & RR & S').
        repeat (split; [done|]). split; [by rewrite K'|]. split; [done|]. split; [done|].
        split; [|split].
        { intros x Hx. destruct (D' x Hx) as [H'|?]; [|auto]. rewrite P1, lookup_insert_is_Some' in H'.
          destruct H' as [<-|?]; auto. }
        { intros r Hr. apply RR. intros x. rewrite P1, lookup_insert_is_Some'. intros [<-|Hx].
          - eapply anc_step; [apply lookup_insert|done|]. apply anc_insert; [done|auto].
          - apply anc_insert; auto. }
        by eapply wspec_trans.
Qed.

Lemma tight_set_link c c' x q : tight_except ex0 q c -> pm c' = pm c -> clinks c' = <[x:=q]> (clinks c) ->
  clinks c !! x = None -> tight ex0 c'.
Proof.
  intros T P K N y. unfold nref. rewrite P, K, occ_insert by done. intros Hy.
  pose proof (occ_nonneg (pm c) y). pose proof (occ_nonneg (clinks c) y). unfold ex0.
  destruct (decide (q = y)) as [<-|Nq]; [lia|].
  specialize (T y Hy (not_eq_sym Nq)). unfold nref, ex0 in T. lia.
Qed.

Lemma link_path_spec lt lo this other w q parents :
  cwf ex0 adj this -> cwf ex0 adj other -> tight ex0 this ->
  clinks this !! lo = None -> clinks other !! lt = None ->
  is_Some (pm this !! q) -> below this (length w) -> (forall x, ok x -> (x < length w)%nat) ->
  wp_start adj ok parents (qin other) q ->
  exists this' other' w' q' p',
    link_path lt lo this other w q parents = Ok (this', other', w') /\
    cwf ex0 adj this' /\ cwf ex0 adj other' /\ tight ex0 this' /\
    pm other' = pm other /\ clinks other' = <[lt:=p']> (clinks other) /\
    clinks this' = <[lo:=q']> (clinks this) /\
    is_Some (pm this' !! q') /\ qin other p' /\ (q' = p' \/ adj q' p') /\
    (forall x, is_Some (pm this !! x) -> is_Some (pm this' !! x)) /\
    (forall x, is_Some (pm this' !! x) -> is_Some (pm this !! x) \/ (ok x /\ ~ qin other x)) /\
    (forall r, (forall x, is_Some (pm this !! x) -> anc (pm this) x r) ->
               (forall x, is_Some (pm this' !! x) -> anc (pm this') x r)) /\
    wspec w this w' this'.
Proof.
  intros W Wo T Kt Ko Hq Hb Hok Hs. unfold link_path.
  destruct Hs as [[Oq Pq]|[n Wq]].
  - rewrite (vget_ok _ _ _ Pq). simpl.
    destruct (set_link_spec ex0 adj this lo q W Kt Hq) as (t' & -> & W' & P' & K'). simpl.
    destruct (set_link_spec ex0 adj other lt q Wo Ko) as (o' & -> & Wo' & Po' & Ko').
    { by apply pm_is_Some. }
    simpl. exists t', o', w, q, q. split; [done|]. split; [done|]. split; [done|].
    split. { eapply (tight_set_link this t' lo q); auto. intros x Hx _; auto. }
    rewrite P', Po', K', Ko'. repeat (split; [by auto|]).
    eapply wspec_pm; [apply wspec_refl|done|done].
  - inversion Wq as [|m ? p NO Okq Pq Aq Wp]; subst.
    rewrite (vget_ok _ _ _ Pq). simpl.
    destruct (link_path_loop_spec (fun x => is_Some (pm this !! x)) parents other (length parents) n this w q p)
      as (q' & p' & t' & w' & -> & W' & Q' & O' & A' & K' & T' & HA' & D' & R' & S'); auto.
    { by eapply wp_bound. }
    { by apply tight_anchored. }
    { intros x Hx _; auto. }
    simpl.
    destruct (set_link_spec ex0 adj t' lo q' W') as (t2 & -> & W2 & P2 & K2); [by rewrite K'|done|]. simpl.
    destruct (set_link_spec ex0 adj other lt p' Wo Ko) as (o' & -> & Wo' & Po' & Ko').
    { by apply pm_is_Some. }
    simpl. exists t2, o', w', q', p'. split; [done|]. split; [done|]. split; [done|].
    split. { eapply (tight_set_link t' t2 lo q'); auto. by rewrite K'. }
    rewrite P2, Po', K2, Ko', K'. repeat (split; [by auto|]).
    eapply wspec_pm; [apply S'|done|done].
Qed.

(** weight bookkeeping for two chains at once *)
Definition wspec2 (w : list Z) (c d : chain) (w' : list Z) (c' d' : chain) : Prop :=
  length w' = length w /\ forall x, wt w' x = wt w x + ind c' x - ind c x + ind d' x - ind d x.

Definition rooted_at (c : chain) (r : nat) : Prop :=
  forall x, is_Some (pm c !! x) -> anc (pm c) x r.

Lemma steal_loop_spec accepts limit N (acc : forall x, (x < N)%nat -> exists b, accepts x = Ok b) :
  forall fuel this other w q p,
  cwf ex0 adj this -> cwf ex0 adj other -> is_Some (pm this !! q) -> is_Some (pm other !! p) ->
  (q = p \/ adj q p) -> below this (length w) -> below other (length w) -> below other N ->
  (csize other < fuel)%nat ->
  exists q' p' this' other' w',
    steal_loop fuel accepts limit this other w q p = Ok (q', p', this', other', w') /\
    cwf ex0 adj this' /\ cwf ex0 adj other' /\ is_Some (pm this' !! q') /\ is_Some (pm other' !! p') /\
    (q' = p' \/ adj q' p') /\ clinks this' = clinks this /\ clinks other' = clinks other /\
    (forall x, is_Some (pm other' !! x) -> is_Some (pm other !! x)) /\
    (forall x, is_Some (pm this' !! x) -> is_Some (pm this !! x) \/
       (is_Some (pm other !! x) /\ accepts x = Ok true)) /\
    (forall r, rooted_at this r -> rooted_at this' r) /\
    (forall r, rooted_at other r -> rooted_at other' r) /\
    (limit <> 0%nat -> (csize this' <= Nat.max (csize this) limit)%nat) /\
    (forall x, ind this' x + ind other' x <= ind this x + ind other x) /\
    wspec2 w this other w' this' other'.
Proof.
  assert (Hbase : forall this other (w : list Z) q p,
    cwf ex0 adj this -> cwf ex0 adj other -> is_Some (pm this !! q) -> is_Some (pm other !! p) ->
    (q = p \/ adj q p) ->
    exists q' p' this' other' w', (Ok (q, p, this, other, w) : res _) = Ok (q', p', this', other', w') /\
    cwf ex0 adj this' /\ cwf ex0 adj other' /\ is_Some (pm this' !! q') /\ is_Some (pm other' !! p') /\
    (q' = p' \/ adj q' p') /\ clinks this' = clinks this /\ clinks other' = clinks other /\
    (forall x, is_Some (pm other' !! x) -> is_Some (pm other !! x)) /\
    (forall x, is_Some (pm this' !! x) -> is_Some (pm this !! x) \/
       (is_Some (pm other !! x) /\ accepts x = Ok true)) /\
    (forall r, rooted_at this r -> rooted_at this' r) /\
    (forall r, rooted_at other r -> rooted_at other' r) /\
    (limit <> 0%nat -> (csize this' <= Nat.max (csize this) limit)%nat) /\
    (forall x, ind this' x + ind other' x <= ind this x + ind other x) /\
    wspec2 w this other w' this' other').
  { intros this other w q p W Wo Hq Hp Hqp. exists q, p, this, other, w.
    repeat (split; [by auto|]). split; [intros; lia|]. split; [intros; lia|]. split; [done|]. intros; lia. }
  induction fuel as [|fuel IH]; intros this other w q p W Wo Hq Hp Hqp Hb Hbo HbN Hf; [lia|].
  simpl. destruct (decide (limit = 0%nat \/ (csize this < limit)%nat)) as [Hlim|]; [|by apply Hbase].
  destruct (acc p (HbN _ Hp)) as [b Eb]. rewrite Eb. simpl. destruct b; simpl; [|by apply Hbase].
  destruct (trim_leaf_spec ex0 adj other w p Wo ltac:(done) Hp (Hbo _ Hp)) as
    [[Z ->]|(Z & r & o1 & w1 & Hr & Nr & -> & Wo1 & Po1 & Ko1 & So1)]; simpl.
  { rewrite decide_True by done. by apply Hbase. }
  rewrite decide_False by done.
  assert (Oz : occ (pm other) p = 0).
  { pose proof (occ_nonneg (pm other) p). pose proof (occ_nonneg (clinks other) p).
    unfold nref, ex0 in Z. lia. }
  assert (Hr1 : is_Some (pm o1 !! r)).
  { rewrite Po1, lookup_delete_ne by done. by eapply cwf_closed. }
  assert (Adjpr : adj p r) by (by apply (cwf_adj ex0 adj other Wo)).
  assert (Lw1 : length w1 = length w) by (apply So1).
  assert (Hbo1 : below o1 (length w1)).
  { intros x. rewrite Po1, Lw1. intros [y Hy]. apply lookup_delete_Some in Hy. apply Hbo.
    destruct Hy. by eexists. }
  assert (Hs1 : (csize o1 < fuel)%nat).
  { rewrite <- size_pm, Po1. rewrite <- size_pm in Hf. pose proof (size_delete_S _ _ _ Hr). lia. }
  assert (Hsub1 : forall x, is_Some (pm o1 !! x) -> is_Some (pm other !! x)).
  { intros x. rewrite Po1. intros [y Hy]. apply lookup_delete_Some in Hy as [_ Hy]. by eexists. }
  assert (HbN1 : below o1 N) by (intros x Hx; auto).
  assert (Hro1 : forall r0, rooted_at other r0 -> rooted_at o1 r0).
  { intros r0 H x Hx. rewrite Po1. apply anc_delete; [done|by apply H, Hsub1|].
    intros ->. rewrite Po1, lookup_delete in Hx. by destruct Hx. }
  destruct (cdata this !! p) as [dp|] eqn:Dp.
  - destruct (decide (p = q)) as [->|Npq].
    + (* p = q *)
      destruct (IH this o1 w1 q r) as (q' & p' & t' & o' & w' & E' & R'); auto.
      { by rewrite Lw1. }
      exists q', p', t', o', w'. split; [done|].
      destruct R' as (? & ? & ? & ? & ? & ? & Ko' & Hsub & Hgain & Hr' & Hro' & Hlim' & Hwle' & [L' S']).
      split; [done|]. split; [done|]. split; [done|]. split; [done|]. split; [done|].
      split; [done|]. split; [by rewrite Ko', Ko1|]. split; [auto|].
      split. { intros x Hx. destruct (Hgain x Hx) as [?|[? ?]]; auto. }
      split; [auto|]. split; [auto|]. split; [done|].
      split. { intros x. specialize (Hwle' x). pose proof (ind_delete other o1 x q Po1 Hp). destruct (decide (x = q)); lia. }
      split; [by rewrite L', Lw1|]. intros x. destruct So1 as [_ So1]. rewrite S', So1. lia.
    + assert (Hpt : is_Some (pm this !! p)) by (apply pm_is_Some; by eexists).
      destruct (add_ref_spec this p 1 ex0 Hpt) as (t1 & E1 & P1 & K1 & R1). rewrite E1. simpl.
      assert (W1 : cwf (exat p 1) adj t1).
      { eapply cwf_transport; [exact W|done|done|]. eapply refs_ok_ext; [|apply R1, W].
        intros x. unfold ex0. lia. }
      assert (Hex : forall x, 0 <= exat p 1 x) by (intros x; unfold exat; destruct (decide _); lia).
      destruct (trim_branch_spec (S (csize this)) (exat p 1) adj t1 w1 q W1 Hex) as
        (q2 & t2 & w2 & E2 & W2 & K2 & P2 & Q2 & S2 & A2 & _ & R2).
      { by rewrite P1. } { intros x. rewrite P1, Lw1. apply Hb. } { rewrite P1, size_pm. lia. }
      rewrite E2. simpl.
      assert (Hpt2 : is_Some (pm t2 !! p)).
      { destruct (A2 (fun x => x = p)) as [_ Hk].
        - intros x -> _. right; right. unfold exat. rewrite decide_True by done. lia.
        - apply Hk; [done|]. by rewrite P1. }
      destruct (add_ref_spec t2 p (-1) (exat p 1) Hpt2) as (t3 & E3 & P3 & K3 & R3). rewrite E3. simpl.
      assert (W3 : cwf ex0 adj t3).
      { eapply cwf_transport; [exact W2|done|done|]. eapply refs_ok_ext; [|apply R3, W2].
        intros x. unfold ex0, exat. destruct (decide _); lia. }
      rewrite P1 in P2.
      assert (Lw2 : length w2 = length w1) by (apply S2).
      destruct (IH t3 o1 w2 p r) as (q' & p' & t' & o' & w' & E' & R'); auto.
      { by rewrite P3. }
      { intros x. rewrite P3, Lw2, Lw1. intros Hx. apply Hb. eapply lookup_weaken_is_Some; eauto. }
      { by rewrite Lw2. }
      exists q', p', t', o', w'. split; [done|].
      destruct R' as (? & ? & ? & ? & ? & Kt' & Ko' & Hsub & Hgain & Hr' & Hro' & Hlim' & Hwle' & [L' S']).
      split; [done|]. split; [done|]. split; [done|]. split; [done|]. split; [done|].
      split; [by rewrite Kt', K3, K2, K1|]. split; [by rewrite Ko', Ko1|]. split; [auto|].
      split. { intros x Hx. destruct (Hgain x Hx) as [H'|[? ?]]; [|auto]. left. rewrite P3 in H'.
        eapply lookup_weaken_is_Some; eauto. }
      split. { intros r0 Hr0. apply Hr'. intros x. rewrite P3. intros Hx. apply R2; [|done].
        rewrite P1. apply Hr0. eapply lookup_weaken_is_Some; eauto. }
      split; [auto|]. split.
      { intros Hl. specialize (Hlim' Hl).
        assert (csize t3 <= csize this)%nat; [|lia].
        rewrite <- !size_pm, P3. rewrite <- !(size_dom (D:=gset nat)). apply subseteq_size. by apply subseteq_dom. }
      split. { intros x. specialize (Hwle' x). pose proof (ind_delete other o1 x p Po1 Hp).
        assert (ind t3 x <= ind this x).
        { rewrite (ind_pm t3 t2) by done. unfold ind. destruct (ccount t2 x) eqn:C2; [|destruct (ccount this x); lia].
          apply ccount_true, pm_is_Some in C2. rewrite (proj2 (ccount_true this x)); [lia|].
          apply pm_is_Some. eapply lookup_weaken_is_Some; eauto. }
        destruct (decide (x = p)); lia. }
      split; [by rewrite L', Lw2, Lw1|]. intros x. destruct So1 as [_ So1]. destruct S2 as [_ S2].
      rewrite S', S2, So1, (ind_pm t3 t2), (ind_pm t1 this) by done. lia.
  - (* p not in this *)
    apply pm_None in Dp.
    assert (Nqp : q <> p) by (intros ->; destruct Hq; congruence).
    assert (adj p q) by (apply adj_sym; destruct Hqp; [done|auto]).
    destruct (add_leaf_spec ex0 adj this w1 p q W Dp Hq) as (t1 & w2 & E1 & W1 & P1 & K1 & S1);
      [done|done|rewrite Lw1; by apply Hbo|].
    rewrite E1. simpl.
    assert (Lw2 : length w2 = length w1) by (apply S1).
    destruct (IH t1 o1 w2 p r) as (q' & p' & t' & o' & w' & E' & R'); auto.
    { rewrite P1, lookup_insert. eauto. }
    { intros x. rewrite P1, Lw2, Lw1, lookup_insert_is_Some'. intros [<-|?]; auto. }
    { by rewrite Lw2. }
    exists q', p', t', o', w'. split; [done|].
    destruct R' as (? & ? & ? & ? & ? & Kt' & Ko' & Hsub & Hgain & Hr' & Hro' & Hlim' & Hwle' & [L' S']).
    split; [done|]. split; [done|]. split; [done|]. split; [done|]. split; [done|].
    split; [by rewrite Kt', K1|]. split; [by rewrite Ko', Ko1|]. split; [auto|].
    split. { intros x Hx. destruct (Hgain x Hx) as [H'|[? ?]]; [|auto].
      rewrite P1, lookup_insert_is_Some' in H'. destruct H' as [<-|?]; auto. }
    split. { intros r0 Hr0. apply Hr'. intros x. rewrite P1, lookup_insert_is_Some'. intros [<-|Hx].
      - eapply anc_step; [apply lookup_insert|done|]. apply anc_insert; [done|auto].
      - apply anc_insert; auto. }
    split; [auto|]. split.
    { intros Hl. specialize (Hlim' Hl).
      assert (csize t1 = S (csize this)); [|lia].
      rewrite <- !size_pm, P1. by apply map_size_insert_None. }
    split. { intros x. specialize (Hwle' x). pose proof (ind_delete other o1 x p Po1 Hp).
      pose proof (ind_insert this t1 x p q P1 Dp). destruct (decide (x = p)); lia. }
    split; [by rewrite L', Lw2, Lw1|]. intros x. destruct So1 as [_ So1]. destruct S1 as [_ S1].
    rewrite S', S1, So1. lia.
Qed.

Lemma steal_spec accepts limit lt lo this other w q p :
  (forall x, (x < length w)%nat -> exists b, accepts x = Ok b) ->
  cwf ex0 adj this -> cwf ex0 adj other ->
  clinks this !! lo = Some q -> clinks other !! lt = Some p -> (q = p \/ adj q p) ->
  below this (length w) -> below other (length w) ->
  exists q' p' this' other' w',
    steal accepts limit lt lo this other w = Ok (this', other', w') /\
    cwf ex0 adj this' /\ cwf ex0 adj other' /\ is_Some (pm this' !! q') /\ is_Some (pm other' !! p') /\
    (q' = p' \/ adj q' p') /\ clinks this' = <[lo:=q']> (clinks this) /\ clinks other' = <[lt:=p']> (clinks other) /\
    (forall x, is_Some (pm other' !! x) -> is_Some (pm other !! x)) /\
    (forall x, is_Some (pm this' !! x) -> is_Some (pm this !! x) \/
       (is_Some (pm other !! x) /\ accepts x = Ok true)) /\
    (forall r, rooted_at this r -> rooted_at this' r) /\
    (forall r, rooted_at other r -> rooted_at other' r) /\
    (limit <> 0%nat -> (csize this' <= Nat.max (csize this) limit)%nat) /\
    (forall x, ind this' x + ind other' x <= ind this x + ind other x) /\
    wspec2 w this other w' this' other'.
Proof.
  intros acc W Wo Hq Hp Hqp Hb Hbo. unfold steal.
  destruct (drop_link_some ex0 adj this lo q W Hq) as (t1 & -> & W1 & P1 & K1). simpl.
  destruct (drop_link_some ex0 adj other lt p Wo Hp) as (o1 & -> & Wo1 & Po1 & Ko1). simpl.
  destruct (steal_loop_spec accepts limit (length w) acc (S (csize o1)) t1 o1 w q p)
    as (q' & p' & t2 & o2 & w' & E & W2 & Wo2 & Q2 & R2 & A2 & K2 & Ko2 & Hs & Hg & Hr & Hro & Hl & Hwle & HL & HS); auto.
  { rewrite P1. eapply cwf_links; [exact W|done]. }
  { rewrite Po1. eapply cwf_links; [exact Wo|done]. }
  { intros x. rewrite P1. apply Hb. }
  { intros x. rewrite Po1. apply Hbo. }
  { intros x. rewrite Po1. apply Hbo. }
  cbn [steal_loop] in E. cbn [steal_loop]. rewrite E. simpl.
  destruct (set_link_spec ex0 adj t2 lo q' W2) as (t3 & -> & W3 & P3 & K3);
    [by rewrite K2, K1, lookup_delete|done|]. simpl.
  destruct (set_link_spec ex0 adj o2 lt p' Wo2) as (o3 & -> & Wo3 & Po3 & Ko3);
    [by rewrite Ko2, Ko1, lookup_delete|done|]. simpl.
  exists q', p', t3, o3, w'. split; [done|].
  split; [done|]. split; [done|]. rewrite P3, Po3. split; [done|]. split; [done|]. split; [done|].
  split; [by rewrite K3, K2, K1, insert_delete_insert|].
  split; [by rewrite Ko3, Ko2, Ko1, insert_delete_insert|].
  rewrite P1, Po1 in *. split; [done|]. split; [done|].
  unfold rooted_at in *. rewrite P1, Po1 in *. rewrite P3, Po3. split; [done|]. split; [done|].
  assert (csize t1 = csize this) by (by rewrite <- !size_pm, P1).
  assert (csize t3 = csize t2) by (by rewrite <- !size_pm, P3).
  split; [intros Hz; specialize (Hl Hz); lia|].
  split. { intros x. specialize (Hwle x). rewrite (ind_pm t3 t2), (ind_pm o3 o2) by done.
    rewrite (ind_pm t1 this), (ind_pm o1 other) in Hwle by done. done. }
  split; [done|]. intros x. rewrite HS.
  rewrite (ind_pm t3 t2), (ind_pm o3 o2), (ind_pm t1 this), (ind_pm o1 other) by done. done.
Qed.
End link.
