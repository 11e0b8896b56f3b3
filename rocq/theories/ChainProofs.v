(** Invariants of chains and their preservation by the operations of ChainModel.v. *)
From stdpp Require Import base list numbers gmap fin_maps.
From Verif Require Import Base ChainModel.
Local Open Scope Z_scope.

(** parent map *)
Definition pm (c : chain) : gmap nat nat := fst <$> cdata c.
(** number of keys mapped to [q] *)
Definition occ (m : gmap nat nat) (q : nat) : Z := Z.of_nat (size (filter (fun e => e.2 = q) m)).

Definition qin (c : chain) (q : nat) : Prop := is_Some (cdata c !! q).
Definition ind (c : chain) (q : nat) : Z := if ccount c q then 1 else 0.

(** [anc m q r]: following parents from [q] one arrives at the self-parented [r] *)
Inductive anc (m : gmap nat nat) : nat -> nat -> Prop :=
| anc_self q : m !! q = Some q -> anc m q q
| anc_step q p r : m !! q = Some p -> p <> q -> anc m p r -> anc m q r.

Definition refs_ok (ex : nat -> Z) (c : chain) : Prop :=
  forall q p r, cdata c !! q = Some (p, r) -> r = occ (pm c) q + occ (clinks c) q + ex q.

Record cwf (ex : nat -> Z) (adj : nat -> nat -> Prop) (c : chain) : Prop := {
  cwf_refs : refs_ok ex c;
  cwf_links : forall x q, clinks c !! x = Some q -> is_Some (pm c !! q);
  cwf_anc : forall q, is_Some (pm c !! q) -> exists r, anc (pm c) q r;
  cwf_adj : forall q p, pm c !! q = Some p -> p <> q -> adj q p
}.

Definition ex0 : nat -> Z := fun _ => 0.
Definition exat (p : nat) (d : Z) : nat -> Z := fun x => if decide (x = p) then d else 0.

Lemma pm_lookup c q p : pm c !! q = Some p <-> exists r, cdata c !! q = Some (p, r).
Proof.
  unfold pm. rewrite lookup_fmap_Some. split.
  - intros ([p' r] & <- & H). eauto.
  - intros [r H]. exists (p, r). eauto.
Qed.
Lemma pm_is_Some c q : is_Some (pm c !! q) <-> qin c q.
Proof. unfold pm, qin. rewrite lookup_fmap. by rewrite fmap_is_Some. Qed.
Lemma pm_None c q : pm c !! q = None <-> cdata c !! q = None.
Proof. unfold pm. rewrite lookup_fmap. apply fmap_None. Qed.
Lemma ccount_true c q : ccount c q = true <-> qin c q.
Proof. unfold ccount, qin. destruct (cdata c !! q); split; eauto; try done. intros [? ?]; done. Qed.
Lemma ccount_false c q : ccount c q = false <-> cdata c !! q = None.
Proof. unfold ccount. destruct (cdata c !! q); split; eauto; done. Qed.

Lemma size_delete_S {V} (m : gmap nat V) k v : m !! k = Some v -> size m = S (size (delete k m)).
Proof.
  intros H. rewrite <- (insert_delete m k v H) at 1.
  apply map_size_insert_None. apply lookup_delete.
Qed.
Lemma occ_nonneg m q : 0 <= occ m q.
Proof. unfold occ. lia. Qed.
Lemma occ_empty q : occ ∅ q = 0.
Proof. unfold occ. rewrite map_filter_empty, map_size_empty. done. Qed.
Lemma occ_insert m k v q : m !! k = None ->
  occ (<[k:=v]> m) q = occ m q + (if decide (v = q) then 1 else 0).
Proof.
  intros Hk. unfold occ. rewrite map_filter_insert.
  simpl. destruct (decide (v = q)) as [E|E].
  - rewrite map_size_insert. rewrite map_filter_lookup_None_2 by eauto. lia.
  - rewrite (delete_notin m k) by done. lia.
Qed.
Lemma occ_delete m k v q : m !! k = Some v ->
  occ (delete k m) q = occ m q - (if decide (v = q) then 1 else 0).
Proof.
  intros Hk. rewrite <- (insert_delete m k v Hk) at 2.
  rewrite occ_insert by (apply lookup_delete). lia.
Qed.
Lemma occ_zero m q : occ m q = 0 <-> forall k, m !! k <> Some q.
Proof.
  unfold occ. split.
  - intros H k E. assert (Z : size (filter (fun e : nat * nat => e.2 = q) m) = 0%nat) by lia.
    apply map_size_empty_iff in Z.
    assert (X : filter (fun e : nat * nat => e.2 = q) m !! k = None) by (rewrite Z; apply lookup_empty).
    rewrite map_filter_lookup_None in X. destruct X as [X|X]; [congruence|].
    apply (X q E). done.
  - intros H. replace (filter (fun e : nat * nat => e.2 = q) m) with (∅ : gmap nat nat); [done|].
    symmetry. apply map_empty. intros i. apply map_filter_lookup_None. right.
    intros x E. simpl. intros ->. by apply (H i).
Qed.
Lemma occ_pos m q k : m !! k = Some q -> 1 <= occ m q.
Proof.
  intros H. pose proof (occ_nonneg m q).
  assert (occ m q <> 0); [|lia]. intros Z. by apply (proj1 (occ_zero m q) Z k).
Qed.

Lemma anc_in m q r : anc m q r -> is_Some (m !! q).
Proof. destruct 1; eauto. Qed.
Lemma anc_root m q r : anc m q r -> m !! r = Some r.
Proof. induction 1; auto. Qed.
Lemma anc_insert m k v q r : m !! k = None -> anc m q r -> anc (<[k:=v]> m) q r.
Proof.
  intros Hk. induction 1 as [q H|q p r H N A IH].
  - apply anc_self. rewrite lookup_insert_ne; [done|congruence].
  - eapply anc_step; eauto. rewrite lookup_insert_ne; [done|congruence].
Qed.
Lemma anc_delete m k q r : occ m k = 0 -> anc m q r -> q <> k -> anc (delete k m) q r.
Proof.
  intros Hk. rewrite occ_zero in Hk. induction 1 as [q H|q p r H N A IH]; intros D.
  - apply anc_self. by rewrite lookup_delete_ne.
  - eapply anc_step; [by rewrite lookup_delete_ne|done|]. apply IH. intros ->. by apply (Hk q).
Qed.
Lemma anc_fun m q r1 r2 : anc m q r1 -> anc m q r2 -> r1 = r2.
Proof.
  intros H. revert r2. induction H as [q H|q p r H N A IH]; intros r2 H2.
  - destruct H2; congruence.
  - destruct H2 as [q H2|q p2 r2 H2 N2 A2]; [congruence|]. apply IH. congruence.
Qed.

(** weight bookkeeping between two states of one chain *)
Definition wspec (w : list Z) (c : chain) (w' : list Z) (c' : chain) : Prop :=
  length w' = length w /\ forall x, wt w' x = wt w x + ind c' x - ind c x.

Lemma wspec_refl w c : wspec w c w c.
Proof. split; [done|]. intros; lia. Qed.
Lemma wspec_trans w0 c0 w1 c1 w2 c2 : wspec w0 c0 w1 c1 -> wspec w1 c1 w2 c2 -> wspec w0 c0 w2 c2.
Proof. intros [L1 H1] [L2 H2]. split; [congruence|]. intros x. rewrite H2, H1. lia. Qed.

(** a chain whose qubits are those of another has the same indicator *)
Lemma ind_pm c c' x : pm c = pm c' -> ind c x = ind c' x.
Proof.
  intros E. unfold ind, ccount.
  assert (H : is_Some (cdata c !! x) <-> is_Some (cdata c' !! x)).
  { fold (qin c x) (qin c' x). rewrite <- !pm_is_Some. by rewrite E. }
  destruct (cdata c !! x), (cdata c' !! x); try done.
  - destruct H as [H _]. destruct H; eauto; done.
  - destruct H as [_ H]. destruct H; eauto; done.
Qed.
Lemma wspec_pm w c w' c' d d' : wspec w c w' c' -> pm c = pm d -> pm c' = pm d' -> wspec w d w' d'.
Proof.
  intros [L H] E E'. split; [done|]. intros x.
  rewrite H, (ind_pm _ _ _ E), (ind_pm _ _ _ E'). done.
Qed.
Lemma ind_in c x : qin c x -> ind c x = 1.
Proof. intros H. unfold ind. apply ccount_true in H. by rewrite H. Qed.
Lemma ind_out c x : cdata c !! x = None -> ind c x = 0.
Proof. intros H. unfold ind. apply ccount_false in H. by rewrite H. Qed.
Lemma ind_insert c d x q p : pm d = <[q:=p]> (pm c) -> pm c !! q = None ->
  ind d x = ind c x + if decide (x = q) then 1 else 0.
Proof.
  intros E N. destruct (decide (x = q)) as [->|D].
  - rewrite (ind_out c) by (by apply pm_None).
    rewrite ind_in; [done|]. apply pm_is_Some. rewrite E, lookup_insert. eauto.
  - destruct (cdata c !! x) eqn:X.
    + rewrite !ind_in; [lia|by eexists|]. apply pm_is_Some. rewrite E, lookup_insert_ne by done.
      apply pm_is_Some. by eexists.
    + rewrite !ind_out; [lia|done|]. apply pm_None. rewrite E, lookup_insert_ne by done. by apply pm_None.
Qed.
Lemma ind_delete c d x q : pm d = delete q (pm c) -> is_Some (pm c !! q) ->
  ind d x = ind c x - if decide (x = q) then 1 else 0.
Proof.
  intros E N. destruct (decide (x = q)) as [->|D].
  - rewrite (ind_in c) by (by apply pm_is_Some).
    rewrite ind_out; [done|]. apply pm_None. by rewrite E, lookup_delete.
  - destruct (cdata c !! x) eqn:X.
    + rewrite !ind_in; [lia|by eexists|]. apply pm_is_Some. rewrite E, lookup_delete_ne by done.
      apply pm_is_Some. by eexists.
    + rewrite !ind_out; [lia|done|]. apply pm_None. rewrite E, lookup_delete_ne by done. by apply pm_None.
Qed.

Lemma add_ref_spec c q d ex : is_Some (pm c !! q) ->
  exists c', add_ref c q d = Ok c' /\ pm c' = pm c /\ clinks c' = clinks c /\
    (refs_ok ex c -> refs_ok (fun x => ex x + exat q d x) c').
Proof.
  intros [p H]. apply pm_lookup in H. destruct H as [r H].
  unfold add_ref. rewrite H. eexists; split; [done|].
  assert (E : pm (mkChain (<[q:=(p, r + d)]> (cdata c)) (clinks c)) = pm c).
  { unfold pm. simpl. rewrite fmap_insert. simpl. apply insert_id.
    rewrite lookup_fmap, H. done. }
  split; [done|]. split; [done|]. intros R x px rx. rewrite E. simpl. unfold exat.
  destruct (decide (x = q)) as [->|N].
  - rewrite lookup_insert. intros [= <- <-]. rewrite (R _ _ _ H). lia.
  - rewrite lookup_insert_ne by done. intros X. rewrite (R _ _ _ X). lia.
Qed.

Lemma refs_ok_ext ex ex' c : (forall x, ex x = ex' x) -> refs_ok ex c -> refs_ok ex' c.
Proof. intros E R x p r H. rewrite <- E. eauto. Qed.

Lemma cwf_ext ex ex' adj c : (forall x, ex x = ex' x) -> cwf ex adj c -> cwf ex' adj c.
Proof. intros E [R L A D]. split; eauto using refs_ok_ext. Qed.

(** same parents and links: only the reference counts matter *)
Lemma cwf_transport ex ex' adj c c' : cwf ex adj c -> pm c' = pm c -> clinks c' = clinks c ->
  refs_ok ex' c' -> cwf ex' adj c'.
Proof. intros [R L A D] P K R'. split; rewrite ?P, ?K; auto. Qed.

Lemma set_link_spec ex adj c x q : cwf ex adj c -> clinks c !! x = None -> is_Some (pm c !! q) ->
  exists c', set_link c x q = Ok c' /\ cwf ex adj c' /\ pm c' = pm c /\ clinks c' = <[x:=q]> (clinks c).
Proof.
  intros [R L A D] Hx Hq. unfold set_link.
  destruct (add_ref_spec (mkChain (cdata c) (<[x:=q]> (clinks c))) q 1
              (fun y => ex y - exat q 1 y) Hq) as (c' & E & P & K & RR).
  exists c'. split; [done|]. simpl in *. change (pm {| cdata := cdata c; clinks := <[x:=q]> (clinks c) |}) with (pm c) in *.
  split; [|done]. split.
  - assert (R1 : refs_ok (fun y => ex y - exat q 1 y) (mkChain (cdata c) (<[x:=q]> (clinks c)))).
    { intros y py ry Y. simpl in *. rewrite (R _ _ _ Y). change (pm _) with (pm c).
      rewrite (occ_insert (clinks c)) by done. unfold exat.
      destruct (decide (q = y)), (decide (y = q)); subst; try done; lia. }
    eapply refs_ok_ext; [|apply RR, R1]. intros y. simpl. lia.
  - rewrite P, K. intros y z. destruct (decide (y = x)) as [->|N].
    + rewrite lookup_insert. by intros [= <-].
    + rewrite lookup_insert_ne by done. apply L.
  - by rewrite P.
  - by rewrite P.
Qed.

Lemma drop_link_none c x : clinks c !! x = None -> drop_link c x = Ok (None, c).
Proof. unfold drop_link. by intros ->. Qed.

Lemma drop_link_some ex adj c x q : cwf ex adj c -> clinks c !! x = Some q ->
  exists c', drop_link c x = Ok (Some q, c') /\ cwf ex adj c' /\ pm c' = pm c /\
    clinks c' = delete x (clinks c).
Proof.
  intros [R L A D] Hx. unfold drop_link. rewrite Hx.
  destruct (add_ref_spec c q (-1) ex (L _ _ Hx)) as (c' & E & P & K & RR).
  rewrite E. simpl. eexists; split; [done|].
  assert (P' : pm (mkChain (cdata c') (delete x (clinks c'))) = pm c) by done.
  split; [|split; [done|]; simpl; by rewrite K]. split.
  - intros y py ry Y. rewrite P'. simpl in *. rewrite (RR R _ _ _ Y), P, K.
    rewrite (occ_delete _ _ _ _ Hx). unfold exat.
    destruct (decide (q = y)), (decide (y = q)); subst; try done; lia.
  - rewrite P'. simpl. rewrite K. intros y z H. apply lookup_delete_Some in H. eapply L, H.
  - by rewrite P'.
  - by rewrite P'.
Qed.

(** dropping a link that may or may not be there *)
Lemma drop_link_spec ex adj c x : cwf ex adj c ->
  exists c', drop_link c x = Ok (clinks c !! x, c') /\ cwf ex adj c' /\ pm c' = pm c /\
    clinks c' = delete x (clinks c).
Proof.
  intros W. destruct (clinks c !! x) as [q|] eqn:E.
  - eapply drop_link_some; eauto.
  - exists c. rewrite drop_link_none by done. rewrite delete_notin by done. done.
Qed.

Lemma cwf_closed ex adj c q p : cwf ex adj c -> pm c !! q = Some p -> is_Some (pm c !! p).
Proof.
  intros W H. destruct (cwf_anc _ _ _ W q) as [r A]; [by eexists|].
  destruct A as [q H'|q p' r H' N A]; [assert (p = q) as -> by congruence; by eexists|].
  assert (p' = p) as -> by congruence. by eapply anc_in.
Qed.

Lemma cwf_occ_out ex adj c q : cwf ex adj c -> pm c !! q = None ->
  occ (pm c) q = 0 /\ occ (clinks c) q = 0.
Proof.
  intros W H. split; apply occ_zero.
  - intros k E. destruct (cwf_closed _ _ _ _ _ W E). congruence.
  - intros k E. destruct (cwf_links _ _ _ W _ _ E). congruence.
Qed.

Lemma emplace_fresh {V} k (v : V) m : m !! k = None -> emplace k v m = <[k:=v]> m.
Proof. unfold emplace. by intros ->. Qed.

Lemma add_leaf_spec ex adj c w q p : cwf ex adj c -> pm c !! q = None -> is_Some (pm c !! p) ->
  ex q = 0 -> adj q p -> (q < length w)%nat ->
  exists c' w', add_leaf c w q p = Ok (c', w') /\ cwf ex adj c' /\ pm c' = <[q:=p]> (pm c) /\
    clinks c' = clinks c /\ wspec w c w' c'.
Proof.
  intros W Hq Hp Hex Hadj Hl. assert (p <> q) as Npq by (intros ->; destruct Hp; congruence).
  unfold add_leaf.
  destruct (vadd_ok w q 1 Hl) as (w' & -> & Lw & Hw). simpl.
  set (c1 := mkChain (emplace q (p, 0) (cdata c)) (clinks c)).
  assert (P1 : pm c1 = <[q:=p]> (pm c)).
  { unfold c1, pm. simpl. rewrite emplace_fresh by (by apply pm_None). by rewrite fmap_insert. }
  destruct (add_ref_spec c1 p 1 (fun y => ex y - exat p 1 y)) as (c' & E & P & K & RR).
  { rewrite P1, lookup_insert_ne by done. done. }
  rewrite E. simpl. eexists _, _. split; [done|].
  rewrite P, P1, K. split; [|split; [done|]; split; [done|]].
  2:{ split; [done|]. intros x. rewrite Hw, (ind_insert c c' x q p); [lia| |done].
      by rewrite P, P1. }
  destruct (cwf_occ_out _ _ _ _ W Hq) as [O1 O2].
  destruct W as [R L A D].
  assert (R1 : refs_ok (fun y => ex y - exat p 1 y) c1).
  { intros y py ry Y. rewrite P1, occ_insert by done. unfold c1 in *. simpl in *.
    rewrite emplace_fresh in Y by (by apply pm_None). unfold exat.
    destruct (decide (y = q)) as [->|Ny].
    - rewrite lookup_insert in Y. injection Y as <- <-.
      rewrite O1, O2, Hex. destruct (decide (p = q)), (decide (q = p)); congruence || lia.
    - rewrite lookup_insert_ne in Y by done. rewrite (R _ _ _ Y).
      destruct (decide (p = y)), (decide (y = p)); subst; try done; lia. }
  split.
  - eapply refs_ok_ext; [|apply RR, R1]. intros y. simpl. lia.
  - rewrite K, P, P1. intros x y H. destruct (decide (y = q)) as [->|N].
    + rewrite lookup_insert. eauto.
    + rewrite lookup_insert_ne by done. eapply L, H.
  - rewrite P, P1. intros y. destruct (decide (y = q)) as [->|N].
    + intros _. destruct (A p Hp) as [r Ar]. exists r. eapply anc_step; [apply lookup_insert|done|].
      by apply anc_insert.
    + rewrite lookup_insert_ne by done. intros H. destruct (A y H) as [r Ar]. exists r. by apply anc_insert.
  - rewrite P, P1. intros y z. destruct (decide (y = q)) as [->|N].
    + rewrite lookup_insert. by intros [= <-].
    + rewrite lookup_insert_ne by done. apply D.
Qed.

(** total number of references on a qubit *)
Definition nref (ex : nat -> Z) (c : chain) (q : nat) : Z := occ (pm c) q + occ (clinks c) q + ex q.

Lemma trim_leaf_spec ex adj c w q : cwf ex adj c -> (forall x, 0 <= ex x) -> is_Some (pm c !! q) ->
  (q < length w)%nat ->
  (nref ex c q <> 0 /\ trim_leaf c w q = Ok (q, c, w)) \/
  (nref ex c q = 0 /\ exists p c' w', pm c !! q = Some p /\ p <> q /\
     trim_leaf c w q = Ok (p, c', w') /\ cwf ex adj c' /\ pm c' = delete q (pm c) /\
     clinks c' = clinks c /\ wspec w c w' c').
Proof.
  intros W Hex [p Hq] Hl. pose proof Hq as Hq'. apply pm_lookup in Hq. destruct Hq as [r Hq].
  unfold trim_leaf. rewrite Hq. rewrite (cwf_refs _ _ _ W _ _ _ Hq). fold (nref ex c q).
  destruct (decide (nref ex c q = 0)) as [Z|Z]; [|by left].
  right. split; [done|].
  pose proof (occ_nonneg (pm c) q). pose proof (occ_nonneg (clinks c) q). pose proof (Hex q).
  unfold nref in Z.
  assert (O1 : occ (pm c) q = 0) by lia. assert (O2 : occ (clinks c) q = 0) by lia.
  assert (p <> q) as N by (intros ->; by apply (proj1 (occ_zero _ _) O1 q)).
  destruct (vadd_ok w q (-1) Hl) as (w' & -> & Lw & Hw). simpl.
  destruct (add_ref_spec c p (-1) ex) as (c' & E & P & K & RR); [by eapply cwf_closed|].
  rewrite E. simpl.
  set (d := mkChain (delete q (cdata c')) (clinks c')).
  assert (Pd : pm d = delete q (pm c)).
  { unfold d. rewrite <- P. unfold pm. simpl. by rewrite fmap_delete. }
  exists p, d, w'. split; [done|]. split; [done|]. split; [done|].
  split; [|split; [done|]; split; [done|]].
  2:{ split; [done|]. intros x. rewrite Hw, (ind_delete c d x q); [|done|by eexists].
      destruct (decide (x = q)); lia. }
  destruct W as [R L A D]. split.
  - intros y py ry Y. rewrite Pd. unfold d in *. simpl in *.
    rewrite lookup_delete_Some in Y. destruct Y as [Ny Y].
    rewrite (RR R _ _ _ Y), P, K, (occ_delete _ _ _ _ Hq'). unfold exat.
    destruct (decide (y = p)), (decide (p = y)); subst; try done; lia.
  - rewrite Pd. unfold d. simpl. rewrite K. intros x y X.
    rewrite lookup_delete_ne; [by eapply L|]. intros ->. by apply (proj1 (occ_zero _ _) O2 x).
  - rewrite Pd. intros y. destruct (decide (y = q)) as [->|Ny].
    { rewrite lookup_delete. by intros [? ?]. }
    rewrite lookup_delete_ne by done. intros Hy. destruct (A y Hy) as [r' Ar]. exists r'.
    by apply anc_delete.
  - rewrite Pd. intros y z Y. apply lookup_delete_Some in Y. destruct Y as [_ Y]. by apply D.
Qed.

(** [A] is a set of qubits each of which is held by a link, an extra reference or a child in [A] *)
Definition anchored (ex : nat -> Z) (A : nat -> Prop) (c : chain) : Prop :=
  forall x, A x -> is_Some (pm c !! x) ->
    (exists v, clinks c !! v = Some x) \/ (exists y, A y /\ pm c !! y = Some x) \/ 0 < ex x.

Definition tight_except (ex : nat -> Z) (q : nat) (c : chain) : Prop :=
  forall x, is_Some (pm c !! x) -> x <> q -> 1 <= nref ex c x.
Definition tight (ex : nat -> Z) (c : chain) : Prop :=
  forall x, is_Some (pm c !! x) -> 1 <= nref ex c x.

Lemma anchored_nref ex A c x : (forall x, 0 <= ex x) -> anchored ex A c -> A x -> is_Some (pm c !! x) ->
  1 <= nref ex c x.
Proof.
  intros Hex HA Ax Hx. unfold nref.
  pose proof (occ_nonneg (pm c) x). pose proof (occ_nonneg (clinks c) x). pose proof (Hex x).
  destruct (HA x Ax Hx) as [[v E]|[(y & _ & E)|E]].
  - pose proof (occ_pos _ _ _ E). lia.
  - pose proof (occ_pos _ _ _ E). lia.
  - lia.
Qed.

Definition below (c : chain) (n : nat) : Prop := forall q, is_Some (pm c !! q) -> (q < n)%nat.

Lemma trim_branch_spec fuel ex adj c w q : cwf ex adj c -> (forall x, 0 <= ex x) ->
  is_Some (pm c !! q) -> below c (length w) -> (size (pm c) < fuel)%nat ->
  exists q' c' w', trim_branch fuel c w q = Ok (q', c', w') /\ cwf ex adj c' /\
    clinks c' = clinks c /\ pm c' ⊆ pm c /\ is_Some (pm c' !! q') /\ wspec w c w' c' /\
    (forall A, anchored ex A c -> anchored ex A c' /\ forall x, A x -> is_Some (pm c !! x) -> is_Some (pm c' !! x)) /\
    (tight_except ex q c -> tight ex c') /\
    (forall x r, anc (pm c) x r -> is_Some (pm c' !! x) -> anc (pm c') x r).
Proof.
  revert c w q. induction fuel as [|fuel IH]; intros c w q W Hex Hq Hb Hf; [lia|].
  simpl. destruct (trim_leaf_spec ex adj c w q W Hex Hq (Hb _ Hq)) as
    [[Z ->]|(Z & p & c1 & w1 & Hp & N & -> & W1 & P1 & K1 & S1)]; simpl.
  - rewrite decide_True by done. exists q, c, w.
    repeat (split; [done|]). split; [apply wspec_refl|]. split; [done|]. split; [|done].
    intros T x Hx. destruct (decide (x = q)) as [->|Nx]; [|by apply T].
    pose proof (occ_nonneg (pm c) q). pose proof (occ_nonneg (clinks c) q). pose proof (Hex q).
    unfold nref in *. lia.
  - rewrite decide_False by done.
    assert (Hp1 : is_Some (pm c1 !! p)).
    { rewrite P1, lookup_delete_ne by done. by eapply cwf_closed. }
    destruct (IH c1 w1 p W1 Hex Hp1) as (q' & c' & w' & E & W' & K' & P' & Q' & S' & A' & T' & R').
    { intros x. rewrite P1. intros Hx. destruct S1 as [-> _]. apply Hb.
      destruct Hx as [? Hx]. apply lookup_delete_Some in Hx. destruct Hx. by eexists. }
    { rewrite P1. pose proof (size_delete_S _ _ _ Hp). lia. }
    exists q', c', w'. split; [done|]. split; [done|]. split; [by rewrite K'|].
    split. { etrans; [done|]. rewrite P1. apply delete_subseteq. }
    split; [done|]. split; [by eapply wspec_trans|].
    assert (Oz : occ (pm c) q = 0).
    { pose proof (occ_nonneg (pm c) q). pose proof (occ_nonneg (clinks c) q). pose proof (Hex q).
      unfold nref in Z. lia. }
    split; [|split].
    + intros A HA.
      assert (NA : ~ A q).
      { intros Aq. pose proof (anchored_nref _ _ _ _ Hex HA Aq Hq). lia. }
      assert (HA1 : anchored ex A c1).
      { intros x Ax Hx. rewrite P1 in *. rewrite K1.
        destruct (HA x Ax) as [?|[(y & Ay & Y)|?]]; auto.
        { destruct Hx as [? Hx]. apply lookup_delete_Some in Hx. destruct Hx. by eexists. }
        right; left. exists y. split; [done|]. rewrite lookup_delete_ne; [done|]. by intros ->. }
      destruct (A' A HA1) as [HA' Hk]. split; [done|].
      intros x Ax Hx. apply Hk; [done|]. rewrite P1, lookup_delete_ne; [done|]. by intros ->.
    + intros T. apply T'. intros x Hx Nx.
      assert (x <> q). { rewrite P1 in Hx. destruct Hx as [? Hx]. by apply lookup_delete_Some in Hx as [? _]; auto. }
      unfold nref. rewrite P1, K1, (occ_delete _ _ _ _ Hp), decide_False by done.
      assert (1 <= nref ex c x); [|unfold nref in *; lia]. apply T; [|done].
      rewrite P1, lookup_delete_ne in Hx by done. done.
    + intros x r Ax Hx. apply R'; [|done]. rewrite P1. apply anc_delete; [done|done|].
      intros ->. destruct Hx as [y Hx]. rewrite map_subseteq_spec in P'. apply P' in Hx.
      rewrite P1, lookup_delete in Hx. done.
Qed.
