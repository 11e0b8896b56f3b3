(** Every embedding reachable by a history of operations satisfies the invariant. *)
From stdpp Require Import base list numbers gmap fin_maps relations.
From Verif Require Import Base Spec ChainModel ChainProofs ChainProofs2 EmbModel EmbProofs EmbProofs2 EmbProofs3 EmbProofs4 EmbProofs5 EmbProofs6 EmbOps.
Local Open Scope Z_scope.

(** the parent map of the fixed chains *)
Definition fixmap (fixed : list (nat * list nat)) (v : nat) : gmap nat nat :=
  match (list_to_map fixed : gmap nat (list nat)) !! v with Some C => idm C | None => ∅ end.

Lemma fixmap_in fixed v C : NoDup fixed.*1 -> (v, C) ∈ fixed -> fixmap fixed v = idm C.
Proof. intros N H. unfold fixmap. by rewrite (elem_of_list_to_map_1 _ _ _ N H). Qed.

(** the initial chains lie in the domains, and the domains contain what can be searched *)
Definition dom_ok pb E (D : nat -> nat -> Prop) (initial : list (nat * list nat)) : Prop :=
  (forall v C q, (v, C) ∈ initial -> q ∈ C -> D v q) /\
  forall v q, (v < nv pb)%nat -> (q < nq pb)%nat -> reachable pb E v q -> D v q.
Lemma chain_input_dom pb E D fixed initial : chain_input pb fixed initial -> dom_ok pb E D initial ->
  init_pre pb E (mkFD (fixmap fixed) D) fixed initial.
Proof.
  intros [A B C K G] [D1 D2]. split; auto.
  - intros v l H. destruct (C v l H) as (? & ? & ?). split; [done|]. split; [done|]. by apply fixmap_in.
  - intros v l H. destruct (G v l H) as (? & ? & H3 & ?). split; [done|]. split; [done|]. intros q Hq. split; [by apply H3|by eapply D1].
Qed.
Lemma chain_input_pre pb E fixed initial : chain_input pb fixed initial -> init_pre pb E (anywhere (fixmap fixed)) fixed initial.
Proof. intros H. by apply chain_input_dom. Qed.

(** ** weights after initialization *)
Lemma on_links_weight e v f e' : on_links e v f = Ok e' -> eweight e' = eweight e.
Proof.
  unfold on_links. destruct (vget (chains e) v); simpl; [|done]. destruct (f a); simpl; [|done].
  destruct (vset (chains e) v a0); simpl; [|done]. by intros [= <-].
Qed.
Lemma linkup_weight pb e u v b e' : linkup pb e u v = Ok (b, e') -> eweight e' = eweight e.
Proof.
  unfold linkup. destruct (vget (chains e) u) as [cu|]; simpl; [|done].
  destruct (vget (chains e) v) as [cv|]; simpl; [|done].
  assert (G : (let! scan := linkup_scan pb cu (cqubits cv) in
      let hit := match scan with Some pq => Some pq
        | None => find_map (fun q => if ccount cv q then Some (q, q) else None) (cqubits cu) end in
      match hit with
      | Some (p, q) => let! e := on_links e u (fun c => set_link c v p) in
          let! e := on_links e v (fun c => set_link c u q) in Ok (true, e)
      | None => Ok (false, e) end) = Ok (b, e') -> eweight e' = eweight e).
  { destruct (linkup_scan pb cu (cqubits cv)); cbn [rbind]; [|done].
    destruct (match a with Some pq => Some pq | None => _ end) as [[p q]|]; [|by intros [= _ <-]].
    destruct (on_links e u _) as [e1|] eqn:E1; cbn [rbind]; [|done].
    destruct (on_links e1 v _) as [e2|] eqn:E2; cbn [rbind]; [|done]. intros [= _ <-].
    rewrite (on_links_weight _ _ _ _ E2). apply (on_links_weight _ _ _ _ E1). }
  destruct (get_link cu v), (get_link cv u); auto. by intros [= _ <-].
Qed.
Lemma init_one_weight pb vn e vC e' : init_one pb vn e vC = Ok e' -> eweight e' = eweight e.
Proof.
  destruct vC as [v C]. unfold init_one.
  destruct (vget (chains e) v); cbn [rbind]; [|done]. destruct (vget C 0); cbn [rbind]; [|done].
  destruct (set_link a v a0) as [c1|]; cbn [rbind]; [|done].
  destruct (adopt_loop _ _ _ _ _ _) as [[c2 hits]|]; cbn [rbind]; [|done].
  match goal with |- context [rbind ?x _] => destruct x as [c3|]; cbn [rbind]; [|done] end.
  destruct (vset (chains e) v c3) as [cs|]; cbn [rbind]; [|done].
  destruct (vget vn v) as [l|]; cbn [rbind]; [|done]. intros H.
  eapply (foldM_inv_ok _ (fun _ e1 => eweight e1 = eweight e)) in H; [done|done|].
  intros dn u rest e1 e2 _ I1. destruct (decide (v < u)%nat); [|by intros [= <-]].
  destruct (linkup pb e1 v u) as [[b e3]|] eqn:L; cbn [rbind]; [|done]. intros [= <-].
  rewrite (linkup_weight _ _ _ _ _ _ L). done.
Qed.

Lemma sumind_replicate n q : sumind (replicate n empty_chain) q = 0.
Proof. induction n as [|n IH]; simpl; [done|]. rewrite IH, ind_empty. done. Qed.

Lemma wexact_new pb : wexact (emb_new pb).
Proof.
  intros q. simpl. rewrite sumind_replicate. unfold wt. destruct (replicate _ 0 !! q) eqn:H; [|done].
  apply lookup_replicate in H as [-> _]. done.
Qed.

Lemma set_chain_wexact e v C e' : wexact e -> NoDup C -> chains e !! v = Some empty_chain ->
  (forall q, q ∈ C -> (q < length (eweight e))%nat) -> set_chain e v C = Ok e' -> wexact e'.
Proof.
  intros W ND Hv HC H. unfold set_chain, on_chain in H. rewrite (vget_ok _ _ _ Hv) in H. cbn [rbind] in H.
  unfold assign_vec in H. assert (Hc : clear empty_chain (eweight e) = Ok (empty_chain, eweight e)) by done.
  rewrite Hc in H. cbn [rbind] in H.
  destruct (wadd_all_spec 1 C (eweight e) HC ND) as (w' & Ew & Lw & Hw). rewrite Ew in H. cbn [rbind] in H.
  rewrite vset_ok in H by (by eapply lookup_lt_Some). cbn [rbind] in H. injection H as <-.
  eapply wexact_one; eauto. intros x. rewrite Hw, ind_empty.
  change (mkChain _ ∅) with (vec_chain C).
  destruct (decide (x ∈ C)) as [D|D].
  - rewrite ind_in; [lia|]. by apply qin_vec.
  - rewrite ind_out; [lia|]. destruct (cdata (vec_chain C) !! x) eqn:Q; [|done].
    destruct D. apply qin_vec. by eexists.
Qed.

Section inv.
Context (pb : problem) (E : nat -> nat -> Prop).

Lemma assign_wexact (l dn : list (nat * list nat)) e e' : assigned pb dn e -> NoDup (dn ++ l).*1 ->
  (forall v C, (v, C) ∈ dn ++ l -> (v < nv pb + nf pb)%nat /\ (forall q, q ∈ C -> (q < nq pb + nr pb)%nat) /\ NoDup C) ->
  wexact e -> foldM (fun e '(v, C) => set_chain e v C) l e = Ok e' -> wexact e'.
Proof.
  revert dn e. induction l as [|[v C] l IH]; intros dn e A ND Hk W H.
  { cbn in H. by injection H as <-. }
  cbn [foldM] in H. destruct (set_chain e v C) as [e1|] eqn:S1; cbn [rbind] in H; [|done].
  destruct (Hk v C) as (Lv & HC & NC). { apply elem_of_app. right; left. }
  destruct (assign_loop pb [(v, C)] dn e A) as (e1' & S1' & A').
  { rewrite (cons_middle (v, C)), app_assoc, fmap_app in ND. by apply NoDup_app in ND as [? _]. }
  { intros v' C' Hin. destruct (Hk v' C') as (? & ? & _); [|done].
    rewrite (cons_middle (v, C)), app_assoc. apply elem_of_app. by left. }
  cbn [foldM] in S1'. rewrite S1 in S1'. cbn [rbind] in S1'. injection S1' as <-.
  eapply (IH (dn ++ [(v, C)]) e1); [done| | | |exact H].
  - by rewrite <- app_assoc.
  - intros v' C'. rewrite <- app_assoc. apply Hk.
  - destruct A as (L1 & L2 & A1 & A2). eapply set_chain_wexact; eauto.
    + apply A2; [|lia]. rewrite fmap_app in ND. apply NoDup_app in ND as (_ & ND & _).
      intros Hin. apply (ND v Hin). simpl. left.
    + rewrite L2. done.
Qed.

Lemma emb_init_dom D vn fixed initial e : pb_wf pb -> vn_ok pb E vn -> chain_input pb fixed initial -> dom_ok pb E D initial ->
  emb_init pb vn fixed initial = Ok e -> einv pb E (mkFD (fixmap fixed) D) e /\ wexact e.
Proof.
  intros PW [VW HE] CI HD He. pose proof (chain_input_dom _ _ _ _ _ CI HD) as IP.
  destruct (emb_init_spec pb E (mkFD (fixmap fixed) D) vn fixed initial) as (e' & He' & I & H1 & H2); auto.
  { intros a b. by apply HE. }
  rewrite He in He'. injection He' as <-. split; [done|].
  unfold emb_init in He.
  assert (A0 : assigned pb [] (emb_new pb)).
  { split; [by simpl; rewrite replicate_length|]. split; [by simpl; rewrite replicate_length|]. split.
    - intros v C H. by apply elem_of_nil in H.
    - intros v _ Lv. simpl. by apply lookup_replicate_2. }
  assert (NDa : NoDup (fixed ++ initial).*1).
  { rewrite fmap_app. apply NoDup_app. split; [apply (ci_fnd _ _ _ CI)|]. split; [|apply (ci_ind _ _ _ CI)].
    intros v K1 K2. apply elem_of_list_fmap in K1 as ([v1 C1] & -> & K1). apply elem_of_list_fmap in K2 as ([v2 C2] & Ev & K2).
    simpl in Ev. subst v2. apply (ci_fkeys _ _ _ CI) in K1 as [K1 _]. apply (ci_ikeys _ _ _ CI) in K2 as [K2 _]. simpl in *. lia. }
  assert (Hk : forall v C, (v, C) ∈ fixed ++ initial -> (v < nv pb + nf pb)%nat /\
     (forall q, q ∈ C -> (q < nq pb + nr pb)%nat) /\ NoDup C).
  { intros v C H. apply elem_of_app in H as [H|H].
    - destruct (ci_fkeys _ _ _ CI _ _ H) as (? & ? & ?). split; [lia|done].
    - destruct (ci_ikeys _ _ _ CI _ _ H) as (? & _ & Hq & ?). split; [lia|]. split; [|done].
      intros q Hin. apply Hq in Hin. lia. }
  destruct (assign_loop pb fixed [] (emb_new pb) A0) as (e1 & E1 & A1).
  { apply (ci_fnd _ _ _ CI). }
  { intros v C H. destruct (Hk v C) as (? & ? & _); [apply elem_of_app; by left|done]. }
  assert (W1 : wexact e1).
  { eapply (assign_wexact fixed [] (emb_new pb)); eauto using wexact_new.
    - apply (ci_fnd _ _ _ CI).
    - intros v C H. apply Hk. apply elem_of_app. by left. }
  rewrite E1 in He. cbn [rbind] in He.
  assert (Ef : forall s, foldM (fun e '(v, C) => if fixedb pb v then Ok e else set_chain e v C) initial s =
               foldM (fun e '(v, C) => set_chain e v C) initial s).
  { intros s. assert (G : forall l, (forall v C, (v, C) ∈ l -> (v < nv pb)%nat) -> forall s,
       foldM (fun e '(v, C) => if fixedb pb v then Ok e else set_chain e v C) l s =
       foldM (fun e '(v, C) => set_chain e v C) l s).
    { induction l as [|[v C] l IH]; intros Hl s'; [done|]. cbn [foldM]. unfold fixedb at 1.
      pose proof (Hl v C ltac:(left)). destruct (Nat.leb_spec (nv pb) v); [lia|].
      destruct (set_chain s' v C); cbn [rbind]; [|done]. apply IH. intros v' C' H'. apply (Hl v' C'). by right. }
    apply G. intros v C Hin. by apply (ci_ikeys _ _ _ CI) in Hin as [? _]. }
  rewrite Ef in He. simpl in A1.
  destruct (assign_loop pb initial fixed e1 A1 NDa) as (e2 & E2 & A2).
  { intros v C H. destruct (Hk v C H) as (? & ? & _). done. }
  assert (W2 : wexact e2) by (eapply (assign_wexact initial fixed e1); eauto).
  rewrite E2 in He. cbn [rbind] in He.
  assert (EW : eweight e = eweight e2).
  { eapply (foldM_inv_ok _ (fun _ e1 => eweight e1 = eweight e2)) in He; [done|done|].
    intros dn vC rest ea eb _ Ia Hb. rewrite (init_one_weight _ _ _ _ _ Hb). done. }
  destruct A2 as (L1 & L2 & B1 & B2).
  intros q. rewrite EW, W2. apply sumind_ext.
  { rewrite L1. symmetry. apply (ei_len _ _ _ _ I). }
  intros v c2 c K2 K. destruct (decide (v ∈ (fixed ++ initial).*1)) as [Hin|Hn].
  - apply elem_of_list_fmap in Hin as ([v' C] & -> & Hin). simpl in *.
    rewrite (B1 _ _ Hin) in K2. injection K2 as <-. destruct (H1 _ _ Hin) as (c' & K' & Q).
    rewrite K in K'. injection K' as <-. unfold ind.
    destruct (ccount c q) eqn:X, (ccount (vec_chain C) q) eqn:Y; try done.
    + apply ccount_true in X. apply Q in X. apply qin_vec in X. apply ccount_true in X. congruence.
    + apply ccount_true, qin_vec, Q, ccount_true in Y. congruence.
  - assert (Lv : (v < nv pb + nf pb)%nat) by (rewrite <- L1; by eapply lookup_lt_Some).
    rewrite (B2 v Hn Lv) in K2. injection K2 as <-. destruct (H2 v Hn Lv) as (c' & K' & Z).
    rewrite K in K'. injection K' as <-. rewrite ind_empty. symmetry. apply ind_out.
    apply pm_None. apply csize_0 in Z. rewrite Z. apply lookup_empty.
Qed.
Lemma emb_init_wexact vn fixed initial e : pb_wf pb -> vn_ok pb E vn -> chain_input pb fixed initial ->
  emb_init pb vn fixed initial = Ok e -> einv pb E (anywhere (fixmap fixed)) e /\ wexact e.
Proof. intros PW V CI. by apply (emb_init_dom (fun _ _ => True)). Qed.

Lemma walk_wp par goal q : walk (adjq pb) (nq pb) par goal q ->
  exists n, wp (adjq pb) (fun x => (x < nq pb)%nat) par goal n q.
Proof.
  induction 1 as [q G|q p N L P A W [n IH]].
  - exists 0%nat. by constructor.
  - exists (S n). by econstructor.
Qed.
Lemma startable_wp par goal q : startable (adjq pb) (nq pb) par goal q ->
  wp_start (adjq pb) (fun x => (x < nq pb)%nat) par goal q.
Proof.
  intros [[G P]|[N W]]; [by left|]. right. apply walk_wp in W as [n W]. destruct n; [|eauto].
  inversion W. done.
Qed.
Lemma wp_goal par (g g' : nat -> Prop) ok n q : (forall x, g x <-> g' x) ->
  wp (adjq pb) ok par g n q -> wp (adjq pb) ok par g' n q.
Proof.
  intros H. induction 1 as [q G|n q p N O P A W IH].
  - apply wp_in. by apply H.
  - eapply wp_step; eauto. by rewrite <- H.
Qed.
Lemma wp_start_goal par (g g' : nat -> Prop) ok q : (forall x, g x <-> g' x) ->
  wp_start (adjq pb) ok par g q -> wp_start (adjq pb) ok par g' q.
Proof.
  intros H [[A B]|[n A]]; [left; split; [by apply H|done]|right; exists n; eapply wp_goal; eauto].
Qed.

Lemma in_chain_qin e v c q : chains e !! v = Some c -> (in_chain e v q <-> qin c q).
Proof. intros H. split; [intros (c' & H' & Q)|by exists c]. rewrite H in H'. by injection H' as <-. Qed.
Lemma nonempty_in_chain e v : nonempty e v <-> exists q, in_chain e v q.
Proof.
  split.
  - intros (c & H & N). apply csize_pos in N as [q N]. exists q, c. done.
  - intros (q & c & H & Q). exists c. split; [done|]. apply csize_pos. by exists q.
Qed.
Lemma no_chain_absent e u : no_chain e u -> absent e u.
Proof.
  intros [A B]. split; [done|]. intros v c H. destruct (clinks c !! u) eqn:K; [|done].
  exfalso. apply (B v). exists c. split; [done|]. by eexists.
Qed.

(** the rows of admissible neighbour lists *)
Lemma vn_ok_row vn u l : vn_ok pb E vn -> vn !! u = Some l ->
  (forall v, v ∈ l <-> E u v) /\ NoDup l /\ (forall v, v ∈ l -> v <> u /\ (v < nv pb + nf pb)%nat).
Proof.
  intros [VW HE] H.
  assert (X : forall v, v ∈ l <-> E u v).
  { intros v. rewrite <- HE. split; [by exists l|]. intros (l' & H' & Hv). congruence. }
  split; [done|]. split; [by eapply vnw_nodup|]. intros v Hv.
  assert (nbr vn u v) by (by exists l). split; [by eapply vnw_loop|by eapply vnw_range].
Qed.
Lemma vn_ok_get vn u : vn_ok pb E vn -> (u < nv pb + nf pb)%nat -> exists l, vn !! u = Some l.
Proof. intros [VW _] H. apply lookup_lt_is_Some_2. by rewrite (vnw_len _ _ VW). Qed.
Lemma vn_ok_sym vn u v : vn_ok pb E vn -> (u < nv pb)%nat -> E v u -> E u v.
Proof. intros [VW HE] Hu H. apply HE. eapply vnw_sym; [done|by apply HE|done]. Qed.

Lemma attempt_built F vn u e : (forall v q, fd_dom F v q) -> einv pb E F e -> forall e', attempt pb E vn u e e' ->
  exists q l, vn !! u = Some l /\ built pb E F (fun x => (x < nq pb)%nat) e u q l e' /\ absent e u /\ (u < nv pb)%nat.
Proof.
  intros Hdom I e' (q & par & dist & vis & l & V & Lu & Lq & Hl & NC & HS & HC).
  destruct (vn_ok_row _ _ _ V Hl) as (X & ND & R). apply no_chain_absent in NC.
  destruct (construct_spec pb E F (fun x => (x < nq pb)%nat)) with (vn := vn) (T := e) (u := u) (q := q) (l := l)
    (parents := par) (distances := dist) (visited := vis) as (e'' & H & B); auto.
  - intros v Hv. destruct (R v Hv). split; [done|]. split; [done|]. by apply X.
  - intros v Hv Nv. pose proof (proj1 (nonempty_in_chain _ _) Nv) as Nv'. destruct (HS v Hv Nv') as (pr & ds & vs & A1 & A2 & A3 & A4 & A5 & A6 & A7 & A8).
    destruct Nv as (c & Hc & _). exists c, pr, ds, vs. repeat (split; [done|]).
    assert (G : forall x, startable (adjq pb) (nq pb) pr (in_chain e v) x -> wp_start (adjq pb) (fun x => (x < nq pb)%nat) pr (qin c) x).
    { intros x K. eapply wp_start_goal; [|by apply startable_wp]. intros y. by apply in_chain_qin. }
    split; [by apply G|]. intros p d s P1 P2 P3 P4 P5. apply G. eapply A8; eauto.
  - rewrite HC in H. injection H as <-. by exists q, l.
Qed.

Lemma retried_same F u e e2 : (forall v q, fd_dom F v q) -> einv pb E F e -> wexact e -> retried pb E u e e2 ->
  chains e2 = chains e /\ eweight e2 = eweight e /\ efrozen e2 = efrozen e.
Proof.
  intros Hdom I W. induction 1 as [|vn e1 e2 e3 _ (C1 & W1 & F1) At Te]; [done|].
  assert (I1 : einv pb E F e1) by (eapply einv_chains; eauto; congruence).
  assert (X1 : wexact e1) by (eapply wexact_chains; eauto).
  pose proof At as (q0 & _ & _ & _ & _ & V & _).
  destruct (attempt_built F vn u e1 Hdom I1 e2 At) as (q & l & Hl & B & Ab & Lu).
  destruct (vn_ok_row _ _ _ V Hl) as (Xl & ND & R).
  destruct (tear_out_spec pb E F vn e2 u l) as (e3' & H & T3 & Fr); auto.
  { apply (b_inv _ _ _ _ _ _ _ _ _ B). }
  { intros v [K|K] _; apply Xl; [done|]. by eapply vn_ok_sym. }
  rewrite Te in H. injection H as <-.
  pose proof (built_torn pb E F _ _ _ _ _ _ _ Ab B T3 I1) as C3.
  assert (X3 : wexact e3).
  { eapply (torn_wexact pb e2); [by apply (b_wex _ _ _ _ _ _ _ _ _ B)|exact T3|].
    destruct (b_cu _ _ _ _ _ _ _ _ _ B) as (cu & Hc & _). by exists cu. }
  split; [congruence|]. split.
  - rewrite <- W1. eapply wexact_det; eauto.
    destruct T3 as (_ & L3 & _). rewrite L3.
    rewrite (ei_wlen _ _ _ _ (b_inv _ _ _ _ _ _ _ _ _ B)), (ei_wlen _ _ _ _ I1). done.
  - rewrite Fr, (b_fr _ _ _ _ _ _ _ _ _ B). done.
Qed.

Lemma reach_inv_any e : pb_wf pb -> reach pb E e -> exists F, (forall v q, fd_dom F v q) /\ einv pb E F e /\ wexact e.
Proof.
  intros PW. induction 1 as [|vn fixed initial e V CI He|dst src e _ (Fd & HDd & Id & Wd) _ (Fs & HD & Is & Ws) He
    |vn u e e' _ (F & HD & I & W) V Lu He|vn u e e' _ (F & HD & I & W) V Lu He|u e n e' _ (F & HD & I & W) Lu He
    |u e n e1 e2 e3 _ (F & HD & I & W) Lu He1 Re He|vn u e e' _ (F & HD & I & W) At|vn u t e e' _ (F & HD & I & W) V Lu HL He].
  - exists (anywhere (fun _ => ∅)). split; [done|]. split; [|apply wexact_new]. split.
    + simpl. by rewrite replicate_length.
    + simpl. by rewrite replicate_length.
    + simpl. intros v c H. apply lookup_replicate in H as [-> _]. apply cwf_empty.
    + simpl. intros v c q H Q. apply lookup_replicate in H as [-> _]. by destruct Q.
    + simpl. intros v c H. apply lookup_replicate in H as [-> _]. intros x. rewrite pm_empty, lookup_empty. by intros [? ?].
    + simpl. intros u v c q H _ K. apply lookup_replicate in H as [-> _]. done.
    + simpl. intros u c r H K. apply lookup_replicate in H as [-> _]. done.
    + simpl. intros v c H _. apply lookup_replicate in H as [-> _]. apply pm_empty.
    + done.
  - exists (anywhere (fixmap fixed)). split; [done|]. by eapply emb_init_wexact.
  - exists Fs. split; [done|]. destruct (emb_assign_spec dst src) as (e' & H & C & W & _ & L).
    + by rewrite (ei_len _ _ _ _ Id), (ei_len _ _ _ _ Is).
    + done.
    + intros v c H. eapply ei_below_w; eauto.
    + intros v c H. rewrite (ei_wlen _ _ _ _ Id). by eapply ei_below.
    + rewrite He in H. injection H as <-. split; [|done].
      eapply einv_chains; eauto. rewrite L, (ei_wlen _ _ _ _ Id), (ei_wlen _ _ _ _ Is). done.
  - exists F. split; [done|]. destruct (vn_ok_get vn u V) as [l Hl]; [lia|].
    destruct (vn_ok_row _ _ _ V Hl) as (X & ND & R).
    destruct (steal_all_spec pb E F vn e u l) as (e1 & H & S); auto. rewrite He in H. injection H as <-.
    split; [by apply (st_inv _ _ _ _ _ _ S)|by apply (st_wex _ _ _ _ _ _ S)].
  - exists F. split; [done|]. destruct (vn_ok_get vn u V) as [l Hl]; [lia|].
    destruct (vn_ok_row _ _ _ V Hl) as (X & ND & R).
    destruct (tear_out_spec pb E F vn e u l) as (e1 & H & T & _); auto.
    { intros v [K|K] _; apply X; [done|]. by eapply vn_ok_sym. }
    rewrite He in H. injection H as <-. split; [by eapply torn_einv|]. eapply (torn_wexact pb e); [done|exact T|].
    destruct (ei_get _ _ _ e u I) as [c K]; [lia|]. by exists c.
  - exists F. split; [done|]. destruct (freeze_out_spec pb E F e u) as (n' & e1 & H & T & _ & _); auto.
    rewrite He in H. injection H as <- <-. split; [by eapply torn_einv|]. eapply (torn_wexact pb e); [done|exact T|].
    destruct (ei_get _ _ _ e u I) as [c K]; [lia|]. by exists c.
  - exists F. split; [done|]. destruct (freeze_out_spec pb E F e u) as (n' & e1' & H & T & Fz & _); auto.
    rewrite He1 in H. injection H as <- <-.
    assert (I1 : einv pb E F e1) by (by eapply torn_einv).
    assert (W1 : wexact e1).
    { eapply (torn_wexact pb e); [done|exact T|]. destruct (ei_get _ _ _ e u I) as [c K]; [lia|]. by exists c. }
    destruct (retried_same F u e1 e2 HD I1 W1 Re) as (C2 & W2 & F2).
    destruct (thaw_back_spec pb E F e e2 u) as (e3' & H & C3 & W3); auto.
    { unfold torn. rewrite C2, W2. done. } { by rewrite F2. }
    rewrite He in H. injection H as <-.
    split; [eapply (einv_chains pb E F e); [done|done|by rewrite W3]|by eapply (wexact_chains e)].
  - exists F. split; [done|]. destruct (attempt_built F vn u e HD I e' At) as (q & l & Hl & B & _ & _).
    split; [apply (b_inv _ _ _ _ _ _ _ _ _ B)|by apply (b_wex _ _ _ _ _ _ _ _ _ B)].
  - exists F. split; [done|]. destruct (vn_ok_get vn u V) as [l Hl]; [lia|].
    destruct (vn_ok_row _ _ _ V Hl) as (X & ND & R).
    destruct (flip_back_spec pb E F vn e u t l) as (e1 & H & S); auto.
    { intros v Hv Lv Nv. apply HL; [by apply X|done|]. by apply nonempty_in_chain. }
    rewrite He in H. injection H as <-.
    split; [by apply (st_inv _ _ _ _ _ _ S)|by apply (st_wex _ _ _ _ _ _ S)].
Qed.
Lemma reach_inv e : pb_wf pb -> reach pb E e -> exists F, einv pb E F e /\ wexact e.
Proof. intros PW R. destruct (reach_inv_any e PW R) as (F & _ & H). by exists F. Qed.
End inv.
