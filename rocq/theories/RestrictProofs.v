(** Proofs about runs with restricted chains: bounds of the two chain loops, and restrictions for
    which the search areas agree. *)
From stdpp Require Import base list numbers gmap sorting.
From Verif Require Import Base ChainModel EmbModel GraphModel QueueModel PathModel ParamModel SpecGraph SpecTop.

(** ** [trim_branch]: every round but the last removes a qubit *)
Lemma trim_leaf_size c w q p c' w' : trim_leaf c w q = Ok (p, c', w') -> p <> q -> S (csize c') = csize c.
Proof.
  unfold trim_leaf. intros H N. destruct (cdata c !! q) as [[a r]|] eqn:Q; [|done].
  destruct (decide (r = 0%Z)) as [->|]; [|by injection H as <- <- <-].
  destruct (vadd w q (-1)) as [w1|] eqn:W; [|done]. cbn [rbind] in H.
  unfold add_ref in H. destruct (cdata c !! a) as [[b s]|] eqn:A; [|done]. cbn [rbind] in H.
  injection H as <- <- <-. unfold csize. simpl.
  assert (K : is_Some (<[a:=(b, (s + -1)%Z)]> (cdata c) !! q)) by (apply lookup_insert_is_Some'; eauto).
  rewrite map_size_delete. destruct K as [y ->]. rewrite map_size_insert, A.
  assert (size (cdata c) <> 0); [|unfold id; lia]. apply map_size_non_empty_iff. intros E. rewrite E in Q. done.
Qed.
Lemma trim_branch_bound m : forall c w q r, trim_branch m c w q = Ok r ->
  forall n, csize c < n -> trim_branch n c w q = Ok r.
Proof.
  induction m as [|m IH]; intros c w q r H n L; [done|]. destruct n as [|n]; [lia|]. simpl in *.
  destruct (trim_leaf c w q) as [[[p c'] w']|] eqn:T; [|done]. cbn [rbind] in *.
  destruct (decide (p = q)) as [->|N]; [done|]. apply IH; [done|]. apply trim_leaf_size in T; [lia|done].
Qed.

(** ** [link_path]: the parents followed from [p] either reach the other chain or repeat *)
Fixpoint walk (par : list (option nat)) (p k : nat) : option nat :=
  match k with
  | 0 => Some p
  | S k => match walk par p k with Some x => match par !! x with Some o => o | None => None end | None => None end
  end.
Lemma walk_shift par p p' k : par !! p = Some (Some p') -> walk par p (S k) = walk par p' k.
Proof.
  intros H. induction k as [|k IH]; [simpl; by rewrite H|].
  change (walk par p (S (S k))) with (match walk par p (S k) with Some x => match par !! x with Some o => o | None => None end | None => None end).
  by rewrite IH.
Qed.
Lemma walk_cong par p i j k : walk par p i = walk par p j -> walk par p (i + k) = walk par p (j + k).
Proof. intros H. induction k as [|k IH]; [by rewrite !Nat.add_0_r|]. rewrite <- !plus_n_Sm. simpl. by rewrite IH. Qed.
Definition hits (other : chain) par p k : Prop := exists x, walk par p k = Some x /\ ccount other x = true.
Lemma loop_hits m : forall this other w par q p r, link_path_loop m this other w par q p = Ok r ->
  exists k, hits other par p k /\ (forall j, j < k -> ~ hits other par p j) /\
    forall n, k <= n -> link_path_loop n this other w par q p = Ok r.
Proof.
  induction m as [|m IH]; intros this other w par q p r H.
  - simpl in H. destruct (ccount other p) eqn:C; [|done]. exists 0. split; [by exists p|]. split; [lia|].
    intros n _. destruct n; simpl; by rewrite C.
  - simpl in H. destruct (ccount other p) eqn:C.
    { exists 0. split; [by exists p|]. split; [lia|]. intros n _. destruct n; simpl; by rewrite C. }
    match type of H with rbind ?X _ = _ => destruct X as [[t' w']|] eqn:T end; [|done]. cbn [rbind] in H.
    destruct (vget par p) as [np|] eqn:P; [|done]. cbn [rbind] in H. destruct np as [p'|]; [|done].
    assert (P' : par !! p = Some (Some p')). { unfold vget in P. destruct (par !! p); [by injection P as ->|done]. }
    destruct (IH _ _ _ _ _ _ _ H) as (k & (x & Hx & Ox) & Hf & Hn).
    exists (S k). split; [|split].
    + exists x. split; [|done]. by rewrite (walk_shift _ _ _ _ P').
    + intros [|j] Hj (y & Hy & Oy); [simpl in Hy; congruence|]. apply (Hf j); [lia|].
      exists y. split; [|done]. by rewrite <- (walk_shift _ _ _ _ P').
    + intros n L. destruct n as [|n]; [lia|]. simpl. rewrite C, T. cbn [rbind]. rewrite P. cbn [rbind]. apply Hn. lia.
Qed.
Lemma walk_prefix par p k x : walk par p k = Some x -> forall j, j <= k -> is_Some (walk par p j).
Proof.
  revert x. induction k as [|k IH]; intros x H j L; [replace j with 0 by lia; by eexists|].
  destruct (decide (j = S k)) as [->|]; [by eexists|].
  simpl in H. destruct (walk par p k) as [y|] eqn:W; [|done]. apply (IH y); [done|lia].
Qed.
Lemma first_hit_bound other par p k : hits other par p k -> (forall j, j < k -> ~ hits other par p j) -> k <= length par.
Proof.
  intros (x & Hx & Ox) Hf.
  assert (D : NoDup (walk par p <$> seq 0 k)).
  { apply NoDup_alt. intros i j y Hi Hj. rewrite list_lookup_fmap in Hi, Hj.
    destruct (seq 0 k !! i) as [i'|] eqn:Si; [|done]. destruct (seq 0 k !! j) as [j'|] eqn:Sj; [|done].
    apply lookup_seq in Si as [-> Li]. apply lookup_seq in Sj as [-> Lj]. simpl in *.
    assert (G : forall a b, a < b -> b < k -> walk par p a = walk par p b -> False).
    { intros a b Lab Lb E. apply (Hf (a + (k - b))); [lia|]. exists x. split; [|done].
      rewrite (walk_cong _ _ a b _ E). by replace (b + (k - b)) with k by lia. }
    destruct (decide (i < j)); [exfalso; apply (G i j); [done|done|congruence]|].
    destruct (decide (j < i)); [exfalso; apply (G j i); [done|done|congruence]|]. lia. }
  assert (S : forall o, o ∈ (walk par p <$> seq 0 k) -> o ∈ (Some <$> seq 0 (length par))).
  { intros o (j & -> & Hj)%elem_of_list_fmap. apply elem_of_seq in Hj.
    destruct (walk_prefix par p k x Hx (S j)) as [z Hz]; [lia|]. simpl in Hz.
    destruct (walk par p j) as [y|] eqn:W; [|done]. destruct (par !! y) as [oo|] eqn:Y; [|done].
    apply elem_of_list_fmap. exists y. split; [done|]. apply elem_of_seq. apply lookup_lt_Some in Y. lia. }
  pose proof (NoDup_submseteq _ _ D S) as L. apply submseteq_length in L. by rewrite !fmap_length, !seq_length in L.
Qed.
Lemma link_path_bound m this other w par q p r : link_path_loop m this other w par q p = Ok r ->
  link_path_loop (length par) this other w par q p = Ok r.
Proof. intros H. destruct (loop_hits _ _ _ _ _ _ _ _ H) as (k & K & Hf & Hn). apply Hn. by eapply first_hit_bound. Qed.

(** ** restrictions whose search areas agree *)
Lemma apart_even vg qg p :
  (forall u v C C', edge vg u v -> (u, C) ∈ p_restrict p -> (v, C') ∈ p_restrict p -> False) -> even_restriction vg qg p.
Proof.
  intros H u v v' q _ _ _ E1 E2 _.
  destruct (decide (Exists (fun x => x.1 = u) (p_restrict p))) as [X|X].
  - apply Exists_exists in X as ([u' C] & HC & <-). right. intros C' H'. exfalso. simpl in E2. eauto.
  - left. intros C HC. exfalso. apply X, Exists_exists. by exists (u, C).
Qed.
Lemma alike_even vg qg p (R : list nat) : graph_wf vg ->
  (forall v C, (v, C) ∈ p_restrict p -> forall q, q ∈ C <-> q ∈ R) ->
  (forall v, v < gn vg -> exists C, (v, C) ∈ p_restrict p) -> even_restriction vg qg p.
Proof.
  intros W HR HA u v v' q _ _ _ E1 _ H. left. intros C HC. apply (HR u C HC).
  destruct H as [H|H]; [apply (HR u C HC); by apply H|].
  destruct (HA v) as [C' H']; [destruct E1 as [E1|E1]; apply W in E1; lia|].
  apply (HR v C' H'). by apply H.
Qed.

From Verif Require Import Wp ChainProofs SpecEmb GraphProofs ParamProofs2 EmbProofs EmbProofs2 EmbProofs5 EmbProofs7 EmbProofs9
  RunProofs1 RunProofs3 RunProofs5 TopProofs TopProofs2.

(** ** chains stay on qubits their variable or a neighbour may use *)
Lemma top_dom_ok vg qg p o (G : good_input vg qg p o) pp (PO : pp_ok vg qg p pp) :
  0 < pp_qubits pp - pp_reserved pp ->
  dom_ok (top_pb pp) (nbr (pp_vnbrs pp))
    (fun i j => forall v q, pp_screw pp !! v = Some i -> located (pp_comps pp) q 0 j -> may_occupy vg p v q) (pp_initial pp).
Proof.
  intros H0. split.
  - intros i D j HD Hj v q Hv Lq. right; right. destruct (po_initial _ _ _ _ PO) as (_ & _ & IK).
    apply IK in HD as (v' & C & HC & Hv' & Hf). assert (v' = v) as -> by (by eapply screw_inj). exists C. split; [done|].
    apply (relabel_in _ _ _ _ PO _ _ _ Hf) in Hj as (x & Hx & Lx). by assert (x = q) as -> by (by eapply located_inj).
  - intros i j _ _ [Hu|(k & Ek & Hu)] v q Hv Lq.
    + left. by apply (top_may_use vg qg p o G pp PO v i q j H0 Hv Lq).
    + right; left. destruct (po_vn _ _ _ _ PO) as (_ & _ & Kv). apply Kv in Ek as (_ & x & y & Hx & Hy & _ & EE).
      assert (x = v) as -> by (by eapply screw_inj). exists y. split; [done|].
      by apply (top_may_use vg qg p o G pp PO y k q j H0 Hy Lq).
Qed.

Lemma run_confined vg qg p o r : good_input vg qg p o -> find_embedding vg qg p o = Ok r -> confined vg p r.
Proof.
  intros G Hr. cut (wpo (fun _ => True) (find_embedding vg qg p o) (confined vg p)); [by rewrite Hr|]. clear Hr r.
  destruct (process_spec vg qg p (o_sort o) (good_input_ok _ _ _ _ G) (gi_sort _ _ _ _ G)) as (cp & R & D & HR & Hp).
  unfold find_embedding. destruct Hp as [(pp & -> & V & PO & Ec)|[-> NV]]; cbn [rbind]; [|done]. subst cp.
  destruct (top_env vg qg p o G pp PO) as [[-> TS]|(e & m & He & Ep & H0 & Ew & Esk & Ei & Ef & Epa & Hmm)]; cbn [rbind]; [done|].
  rewrite He. cbn [rbind]. pose proof (top_init vg qg p o G pp PO (top_dom_ok vg qg p o G pp PO H0) H0) as (init & Hi & I & W & _).
  rewrite Ep, Hi. cbn [rbind]. rewrite <- Ep. eapply wpr_step.
  { eapply wpr_weak; [eapply (top_heuristic vg qg p o G pp PO false); eauto; done|]. done. }
  intros [[[ok s] c1] c2] (R' & A1 & A2 & Hpost). cbv beta iota.
  assert (Lb : length (chains (best s)) = gn vg /\ forall v c, chains (best s) !! v = Some c -> below c (pp_qubits pp)).
  { rewrite <- (top_nq vg qg p o G pp PO), <- (top_nv _ _ _ _ PO). destruct Hpost as [(_ & _ & ->)|((Fu & _) & _)].
    - rewrite top_best_new. pose proof (new_abl e) as [L1 _ _ L2]. rewrite Ep in L1, L2. rewrite Ep. done.
    - destruct Fu as (If & _ & _). rewrite Ep in If. split; [apply (ei_len _ _ _ _ If)|apply (ei_below _ _ _ _ If)]. }
  destruct Lb as [Lb1 Lb2]. destruct (get_chains vg qg p o G pp PO (best s) H0 Lb1 Lb2) as (cs & Hcs & Rs).
  destruct (p_return_overlap p || ok); cbn [rbind]; [|by intros ? ? ? [=]].
  rewrite Hcs. cbn [rbind]. intros cs' v q [= <-] Nf HQ. simpl in *.
  destruct Rs as (_ & _ & Rc). apply Rc in HQ as (i & j & Hi' & Lq & (c & Hc & Q)).
  destruct Hpost as [(_ & _ & Hb)|((Fu & _) & _)].
  - rewrite Hb, top_best_new in Hc. simpl in Hc. apply lookup_replicate in Hc as [-> _]. by destruct Q.
  - destruct Fu as (If & _ & _). rewrite Ep in If.
    destruct (ei_home _ _ _ _ If i c j Hc Q) as [_ Hd]; [by apply (screw_free vg qg p pp PO v i Hi')|].
    by apply (Hd v q).
Qed.
