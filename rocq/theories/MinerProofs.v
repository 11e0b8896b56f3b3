(** A miner object over a history of calls. *)
From stdpp Require Import base list numbers gmap relations sorting.
From Verif Require Import Base ChainModel ChainProofs ChainProofs2 EmbModel Spec SpecEmb EmbProofs EmbProofs2 EmbProofs3 EmbProofs4 EmbProofs5 EmbProofs6 EmbOps EmbProofs7 EmbProofs8 EmbProofs9
  QueueModel PathModel Wp PrepProofs RunProofs1 RunProofs3 RunProofs4 RunProofs5 QuickProofs
  GraphModel SpecGraph GraphProofs GraphProofs2 ParamModel ParamProofs ParamProofs2 SpecTop TopProofs TopProofs2 MinerModel SpecMiner.

Lemma count_perm (f : nat -> bool) (l l' : list nat) : l ≡ₚ l' -> length (List.filter f l) = length (List.filter f l').
Proof. intros Hp. induction Hp; simpl; repeat (destruct (f _)); simpl; congruence. Qed.
Lemma count_fmap {A B} (f : A -> bool) (g : B -> bool) (l : list A) (l' : list B) : length l = length l' ->
  (forall i a b, l !! i = Some a -> l' !! i = Some b -> f a = g b) -> length (List.filter f l) = length (List.filter g l').
Proof.
  revert l'. induction l as [|a l IH]; intros [|b l'] L H; simpl in *; try done.
  assert (K : length (List.filter f l) = length (List.filter g l')) by (apply IH; [lia|intros i; apply (H (S i))]).
  rewrite (H 0 a b eq_refl eq_refl). destruct (g b); simpl; congruence.
Qed.

Section top.
Context (vg qg : graph) (p : params) (o : oracle) (G : good_input vg qg p o).
Context (pp : processed) (PO : pp_ok vg qg p pp).
Notation cp := (pp_comps pp).
Notation nv0 := (pp_nvars pp - pp_nfixed pp).
Notation nq0 := (pp_qubits pp - pp_reserved pp).
Notation top_pb := (top_pb pp).
Notation F0 := (anywhere (fixmap (pp_fixed pp))).
Notation E0 := (nbr (pp_vnbrs pp)).
Notation result_of := (result_of vg pp).
Context (H0 : 0 < nq0).

Section result.
Context (em : emb) (cs : list (list nat)) (I : einv top_pb E0 F0 em) (Rs : result_of em cs).

Lemma emb_len : length (chains em) = gn vg.
Proof using All. rewrite (ei_len _ _ _ _ I). simpl. apply (top_nv _ _ _ _ PO). Qed.
Lemma qubit_label i c j : chains em !! i = Some c -> qin c j -> exists q, located cp q 0 j.
Proof using All.
  destruct (top_main vg qg p o G pp PO) as (R & gc & l & D & HR & Eg & El & Eq & Hr & Hl & Hres). specialize (Hl ltac:(lia)).
  intros Hc Hj. destruct (lookup_lt_is_Some_2 l j) as [q Hq]; [|exists q, l; done].
  rewrite <- Hl, <- (top_nq vg qg p o G pp PO). apply (ei_below _ _ _ _ I _ _ Hc). by apply pm_is_Some.
Qed.
Lemma has_chain_iff v i : pp_screw pp !! v = Some i -> has_chain cs v <-> nonempty em i.
Proof using All.
  intros Hi. destruct Rs as (Lcs & Ncs & Rcs). split.
  - intros (q & HQ). apply Rcs in HQ as (i' & j & Hi' & Lj & (c & Hc & Q)). assert (i' = i) as -> by congruence.
    exists c. split; [done|]. by apply (qin_size c j).
  - intros (c & Hc & Sz). rewrite <- size_pm in Sz. apply map_size_non_empty_iff in Sz. apply map_choose in Sz as (j & x & Hj).
    assert (Q : qin c j) by (apply pm_is_Some; eauto). destruct (qubit_label _ _ _ Hc Q) as [q Lq].
    exists q. apply Rcs. exists i, j. split; [done|]. split; [done|]. by apply (in_chain_qin _ _ _ _ Hc).
Qed.
Lemma has_chain_lt v : has_chain cs v -> v < gn vg.
Proof using All. intros (q & C & HC & _). destruct Rs as (Lcs & _). rewrite <- Lcs. by eapply lookup_lt_Some. Qed.

Lemma fixed_result v C : (v, C) ∈ p_fixed p -> forall q, has_qubit cs v q <-> q ∈ C.
Proof using All.
  intros HC q. destruct Rs as (Lcs & Ncs & Rcs). rewrite Rcs. destruct (po_fixed _ _ _ _ PO) as (FC & FN & FK).
  destruct (FC v C HC) as [Hv CQ]. destruct (screw_ex _ _ _ _ PO v Hv) as [i Hi].
  assert (exists DD, Forall2 (fun x j => located cp x 0 j) C DD) as [DD HD].
  { clear HC. induction C as [|q' C IH]; [exists []; constructor|]. destruct IH as [DD HD]; [intros; apply CQ; by right|].
    destruct (CQ q') as [j Hj]; [by left|]. exists (j :: DD). by constructor. }
  assert (HM : (i, DD) ∈ pp_fixed pp) by (apply FK; eauto).
  destruct (lookup_lt_is_Some_2 (chains em) i) as [c Hc]; [rewrite emb_len; by eapply screw_lt|].
  assert (Hi' : nv0 <= i) by (destruct (ci_fkeys _ _ _ (top_chain_input vg qg p o G pp PO H0) _ _ HM) as [? _]; simpl in *; lia).
  pose proof (ei_fix _ _ _ _ I i c Hc Hi') as Pf.
  assert (QD : forall j, qin c j <-> j ∈ DD).
  { intros j. cbn [fd_map anywhere] in Pf. rewrite <- (fixmap_label vg qg p pp PO _ _ j HM), <- Pf. symmetry. apply pm_is_Some. }
  split.
  - intros (i' & j & Hi2 & Lj & Hin). assert (i' = i) as -> by congruence. apply (in_chain_qin _ _ _ _ Hc), QD in Hin.
    apply (relabel_in vg qg p pp PO _ _ _ HD) in Hin as (x & Hx & Lx). assert (x = q) as -> by (by eapply located_inj). done.
  - intros Hq. destruct (CQ q Hq) as [j Lj]. exists i, j. split; [done|]. split; [done|].
    apply (in_chain_qin _ _ _ _ Hc), QD, (relabel_in vg qg p pp PO _ _ _ HD). eauto.
Qed.
Lemma free_result v q : ~ is_fixed p v -> has_qubit cs v q -> ~ in_fixed p q.
Proof using All.
  destruct (top_main vg qg p o G pp PO) as (R & gc & l & D & HR & Eg & El & Eq & Hr & Hl & Hres). specialize (Hl ltac:(lia)).
  destruct Rs as (Lcs & Ncs & Rcs).
  intros Nf HQ Hq. apply Rcs in HQ as (i & j & Hi & (l' & El' & Lj) & (c & Hc & Hin)).
  assert (l' = l) as -> by congruence. apply (screw_free vg qg p pp PO v i Hi) in Nf.
  pose proof (ei_bound _ _ _ _ I i c j Hc Hin ltac:(done)) as Bj. simpl in Bj. apply (Hres q j Lj) in Hq. lia.
Qed.
Lemma bound_result v C : cs !! v = Some C -> NoDup C /\ forall q, q ∈ C -> q < gn qg.
Proof using All.
  destruct (top_main vg qg p o G pp PO) as (R & gc & l & D & HR & Eg & El & Eq & Hr & Hl & Hres).
  destruct Rs as (Lcs & Ncs & Rcs). intros HC. split; [by eapply Ncs|].
  intros q Hq. assert (HQ : has_qubit cs v q) by by exists C. apply Rcs in HQ as (i & j & _ & Lj & _).
  by apply (dc_located _ _ _ D) in Lj as (? & _).
Qed.
Lemma connected_result v i : pp_screw pp !! v = Some i -> linkedto em i i -> connected_in (edge qg) (has_qubit cs v).
Proof using All.
  intros Hi (c & Hc & [r Hr']). destruct Rs as (Lcs & Ncs & Rcs).
  pose proof (rooted_connected (adjq top_pb) c r (adjq_sym top_pb) (ei_cwf _ _ _ _ I _ _ Hc) (ei_root _ _ _ _ I _ _ _ Hc Hr')) as Cn.
  intros x y Hx Hy. apply Rcs in Hx as (i1 & jx & Hi1 & Lx & Ix), Hy as (i2 & jy & Hi2 & Ly & Iy).
  assert (i1 = i) as -> by congruence. assert (i2 = i) as -> by congruence.
  apply (in_chain_qin _ _ _ _ Hc) in Ix, Iy. specialize (Cn jx jy Ix Iy). clear Ix Hi1 Hi2.
  revert x Lx. induction Cn as [jx|jx jz jy (A1 & A2 & A3) _ IH]; intros x Lx.
  + assert (x = y) as -> by (by eapply located_inj). constructor.
  + destruct (qubit_label _ _ _ Hc A3) as [z Lz].
    assert (HQ : forall q j, located cp q 0 j -> qin c j -> has_qubit cs v q).
    { intros q j Lq Qj. apply Rcs. exists i, j. split; [done|]. split; [done|]. by apply (in_chain_qin _ _ _ _ Hc). }
    eapply rtc_l; [|by apply IH]. split; [by eapply adj_edge|]. split; eauto.
Qed.
Lemma linked_touch u v iu iv : pp_screw pp !! u = Some iu -> pp_screw pp !! v = Some iv -> u <> v -> linkedto em iu iv ->
  touching (edge qg) (has_qubit cs) u v.
Proof using All.
  intros Hiu Hiv Nuv (cu & Hcu & [q Hq]). destruct Rs as (Lcs & Ncs & Rcs).
  assert (Niv : iu <> iv) by (intros ->; apply Nuv; by eapply screw_inj).
  destruct (ei_link _ _ _ _ I _ _ _ _ Hcu Niv Hq) as (_ & cv & r & Hcv & Hr' & Hqr).
  pose proof (cwf_links _ _ _ (ei_cwf _ _ _ _ I _ _ Hcu) _ _ Hq) as Qq. apply pm_is_Some in Qq.
  pose proof (cwf_links _ _ _ (ei_cwf _ _ _ _ I _ _ Hcv) _ _ Hr') as Qr. apply pm_is_Some in Qr.
  destruct (qubit_label _ _ _ Hcu Qq) as [x Lx]. destruct (qubit_label _ _ _ Hcv Qr) as [y Ly].
  exists x, y. split; [apply Rcs; exists iu, q; split; [done|]; split; [done|]; by apply (in_chain_qin _ _ _ _ Hcu)|].
  split; [apply Rcs; exists iv, r; split; [done|]; split; [done|]; by apply (in_chain_qin _ _ _ _ Hcv)|].
  destruct Hqr as [->|Ha]; [left; by eapply located_inj|right; by eapply adj_edge].
Qed.
Lemma source_nbr u v iu iv : pp_screw pp !! u = Some iu -> pp_screw pp !! v = Some iv -> ~ is_fixed p u -> u <> v -> edge vg u v -> E0 iu iv.
Proof using All.
  intros Hiu Hiv Nf Nuv EE. assert (Niv : iu <> iv) by (intros ->; apply Nuv; by eapply screw_inj).
  apply (po_vn _ _ _ _ PO). split; [done|]. exists u, v. split; [done|]. split; [done|]. split; [by rewrite <- fixed_key|done].
Qed.

Lemma users_result q : (forall j, located cp q 0 j -> users_of cs q = users em j) /\
  ((forall j, ~ located cp q 0 j) -> users_of cs q = 0).
Proof using All.
  destruct Rs as (Lcs & Ncs & Rcs). split.
  - intros j Lj.
    set (sc := fun v => default 0 (pp_screw pp !! v)).
    assert (Pm : sc <$> seq 0 (gn vg) ≡ₚ seq 0 (gn vg)).
    { destruct (po_unscrew _ _ _ _ PO) as (_ & Ls & _ & _ & NS).
      assert (Es : sc <$> seq 0 (gn vg) = pp_screw pp).
      { apply list_eq. intros i. rewrite list_lookup_fmap. destruct (decide (i < gn vg)) as [L|L].
        - rewrite lookup_seq_lt by done. simpl. unfold sc. destruct (screw_ex _ _ _ _ PO i L) as [x Hx]. by rewrite Hx.
        - rewrite lookup_seq_ge by lia. simpl. symmetry. apply lookup_ge_None. lia. }
      rewrite Es. apply NoDup_Permutation; [done|apply NoDup_seq|]. intros x. rewrite elem_of_seq. split.
      + intros [i Hi]%elem_of_list_lookup. apply (screw_lt _ _ _ _ PO) in Hi. lia.
      + intros Hx. destruct (unscrew_ex vg qg p pp PO x) as [v Hv]; [lia|]. by eapply elem_of_list_lookup_2. }
    set (hs := fun i => match chains em !! i with Some c => bool_decide (is_Some (cdata c !! j)) | None => false end).
    transitivity (length (List.filter hs (sc <$> seq 0 (gn vg)))).
    + unfold users_of. apply count_fmap; [by rewrite fmap_length, seq_length|].
      intros v C i HC Hi. rewrite list_lookup_fmap in Hi. apply fmap_Some in Hi as (w & Hw & ->). apply lookup_seq in Hw as [-> Lv]. simpl.
      destruct (screw_ex _ _ _ _ PO v Lv) as [i Hi]. unfold hs, sc. rewrite Hi. simpl.
      destruct (lookup_lt_is_Some_2 (chains em) i) as [c Hc]; [rewrite emb_len; by eapply screw_lt|]. rewrite Hc.
      apply bool_decide_ext. change (is_Some (cdata c !! j)) with (qin c j). split.
      * intros Hq. assert (HQ : has_qubit cs v q) by by exists C. apply Rcs in HQ as (i' & j' & Hi' & Lj' & Hin).
        assert (i' = i) as -> by congruence. destruct (po_dec _ _ _ _ PO) as (R & D' & _). destruct (located_det _ _ _ _ _ _ _ _ D' Lj Lj') as [_ <-].
        by apply (in_chain_qin _ _ _ _ Hc).
      * intros Hq. assert (HQ : has_qubit cs v q). { apply Rcs. exists i, j. split; [done|]. split; [done|]. by apply (in_chain_qin _ _ _ _ Hc). }
        destruct HQ as (C' & HC' & ?). congruence.
    + rewrite (count_perm hs _ _ Pm). unfold users. symmetry. apply count_fmap; [by rewrite emb_len, seq_length|].
      intros i c k Hc Hk. apply lookup_seq in Hk as [-> Lk]. simpl. unfold hs. by rewrite Hc.
  - intros NL. unfold users_of. assert (Z : List.filter (fun C => bool_decide (q ∈ C)) cs = []).
    { destruct (List.filter _ cs) as [|C l] eqn:Ef; [done|exfalso].
      assert (Hin : In C (List.filter (fun C => bool_decide (q ∈ C)) cs)) by (rewrite Ef; by left).
      apply filter_In in Hin as [Hin Hq%bool_decide_eq_true]. apply elem_of_list_In, elem_of_list_lookup in Hin as [v Hv].
      assert (HQ : has_qubit cs v q) by by exists C. apply Rcs in HQ as (i & j & _ & Lj & _). by apply (NL j). }
    by rewrite Z.
Qed.
End result.

(** what a pass over the internal variables [D] leaves *)
Lemma part_result e em0 em cs0 cs (vs : nat -> Prop) (D D0 : list nat) w : pb e = top_pb ->
  einv top_pb E0 F0 em0 -> result_of em0 cs0 -> result_of em cs ->
  (forall v i, pp_screw pp !! v = Some i -> vs v /\ ~ is_fixed p v <-> i ∈ D) ->
  passed e E0 F0 D D0 w em0 em ->
  pass_result vg qg p vs w cs0 cs.
Proof using All.
  intros Ep I0 Rs0 Rs HD [I W Gd Ne Sm]. rewrite Ep in I, Sm.
  pose proof Rs as (Lcs & Ncs & Rcs).
  assert (SC : forall v, has_chain cs v -> exists i, pp_screw pp !! v = Some i /\ nonempty em i).
  { intros v Hv. destruct (screw_ex _ _ _ _ PO v) as [i Hi]; [by eapply has_chain_lt|]. exists i. split; [done|].
    by apply (has_chain_iff em cs I Rs v i Hi). }
  split.
  - done.
  - apply (bound_result em cs I Rs).
  - apply (fixed_result em cs I Rs).
  - apply (free_result em cs I Rs).
  - intros v Hv Nf x y Hx Hy. destruct (SC v) as (i & Hi & Hn); [by exists x|].
    eapply (connected_result em cs I Rs v i Hi); [|done|done]. apply (proj1 (Gd i ltac:(left; by apply (HD v i Hi)) Hn)).
  - intros u v Hu Nf EE Nuv Cu Cv. destruct (SC u Cu) as (iu & Hiu & Hnu). destruct (SC v Cv) as (iv & Hiv & Hnv).
    apply (linked_touch em cs I Rs u v iu iv Hiu Hiv Nuv). apply (proj2 (Gd iu ltac:(left; by apply (HD u iu Hiu)) Hnu)); [|done].
    by apply (source_nbr em cs I Rs u v).
  - intros v Hv. destruct (decide (v < gn vg)) as [L|L].
    + destruct (screw_ex _ _ _ _ PO v L) as [i Hi]. rewrite (has_chain_iff em cs I Rs v i Hi), (has_chain_iff em0 cs0 I0 Rs0 v i Hi).
      apply Ne. intros Hin. apply Hv. by apply (HD v i Hi).
    + split; intros K; exfalso; apply L; [by eapply (has_chain_lt em cs)|by eapply (has_chain_lt em0 cs0)].
  - intros Fx q.
    assert (Zf : pp_nfixed pp = 0). { destruct (po_nfixed _ _ _ _ PO) as [-> _]. by rewrite Fx. }
    assert (Zr : pp_reserved pp = 0).
    { destruct (top_main vg qg p o G pp PO) as (R & gc & l & D' & HR & Eg & El & Eq & Hr & Hl & Hres). specialize (Hl ltac:(lia)).
      destruct (decide (pp_reserved pp = 0)) as [|N]; [done|exfalso].
      destruct (lookup_lt_is_Some_2 l (length l - pp_reserved pp)) as [x Hx]; [lia|].
      destruct (proj2 (Hres x _ Hx) ltac:(lia)) as (v & C & HC & _). rewrite Fx in HC. by apply elem_of_nil in HC. }
    destruct (users_result em cs I Rs q) as [U1 U2]. destruct (users_result em0 cs0 I0 Rs0 q) as [V1 V2].
    assert (DL : (exists j, located cp q 0 j) \/ forall j, ~ located cp q 0 j).
    { destruct (top_main vg qg p o G pp PO) as (R & gc & l & D' & HR & Eg & El & _).
      destruct (decide (q ∈ l)) as [Hq|Hq].
      - left. apply elem_of_list_lookup in Hq as [j Hj]. exists j, l. done.
      - right. intros j (l' & El' & Hj). assert (l' = l) as -> by congruence. apply Hq. by eapply elem_of_list_lookup_2. }
    destruct DL as [[j Lj]|NL].
    + rewrite (U1 j Lj), (V1 j Lj), <- !users_sumind. apply Sm; [done|].
      destruct (top_main vg qg p o G pp PO) as (R & gc & l & D' & HR & Eg & El & Eq & Hr & Hl & Hres). specialize (Hl ltac:(lia)).
      destruct Lj as (l' & El' & Hj). assert (l' = l) as -> by congruence. apply lookup_lt_Some in Hj. simpl. lia.
    + rewrite (U2 NL), (V2 NL). lia.
Qed.
End top.
