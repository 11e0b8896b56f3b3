(** Proofs about the processed parameters as a whole, and the environment built from them. *)
From stdpp Require Import base list numbers gmap relations sorting.
From Verif Require Import Base ChainModel EmbModel SpecEmb QueueModel PathModel GraphModel SpecGraph GraphProofs GraphProofs2 ParamModel ParamProofs.

(** what the caller's data satisfy by their types: edges join nodes of the graphs, map keys are
    distinct; the target is not empty *)
Record input_ok (vg qg : graph) (p : params) : Prop := {
  io_vg : graph_wf vg;
  io_qg : graph_wf qg;
  io_q0 : 0 < gn qg;
  io_fnd : NoDup (p_fixed p).*1;
  io_ind : NoDup (p_initial p).*1;
  io_rnd : NoDup (p_restrict p).*1;
  (* the fixed chains are in range of the arrays they index *)
  io_frange : forall v C, (v, C) ∈ p_fixed p -> v < gn vg /\ forall q, q ∈ C -> q < gn qg
}.

Definition fixed_qubit (p : params) (q : nat) : Prop := mem_chain (p_fixed p) q.

Record pp_ok (vg qg : graph) (p : params) (pp : processed) : Prop := {
  po_nvars : pp_nvars pp = gn vg;
  po_nfixed : pp_nfixed pp = length (p_fixed p) /\ length (p_fixed p) <= gn vg;
  po_dec : exists R, decomposition qg R (pp_comps pp) /\ forall q, q < gn qg -> R q = true <-> fixed_qubit p q;
  po_comp : exists gc l, cgraphs (pp_comps pp) !! 0 = Some gc /\ cnodes (pp_comps pp) !! 0 = Some l /\ pp_qubits pp = gn gc;
  po_res : creserved (pp_comps pp) !! 0 = Some (pp_reserved pp);
  po_unscrew : length (pp_unscrew pp) = gn vg /\ length (pp_screw pp) = gn vg /\
     (forall i x, pp_screw pp !! x = Some i <-> pp_unscrew pp !! i = Some x) /\
     NoDup (pp_unscrew pp) /\ NoDup (pp_screw pp);
  po_split : forall x i, pp_screw pp !! x = Some i -> x ∈ (p_fixed p).*1 <-> gn vg - length (p_fixed p) <= i;
  po_fixed : chains_in (gn vg) (pp_comps pp) (p_fixed p) /\ NoDup (pp_fixed pp).*1 /\
     forall u D, (u, D) ∈ pp_fixed pp <-> exists v C, (v, C) ∈ p_fixed p /\ pp_screw pp !! v = Some u /\ Forall2 (fun x j => located (pp_comps pp) x 0 j) C D;
  po_initial : chains_in (gn vg) (pp_comps pp) (p_initial p) /\ NoDup (pp_initial pp).*1 /\
     forall u D, (u, D) ∈ pp_initial pp <-> exists v C, (v, C) ∈ p_initial p /\ pp_screw pp !! v = Some u /\ Forall2 (fun x j => located (pp_comps pp) x 0 j) C D;
  po_restrict : chains_in (gn vg) (pp_comps pp) (p_restrict p) /\ NoDup (pp_restrict pp).*1 /\
     forall u D, (u, D) ∈ pp_restrict pp <-> exists v C, (v, C) ∈ p_restrict p /\ pp_screw pp !! v = Some u /\ Forall2 (fun x j => located (pp_comps pp) x 0 j) C D;
  po_vn : length (pp_vnbrs pp) = gn vg /\ (forall i l, pp_vnbrs pp !! i = Some l -> NoDup l) /\
     forall i j, nbr (pp_vnbrs pp) i j <-> i <> j /\ exists x y, pp_screw pp !! x = Some i /\ pp_screw pp !! y = Some j /\ x ∉ (p_fixed p).*1 /\ edge vg x y;
  po_qn : length (pp_qnbrs pp) = pp_qubits pp /\
     forall gc, cgraphs (pp_comps pp) !! 0 = Some gc ->
       forall i j, nbr (pp_qnbrs pp) i j <-> i <> j /\ j < pp_qubits pp - pp_reserved pp /\ edge gc i j;
  po_vfixed : length (pp_vfixed pp) = gn vg /\ forall v b, pp_vfixed pp !! v = Some b -> b = true <-> v ∈ (p_fixed p).*1;
  po_order : pp_unscrew pp = List.filter (free_of (pp_vfixed pp)) (seq 0 (gn vg)) ++
     List.filter (fun x => negb (free_of (pp_vfixed pp) x)) (seq 0 (gn vg))
}.

Lemma filter_split_perm (P : nat -> bool) l : List.filter P l ++ List.filter (fun x => negb (P x)) l ≡ₚ l.
Proof.
  induction l as [|x l IH]; simpl; [done|]. destruct (P x); simpl; [by rewrite IH|].
  rewrite <- Permutation_middle. by rewrite IH.
Qed.

(** the largest component, described from the input only *)
Definition main_nodes (cp : comps) (q : nat) : Prop := exists j, located cp q 0 j.
Definition input_valid (vg : graph) (cp : comps) (p : params) : Prop :=
  chains_in (gn vg) cp (p_fixed p) /\ chains_in (gn vg) cp (p_initial p) /\ chains_in (gn vg) cp (p_restrict p) /\ p_verbose p < 4.

Lemma process_spec vg qg p srt : input_ok vg qg p -> sorts_by_size srt ->
  exists cp R, decomposition qg R cp /\ (forall q, q < gn qg -> R q = true <-> fixed_qubit p q) /\
  ((exists pp, process vg qg p srt = Ok pp /\ input_valid vg cp p /\ pp_ok vg qg p pp /\ pp_comps pp = cp) \/
   (process vg qg p srt = Err Corrupt /\ ~ input_valid vg cp p)).
Proof.
  intros [Wv Wq Q0 NF NI NR FR] Hs. unfold process.
  destruct (reserved_ok (gn vg) (gn qg) (p_fixed p) FR) as (qr & vf & r & -> & Lqr & Lvf & Kq & Kv). cbn [rbind].
  set (R := fun q => default false (qr !! q)).
  assert (HR : forall q, q < gn qg -> qr !! q = Some (R q)).
  { intros q Hq. unfold R. destruct (lookup_lt_is_Some_2 qr q) as [b ->]; [lia|done]. }
  destruct (components_ok srt qg (fun q => vget qr q) R Wq Hs) as (cp & -> & Dc).
  { intros q Hq. by apply vget_ok, HR. }
  exists cp, R. split; [done|]. assert (RF : forall q, q < gn qg -> R q = true <-> fixed_qubit p q).
  { intros q Hq. apply Kq, HR, Hq. }
  split; [done|]. cbn [rbind].
  destruct (dc_partition _ _ _ Dc 0 Q0) as (c0 & j0 & l0 & E0 & _).
  destruct (dc_len _ _ _ Dc) as (LI & LL & LR & LG). pose proof (lookup_lt_Some _ _ _ E0) as Lc.
  destruct (lookup_lt_is_Some_2 (cgraphs cp) 0) as [gc Egc]; [lia|].
  destruct (lookup_lt_is_Some_2 (cnodes cp) 0) as [l El]; [lia|].
  destruct (lookup_lt_is_Some_2 (creserved cp) 0) as [nr0 Er]; [lia|].
  assert (ES : comp_size cp 0 = Ok (gn gc)) by (unfold comp_size; by rewrite (vget_ok _ _ _ Egc)). rewrite ES. cbn [rbind].
  assert (ER : comp_reserved cp 0 = Ok nr0) by (unfold comp_reserved; by rewrite (vget_ok _ _ _ Er)). rewrite ER. cbn [rbind].
  set (FR1 := List.filter (free_of vf) (seq 0 (gn vg))). set (FX := List.filter (fun x => negb (free_of vf x)) (seq 0 (gn vg))).
  assert (FXin : forall x, x ∈ FX <-> x ∈ (p_fixed p).*1).
  { intros x. unfold FX. rewrite elem_of_list_In, filter_In, <- elem_of_list_In, elem_of_seq. unfold free_of. rewrite negb_involutive. split.
    - intros [[_ Hx] Hd]. destruct (vf !! x) as [b|] eqn:Eb; simpl in Hd; [|done]. subst b. by apply (Kv _ _ Eb).
    - intros Hx. assert (x < gn vg). { apply elem_of_list_fmap in Hx as ([v C] & -> & Hv). by apply FR in Hv as [? _]. }
      split; [lia|]. destruct (lookup_lt_is_Some_2 vf x) as [b Eb]; [lia|]. rewrite Eb. simpl. by apply (Kv _ _ Eb). }
  assert (NDX : NoDup FX) by (apply NoDup_ListNoDup, List.NoDup_filter, NoDup_ListNoDup, NoDup_seq).
  assert (LX : length FX = length (p_fixed p)).
  { rewrite <- (fmap_length fst (p_fixed p)). apply Permutation_length, NoDup_Permutation; auto. }
  pose proof (filter_split_perm (free_of vf) (seq 0 (gn vg))) as PU. fold FR1 FX in PU.
  assert (LU : length (FR1 ++ FX) = gn vg) by (rewrite PU; apply seq_length).
  rewrite (filter_fixed_ok (gn vg) (length (p_fixed p)) vf Lvf LX). fold FR1 FX. cbn [rbind].
  assert (NU : NoDup (FR1 ++ FX)) by (rewrite PU; apply NoDup_seq).
  destruct (inverse_ok (FR1 ++ FX) NU) as (sc & -> & Lsc & Ksc).
  { intros x. rewrite LU, PU, elem_of_seq. lia. }
  cbn [rbind]. rewrite LU in Lsc.
  assert (NS : NoDup sc).
  { apply NoDup_alt. intros i j x Hi Hj. apply Ksc in Hi, Hj. congruence. }
  assert (SPL : forall x i, sc !! x = Some i -> x ∈ (p_fixed p).*1 <-> gn vg - length (p_fixed p) <= i).
  { intros x i Hi. apply Ksc in Hi. rewrite <- FXin. rewrite app_length in LU. split.
    - intros Hx. apply elem_of_list_lookup in Hx as [k Hk].
      assert (i = length FR1 + k) as ->; [|lia]. eapply NoDup_lookup; [exact NU|done|].
      rewrite lookup_app_r by lia. by replace (length FR1 + k - length FR1) with k by lia.
    - intros Hi'. rewrite lookup_app_r in Hi by lia. by eapply elem_of_list_lookup_2. }
  destruct (input_chains_ok _ _ (gn vg) cp sc (p_fixed p) Dc NF Lsc NS) as [(fc & -> & Fv & Fn & Fk)|[-> Fv]]; cbn [rbind].
  2:{ right. split; [done|]. intros (? & _). done. }
  destruct (input_chains_ok _ _ (gn vg) cp sc (p_initial p) Dc NI Lsc NS) as [(ic & -> & Iv & In' & Ik)|[-> Iv]]; cbn [rbind].
  2:{ right. split; [done|]. intros (_ & ? & _). done. }
  destruct (input_chains_ok _ _ (gn vg) cp sc (p_restrict p) Dc NR Lsc NS) as [(rc & -> & Rv & Rn & Rk)|[-> Rv]]; cbn [rbind].
  2:{ right. split; [done|]. intros (_ & _ & ? & _). done. }
  case_decide as Hvb.
  { right. split; [done|]. intros (_ & _ & _ & ?). lia. }
  set (scf := fun x => default 0 (sc !! x)).
  assert (SC : forall x, x < gn vg -> sc !! x = Some (scf x)).
  { intros x Hx. unfold scf. destruct (lookup_lt_is_Some_2 sc x) as [b ->]; [lia|done]. }
  assert (SCr : forall x i, sc !! x = Some i -> i < gn vg).
  { intros x i Hi. apply Ksc in Hi. rewrite <- LU. by eapply lookup_lt_Some. }
  destruct (get_neighbors_spec vg (fun _ => Ok false) (fun v => vget vf v) (fun _ => Ok true) (fun v => vget sc v)
     (fun _ => false) (fun v => default false (vf !! v)) (fun _ => true) scf Wv) as (vn & -> & Lvn & Ivn & Kvn).
  { intros x Hx. split; [done|]. split.
    { destruct (lookup_lt_is_Some_2 vf x) as [b Eb]; [lia|]. rewrite (vget_ok _ _ _ Eb), Eb. done. }
    split; [done|]. split; [by apply vget_ok, SC|]. by eapply SCr, SC. }
  cbn [rbind]. unfold component_neighbors. rewrite ES, ER. cbn [rbind]. rewrite (vget_ok _ _ _ Egc). cbn [rbind].
  destruct (dc_size _ _ _ Dc _ _ _ Egc El) as (Wgc & Sgc & _ & _).
  destruct (get_neighbors_spec gc (fun i => Ok (bool_decide (gn gc - nr0 <= i))) (fun _ => Ok false) (fun _ => Ok true) (fun i => Ok i)
     (fun i => bool_decide (gn gc - nr0 <= i)) (fun _ => false) (fun _ => true) (fun i => i) Wgc) as (qn & -> & Lqn & Iqn & Kqn).
  { intros x Hx. done. }
  cbn [rbind]. left. eexists; split; [done|]. split; [split; [done|]; split; [done|]; split; [done|lia]|]. split; [|done].
  split; cbn [pp_nvars pp_nfixed pp_comps pp_qubits pp_reserved pp_unscrew pp_screw pp_fixed pp_initial pp_restrict pp_vnbrs pp_qnbrs pp_vfixed].
  - done.
  - split; [done|]. rewrite <- LX. rewrite app_length in LU. lia.
  - exists R. done.
  - exists gc, l. done.
  - done.
  - split; [done|]. split; [done|]. split; [done|]. done.
  - exact SPL.
  - split; [done|]. split; [done|]. exact Fk.
  - split; [done|]. split; [done|]. exact Ik.
  - split; [done|]. split; [done|]. exact Rk.
  - split; [done|]. split; [intros i l' Hl'; eapply increasing_nodup, Ivn, Hl'|].
    intros i j. unfold nbr. rewrite Kvn. split.
    + intros (N & x & y & <- & <- & _ & Kx & H). split; [done|]. exists x, y.
      assert (EE : edge vg x y) by (destruct H as [[H _]|[H _]]; [by left|by right]).
      assert (B : x < gn vg /\ y < gn vg) by (destruct EE as [EE|EE]; apply Wv in EE; tauto).
      split; [apply SC; tauto|]. split; [apply SC; tauto|]. split; [|done].
      intros Hx. destruct (lookup_lt_is_Some_2 vf x) as [b Eb]; [lia|]. rewrite Eb in Kx. simpl in Kx. subst b.
      apply (Kv _ _ Eb) in Hx. done.
    + intros (N & x & y & Hx & Hy & Nx & EE). split; [done|]. exists x, y.
      assert (B : x < gn vg /\ y < gn vg) by (destruct EE as [EE|EE]; apply Wv in EE; tauto).
      split; [rewrite SC in Hx by tauto; congruence|]. split; [rewrite SC in Hy by tauto; congruence|]. split; [done|]. split.
      * destruct (lookup_lt_is_Some_2 vf x) as [b Eb]; [lia|]. rewrite Eb. simpl. destruct b; [|done].
        exfalso. apply Nx. by apply (Kv _ _ Eb).
      * destruct EE; [left|right]; done.
  - split; [done|]. intros gc' Egc'. assert (gc' = gc) as -> by congruence. intros i j. unfold nbr. rewrite Kqn. split.
    + intros (N & x & y & -> & -> & Hy & _ & H). split; [done|]. apply bool_decide_eq_false in Hy. split; [lia|].
      destruct H as [[H _]|[H _]]; [by left|by right].
    + intros (N & Hj & EE). split; [done|]. exists i, j. split; [done|]. split; [done|]. split; [apply bool_decide_eq_false; lia|].
      split; [done|]. destruct EE; [left|right]; done.
  - done.
  - done.
Qed.
