(** A whole run, from the caller's graphs and parameters to the returned chains. *)
From stdpp Require Import base list numbers gmap relations sorting.
From Verif Require Import Base ChainModel ChainProofs ChainProofs2 EmbModel Spec SpecEmb EmbProofs EmbProofs2 EmbProofs3 EmbProofs4 EmbProofs5 EmbProofs6 EmbOps EmbProofs7 EmbProofs8
  QueueModel PathModel SpecPath Wp PrepProofs RunProofs1 RunProofs3 RunProofs4 RunProofs5
  GraphModel SpecGraph GraphProofs GraphProofs2 ParamModel ParamProofs ParamProofs2 SpecTop.

Lemma good_input_ok vg qg p o : good_input vg qg p o -> input_ok vg qg p.
Proof.
  intros G. split; try apply G.
  - intros v C H. destruct (gi_fixed _ _ _ _ G v C H) as (? & _ & _ & ?). done.
Qed.

Lemma unrestricted_even vg qg p : p_restrict p = [] -> even_restriction vg qg p.
Proof. intros H u v v' q _ _ _ _ _ _. left. intros C HC. rewrite H in HC. by apply elem_of_nil in HC. Qed.

(** ** masks *)
Lemma mask_of_ok n C : (forall q, q ∈ C -> q < n) -> exists r, mask_of n C = Ok r /\ length r = n /\
  forall q z, r !! q = Some z -> (z = 0%Z /\ q ∈ C) \/ (z = (-1)%Z /\ q ∉ C).
Proof.
  intros B. unfold mask_of.
  edestruct (foldM_inv (fun r q => vset r q 0%Z) (fun dn r => length r = n /\
    forall q z, r !! q = Some z -> (z = 0%Z /\ q ∈ dn) \/ (z = (-1)%Z /\ q ∉ dn)) C (replicate n (-1)%Z)) as (r & -> & H).
  - split; [by rewrite replicate_length|]. intros q z [-> _]%lookup_replicate. right. split; [done|]. by intros ?%elem_of_nil.
  - intros dn x rest r Es [L H]. rewrite vset_ok by (rewrite L; apply B; rewrite Es; set_solver).
    eexists. split; [done|]. split; [by rewrite insert_length|]. intros q z [(-> & -> & _)|[N Hz]]%list_lookup_insert_Some.
    + left. set_solver.
    + destruct (H q z Hz) as [[-> ?]|[-> ?]]; [left|right]; (split; [done|]); set_solver.
  - exists r. done.
Qed.
Lemma masks_of_ok k n R : NoDup R.*1 -> (forall v C q, (v, C) ∈ R -> q ∈ C -> q < n) -> exists ms, masks_of k n R = Ok ms /\ length ms = k /\
  forall v r, ms !! v = Some r -> length r = n /\
    forall q z, r !! q = Some z -> (z = 0%Z /\ forall C, (v, C) ∈ R -> q ∈ C) \/ (z = (-1)%Z /\ exists C, (v, C) ∈ R /\ q ∉ C).
Proof.
  intros ND B. unfold masks_of.
  edestruct (foldM_inv (fun ms v => let! r := (match (list_to_map R : gmap nat (list nat)) !! v with
      | Some C => mask_of n C | None => Ok (replicate n 0%Z) end) in Ok (ms ++ [r])) (fun dn ms => Forall2 (fun v r => length r = n /\
    forall q z, r !! q = Some z -> (z = 0%Z /\ forall C, (v, C) ∈ R -> q ∈ C) \/ (z = (-1)%Z /\ exists C, (v, C) ∈ R /\ q ∉ C)) dn ms) (seq 0 k) []) as (ms & -> & H).
  - constructor.
  - intros dn v rest ms Es H. destruct ((list_to_map R : gmap nat (list nat)) !! v) as [C|] eqn:Ev.
    + pose proof Ev as Hv%elem_of_list_to_map_2. destruct (mask_of_ok n C) as (r & -> & L & K); [by eauto|]. cbn [rbind].
      eexists. split; [done|]. apply Forall2_app; [done|]. constructor; [|constructor]. split; [done|].
      intros q z Hz. destruct (K q z Hz) as [[-> Hq]|[-> Hq]]; [left|right]; (split; [done|]); [|by eauto].
      intros C' HC'. apply (elem_of_list_to_map_1 (M := gmap nat) _ _ _ ND) in HC'. assert (C' = C) as -> by congruence. done.
    + cbn [rbind]. eexists. split; [done|]. apply Forall2_app; [done|]. constructor; [|constructor]. split; [by rewrite replicate_length|].
      intros q z [-> _]%lookup_replicate. left. split; [done|]. intros C HC. apply not_elem_of_list_to_map_2 in Ev. destruct Ev.
      apply elem_of_list_fmap. by exists (v, C).
  - exists ms. split; [done|]. split; [by rewrite <- (Forall2_length _ _ _ H), seq_length|].
    intros v r Hv. destruct (Forall2_lookup_r _ _ _ _ _ H Hv) as (v' & Hv' & K). apply lookup_seq in Hv' as [-> _]. done.
Qed.

Lemma shuffle_len rnd n pos (l l' : list nat) pos' : shuffle rnd pos l = (l', pos') -> length l = n -> length l' = n.
Proof. intros H L. pose proof (shuffle_perm rnd pos l) as P. rewrite H in P. simpl in P. rewrite P. done. Qed.
Lemma perm_table_ok rnd n m pos p t pos' : length p = m -> perm_table rnd n pos p = (t, pos') ->
  length t = n /\ forall v r, t !! v = Some r -> length r = m.
Proof.
  revert pos p t pos'. induction n as [|n IH]; intros pos p t pos' Lp; cbn [perm_table]; [by intros [= <- <-]|].
  destruct (shuffle rnd pos p) as [p1 pos1] eqn:E1. destruct (perm_table rnd n pos1 p1) as [t2 pos2] eqn:E2. intros [= <- <-].
  pose proof (shuffle_len _ _ _ _ _ _ E1 Lp) as L1. destruct (IH _ _ _ _ L1 E2) as [L2 K]. simpl. split; [lia|].
  intros [|v] r; simpl; [by intros [= <-]|apply K].
Qed.

Section top.
Context (vg qg : graph) (p : params) (o : oracle) (G : good_input vg qg p o).
Context (pp : processed) (PO : pp_ok vg qg p pp).
Notation cp := (pp_comps pp).

Lemma top_main : exists R gc l, decomposition qg R cp /\ (forall q, q < gn qg -> R q = true <-> in_fixed p q) /\
  cgraphs cp !! 0 = Some gc /\ cnodes cp !! 0 = Some l /\ pp_qubits pp = gn gc /\
  pp_reserved pp <= pp_qubits pp /\ (0 < pp_qubits pp -> pp_qubits pp = length l) /\
  (forall x j, l !! j = Some x -> in_fixed p x <-> length l - pp_reserved pp <= j).
Proof.
  destruct (po_dec _ _ _ _ PO) as (R & D & HR). destruct (po_comp _ _ _ _ PO) as (gc & l & Eg & El & Eq).
  pose proof (po_res _ _ _ _ PO) as Er. destruct (dc_size _ _ _ D _ _ _ Eg El) as (Wg & Sg & S2 & S0).
  destruct (dc_reserved _ _ _ D _ _ _ El Er) as (Lr & Kr). pose proof (dc_nonempty _ _ _ D _ _ El) as Nl.
  exists R, gc, l. split; [done|]. split; [done|]. split; [done|]. split; [done|]. split; [done|].
  assert (Ll : 0 < length l) by (destruct l; [done|simpl; lia]).
  split; [|split].
  - rewrite Eq. destruct (decide (2 <= length l)) as [H2|H2]; [rewrite S2; lia|].
    assert (length l = 1) as L1 by lia. destruct (decide (pp_reserved pp = 0)) as [->|Nr]; [lia|].
    destruct (lookup_lt_is_Some_2 l 0) as [x Ex]; [lia|].
    assert (Rx : R x = true) by (apply (Kr x 0 Ex); lia).
    assert (Lx : located cp x 0 0) by by exists l.
    pose proof (dc_located _ _ _ D _ _ _ Lx) as (Hx & _).
    destruct (gi_loops _ _ _ _ G) as [Z|HL].
    { apply HR in Rx as (v & C & Hv & _); [|done]. rewrite Z in Hv. by apply elem_of_nil in Hv. }
    destruct (HL x Hx) as [y Hy].
    assert (Ly : y < gn qg) by (destruct Hy as [Hy|Hy]; destruct (gi_qg _ _ _ _ G _ _ Hy); done).
    destruct (dc_partition _ _ _ D y Ly) as (c & k & Ly').
    assert (0 = c) as <-. { eapply (dc_paths _ _ _ D x y); eauto. by apply rtc_once. }
    assert (EE : edge gc 0 k) by (apply (dc_edges _ _ _ D _ _ _ _ Eg); eauto).
    assert (gn gc <> 0) by (intros Z; apply S0 in Z; unfold edge in EE; rewrite Z in EE; destruct EE as [EE|EE]; by apply elem_of_nil in EE).
    lia.
  - intros H0. rewrite Eq in H0 |- *. destruct (decide (2 <= length l)); [auto|lia].
  - intros x j Ex. rewrite <- (Kr x j Ex). symmetry. apply HR.
    assert (Lx : located cp x 0 j) by by exists l. by apply (dc_located _ _ _ D) in Lx as (? & _).
Qed.

Notation nv0 := (pp_nvars pp - pp_nfixed pp).
Notation nq0 := (pp_qubits pp - pp_reserved pp).
Definition top_masks : option (list (list Z)) :=
  if decide (nq0 = 0 \/ length (pp_restrict pp) = 0) then None
  else match masks_of (pp_nvars pp) (nq0 + pp_reserved pp) (pp_restrict pp) with Ok ms => Some ms | Err _ => None end.
Definition top_pb : problem := mkProblem nv0 (pp_nfixed pp) nq0 (pp_reserved pp) (pp_qnbrs pp) top_masks.

Lemma top_nv : nv0 + pp_nfixed pp = gn vg.
Proof. destruct (po_nfixed _ _ _ _ PO). rewrite (po_nvars _ _ _ _ PO). lia. Qed.
Lemma top_nq : nq0 + pp_reserved pp = pp_qubits pp.
Proof. destruct top_main as (R & gc & l & _ & _ & _ & _ & _ & H & _). lia. Qed.

Lemma top_masks_ok : 0 < nq0 -> exists ms, masks_of (pp_nvars pp) (nq0 + pp_reserved pp) (pp_restrict pp) = Ok ms /\ length ms = gn vg /\
  forall v r, ms !! v = Some r -> length r = nq0 + pp_reserved pp /\
    forall q z, r !! q = Some z -> (z = 0%Z /\ forall C, (v, C) ∈ pp_restrict pp -> q ∈ C) \/ (z = (-1)%Z /\ exists C, (v, C) ∈ pp_restrict pp /\ q ∉ C).
Proof.
  intros H0. destruct (po_restrict _ _ _ _ PO) as (RC & RN & RK).
  destruct (masks_of_ok (pp_nvars pp) (nq0 + pp_reserved pp) (pp_restrict pp) RN) as (ms & H1 & H2 & H3).
  - intros v DD j (x & C & HxC & Hs & Hf)%RK Hj. destruct top_main as (R & gc & l & D & HR & Eg & El & Eq & Hr & Hl & Hres).
    specialize (Hl ltac:(lia)). rewrite top_nq, Hl. apply elem_of_list_lookup in Hj as [i Hi].
    destruct (Forall2_lookup_r _ _ _ _ _ Hf Hi) as (y & Hy & (l' & El' & Ey)). assert (l' = l) as -> by congruence. by eapply lookup_lt_Some.
  - exists ms. split; [done|]. split; [|done]. by rewrite H2, (po_nvars _ _ _ _ PO).
Qed.

Lemma top_pb_wf : pb_wf top_pb.
Proof.
  destruct top_main as (R & gc & l & D & HR & Eg & El & Eq & Hr & _). destruct (po_qn _ _ _ _ PO) as [Lq Kq]. specialize (Kq gc Eg).
  assert (N : forall x y, nbq top_pb x y <-> nbr (pp_qnbrs pp) x y) by done.
  split.
  - simpl. rewrite Lq, top_nq. done.
  - intros x y H. apply N, Kq in H. simpl. tauto.
  - intros x y H. apply N, Kq in H. naive_solver.
  - intros x y Hx H. apply N, Kq in H as (Nxy & Hy & EE). apply N, Kq. split; [done|]. split; [done|].
    destruct EE; [right|left]; done.
  - simpl. unfold top_masks. case_decide as Hz; [done|]. destruct (top_masks_ok ltac:(lia)) as (ms & -> & L & K).
    intros m [= <-]. split; [by rewrite top_nv|]. intros u r Hr'. destruct (K u r Hr') as [Lr Kr]. split; [done|].
    intros x [i Hx]%elem_of_list_lookup. destruct (Kr i x Hx) as [[-> _]|[-> _]]; auto.
Qed.

Lemma screw_lt x i : pp_screw pp !! x = Some i -> x < gn vg /\ i < gn vg.
Proof.
  destruct (po_unscrew _ _ _ _ PO) as (Lu & Ls & K & _). intros H. split; [rewrite <- Ls; by eapply lookup_lt_Some|].
  apply K in H. rewrite <- Lu. by eapply lookup_lt_Some.
Qed.
Lemma screw_inj x y i : pp_screw pp !! x = Some i -> pp_screw pp !! y = Some i -> x = y.
Proof. destruct (po_unscrew _ _ _ _ PO) as (_ & _ & _ & _ & N). intros. by eapply NoDup_lookup. Qed.
Lemma screw_free x i : pp_screw pp !! x = Some i -> ~ is_fixed p x <-> i < nv0.
Proof.
  intros H. pose proof (po_split _ _ _ _ PO x i H) as S. destruct (po_nfixed _ _ _ _ PO) as [E1 E2].
  assert (X : is_fixed p x <-> x ∈ (p_fixed p).*1).
  { split; [intros [C HC]; apply elem_of_list_fmap; by exists (x, C)|].
    intros ([x' C] & -> & HC)%elem_of_list_fmap. by exists C. }
  rewrite X, S, (po_nvars _ _ _ _ PO), E1. lia.
Qed.
Lemma screw_ex x : x < gn vg -> exists i, pp_screw pp !! x = Some i.
Proof. destruct (po_unscrew _ _ _ _ PO) as (_ & L & _). intros H. apply lookup_lt_is_Some. by rewrite L. Qed.
Lemma unscrew_ex i : i < gn vg -> exists x, pp_screw pp !! x = Some i.
Proof.
  destruct (po_unscrew _ _ _ _ PO) as (L & _ & K & _). intros H. destruct (lookup_lt_is_Some_2 (pp_unscrew pp) i) as [x E]; [lia|].
  exists x. by apply K.
Qed.
Lemma fixed_key x : is_fixed p x <-> x ∈ (p_fixed p).*1.
Proof.
  split; [intros [C HC]; apply elem_of_list_fmap; by exists (x, C)|].
  intros ([x' C] & -> & HC)%elem_of_list_fmap. by exists C.
Qed.
Lemma fixed_dec x : is_fixed p x \/ ~ is_fixed p x.
Proof. rewrite fixed_key. destruct (decide (x ∈ (p_fixed p).*1)); auto. Qed.

Lemma top_vn_wf : vn_wf top_pb (pp_vnbrs pp).
Proof.
  destruct (po_vn _ _ _ _ PO) as (Lv & Nv & Kv).
  split; simpl.
  - by rewrite top_nv.
  - intros u v (_ & x & y & Hx & Hy & _)%Kv. rewrite top_nv. by eapply screw_lt.
  - intros u v (_ & x & y & Hx & Hy & Nx & _)%Kv. apply (screw_free x u Hx). by rewrite fixed_key.
  - intros u v (? & _)%Kv. congruence.
  - intros u v (N & x & y & Hx & Hy & Nx & EE)%Kv Lt. apply Kv. split; [done|]. exists y, x. split; [done|]. split; [done|]. split.
    + rewrite <- fixed_key. by apply (screw_free y v Hy).
    + destruct EE; [right|left]; done.
  - exact Nv.
Qed.

Lemma located_inj x y j : located cp x 0 j -> located cp y 0 j -> x = y.
Proof. intros (l & El & Ex) (l' & El' & Ey). congruence. Qed.

Lemma relabel_nodup C D : Forall2 (fun x j => located cp x 0 j) C D -> NoDup C -> NoDup D.
Proof.
  intros H. induction H as [|x j C D L H IH]; [constructor|].
  intros [Nx ND]%NoDup_cons. apply NoDup_cons. split; [|auto]. intros [i Hi]%elem_of_list_lookup.
  destruct (Forall2_lookup_r _ _ _ _ _ H Hi) as (y & Hy & Ly).
  assert (x = y) as <- by (by eapply located_inj). apply Nx. by eapply elem_of_list_lookup_2.
Qed.
Lemma relabel_in C D j : Forall2 (fun x j => located cp x 0 j) C D -> j ∈ D <-> exists x, x ∈ C /\ located cp x 0 j.
Proof.
  intros H. split.
  - intros [i Hi]%elem_of_list_lookup. destruct (Forall2_lookup_r _ _ _ _ _ H Hi) as (y & Hy & Ly).
    exists y. split; [|done]. by eapply elem_of_list_lookup_2.
  - intros (x & [i Hi]%elem_of_list_lookup & Lx). destruct (Forall2_lookup_l _ _ _ _ _ H Hi) as (y & Hy & Ly).
    destruct (po_dec _ _ _ _ PO) as (R & D' & _). destruct (located_det _ _ _ _ _ _ _ _ D' Lx Ly) as [_ ->]. by eapply elem_of_list_lookup_2.
Qed.

Lemma top_chain_input : 0 < nq0 -> chain_input top_pb (pp_fixed pp) (pp_initial pp).
Proof.
  intros H0. destruct top_main as (R & gc & l & D & HR & Eg & El & Eq & Hr & Hl & Hres). specialize (Hl ltac:(lia)).
  destruct (po_fixed _ _ _ _ PO) as (FC & FN & FK). destruct (po_initial _ _ _ _ PO) as (IC & IN & IK).
  assert (LB : forall x j, located cp x 0 j -> j < pp_qubits pp /\ (in_fixed p x <-> nq0 <= j)).
  { intros x j (l' & El' & Ex). assert (l' = l) as -> by congruence. rewrite Hl. split; [by eapply lookup_lt_Some|]. by apply Hres. }
  split; simpl.
  - done.
  - done.
  - intros u DD (v & C & HvC & Hs & Hf)%FK. destruct (gi_fixed _ _ _ _ G v C HvC) as (_ & _ & NC & _).
    split; [|split].
    + pose proof (screw_lt _ _ Hs). rewrite top_nv. split; [|tauto].
      destruct (decide (nv0 <= u)) as [|N]; [done|]. exfalso. apply (screw_free v u Hs); [lia|]. by exists C.
    + intros j (x & Hx & Lx)%(relabel_in _ _ _ Hf). apply LB in Lx. rewrite top_nq. tauto.
    + by eapply relabel_nodup.
  - intros u Hu. rewrite top_nv in Hu. destruct (unscrew_ex u) as [x Hx]; [lia|].
    destruct (fixed_dec x) as [[C HC]|N]; [|apply (screw_free x u Hx) in N; lia].
    destruct (FC x C HC) as [_ CQ].
    assert (exists DD, Forall2 (fun x j => located cp x 0 j) C DD) as [DD HD].
    { clear HC. induction C as [|q C IH]; [exists []; constructor|]. destruct IH as [DD HD]; [intros; apply CQ; by right|].
      destruct (CQ q) as [j Hj]; [by left|]. exists (j :: DD). by constructor. }
    apply elem_of_list_fmap. exists (u, DD). split; [done|]. apply FK. eauto.
  - intros u DD (v & C & HvC & Hs & Hf)%IK. destruct (gi_initial _ _ _ _ G v C HvC) as (NC & NDC & Nf & Nq).
    split; [by apply (screw_free v u Hs)|]. split; [|split].
    + intros ->. inversion Hf. by subst.
    + intros j (x & Hx & Lx)%(relabel_in _ _ _ Hf). apply LB in Lx as [L1 L2]. specialize (Nq x Hx).
      destruct (decide (nq0 <= j)) as [Q|Q]; [exfalso; apply Nq; by apply L2|lia].
    + by eapply relabel_nodup.
Qed.

Lemma top_may_use x i q j : 0 < nq0 -> pp_screw pp !! x = Some i -> located cp q 0 j -> may_use top_pb i j <-> allowed p x q.
Proof.
  intros H0 Hx Lq. destruct top_main as (R & gc & l & D & HR & Eg & El & Eq & Hr & Hl & Hres). specialize (Hl ltac:(lia)).
  destruct (po_restrict _ _ _ _ PO) as (RC & RN & RK).
  assert (AL : allowed p x q <-> forall DD, (i, DD) ∈ pp_restrict pp -> j ∈ DD).
  { unfold allowed. split.
    - intros A DD (y & C & HC & Hy & Hf)%RK. assert (y = x) as -> by (by eapply screw_inj). apply (relabel_in _ _ _ Hf). eauto.
    - intros A C HC. destruct (RC x C HC) as [_ CQ].
      assert (exists DD, Forall2 (fun x j => located cp x 0 j) C DD) as [DD HD].
      { clear HC. induction C as [|q' C IH]; [exists []; constructor|]. destruct IH as [DD HD]; [intros; apply CQ; by right|].
        destruct (CQ q') as [j' Hj']; [by left|]. exists (j' :: DD). by constructor. }
      assert (HM : (i, DD) ∈ pp_restrict pp) by (apply RK; exists x, C; done).
      apply A, (relabel_in _ _ _ HD) in HM as (y & Hy & Ly).
      assert (y = q) as -> by (by eapply located_inj). done. }
  rewrite AL. unfold may_use. simpl. unfold top_masks. case_decide as Hz.
  - split; [|done]. intros _ DD HD. destruct Hz as [Hz|Hz]; [lia|]. apply nil_length_inv in Hz. rewrite Hz in HD. by apply elem_of_nil in HD.
  - destruct (top_masks_ok H0) as (ms & -> & L & K). split.
    + intros (r & Hr' & Hq). destruct (K i r Hr') as [_ Kr]. destruct (Kr _ _ Hq) as [[_ ?]|[? _]]; done.
    + intros A. destruct (lookup_lt_is_Some_2 ms i) as [r Hr']; [rewrite L; by eapply screw_lt|]. exists r. split; [done|].
      destruct (K i r Hr') as [Lr Kr]. destruct Lq as (l' & El' & Ey). assert (l' = l) as -> by congruence.
      destruct (lookup_lt_is_Some_2 r j) as [z Hz']; [rewrite Lr, top_nq, Hl; by eapply lookup_lt_Some|].
      destruct (Kr _ _ Hz') as [[-> _]|[-> (C & HC & N)]]; [done|]. destruct N. by apply A.
Qed.
Lemma top_even : 0 < nq0 -> even_areas top_pb (nbr (pp_vnbrs pp)).
Proof.
  intros H0 u v v' x Hx E1 E2. simpl in Hx.
  destruct top_main as (R & gc & l & D & HR & Eg & El & Eq & Hr & Hl & Hres). specialize (Hl ltac:(lia)).
  destruct (po_vn _ _ _ _ PO) as (_ & _ & Kv).
  apply Kv in E1 as (N1 & a & b & Ha & Hb & Fa & Eab). apply Kv in E2 as (N2 & a' & b' & Ha' & Hb' & _ & Eab').
  assert (a' = a) as -> by (by eapply screw_inj).
  destruct (lookup_lt_is_Some_2 l x) as [q Hq]; [lia|]. assert (Lq : located cp q 0 x) by by exists l.
  unfold search_area. rewrite (top_may_use a u q x H0 Ha Lq), (top_may_use b v q x H0 Hb Lq), (top_may_use b' v' q x H0 Hb' Lq).
  apply (gi_restrict _ _ _ _ G).
  - by apply (dc_located _ _ _ D) in Lq as (? & _).
  - by rewrite fixed_key.
  - intros F. apply (Hres q x Hq) in F. rewrite Hl in Hx. lia.
  - done.
  - done.
Qed.

Notation E0 := (nbr (pp_vnbrs pp)).

Lemma fixmap_label v D q : (v, D) ∈ pp_fixed pp -> is_Some (fixmap (pp_fixed pp) v !! q) <-> q ∈ D.
Proof.
  intros H. destruct (po_fixed _ _ _ _ PO) as (_ & FN & _). rewrite (fixmap_in _ _ _ FN H). split.
  - intros [y [Hy _]%idm_lookup]. done.
  - intros Hq. exists q. by apply idm_lookup.
Qed.

Lemma top_fix : 0 < nq0 -> forall v q, nv0 <= v < nv0 + pp_nfixed pp -> is_Some (fixmap (pp_fixed pp) v !! q) -> nq0 <= q < nq0 + pp_reserved pp.
Proof.
  intros H0 v q Hv Hq. destruct top_main as (R & gc & l & D & HR & Eg & El & Eq & Hr & Hl & Hres). specialize (Hl ltac:(lia)).
  pose proof (ci_fall _ _ _ (top_chain_input H0) v Hv) as Hk. apply elem_of_list_fmap in Hk as ([v' DD] & -> & Hk). simpl in *.
  apply (fixmap_label _ _ _ Hk) in Hq. destruct (po_fixed _ _ _ _ PO) as (_ & FN & FK).
  apply FK in Hk as (x & C & HxC & Hs & Hf). apply (relabel_in _ _ _ Hf) in Hq as (y & Hy & (l' & El' & Ey)).
  assert (l' = l) as -> by congruence. pose proof (lookup_lt_Some _ _ _ Ey). rewrite top_nq, Hl. split; [|done].
  apply Hres with (x := y); [done|]. by exists x, C.
Qed.
Lemma top_fne : forall v, 0 < nq0 -> nv0 <= v < nv0 + pp_nfixed pp -> fixmap (pp_fixed pp) v <> ∅.
Proof.
  intros v H0 Hv. pose proof (ci_fall _ _ _ (top_chain_input H0) v Hv) as Hk. apply elem_of_list_fmap in Hk as ([v' DD] & -> & Hk). simpl in *.
  pose proof Hk as Hk'. destruct (po_fixed _ _ _ _ PO) as (_ & FN & FK). apply FK in Hk as (x & C & HxC & Hs & Hf).
  destruct (gi_fixed _ _ _ _ G x C HxC) as (_ & NC & _). destruct Hf as [|y j C DD Ly _]; [done|].
  intros Z. assert (Hj : is_Some (fixmap (pp_fixed pp) v' !! j)) by (apply (fixmap_label _ _ _ Hk'); by left). rewrite Z in Hj. destruct Hj as [? Hj]. by rewrite lookup_empty in Hj.
Qed.

Lemma top_nf : 0 < nq0 -> pp_nfixed pp <= pp_reserved pp.
Proof.
  intros H0. pose proof (top_chain_input H0) as CI.
  assert (PK : (pp_fixed pp).*1 ≡ₚ seq nv0 (pp_nfixed pp)).
  { apply NoDup_Permutation; [apply CI|apply NoDup_seq|]. intros v. rewrite elem_of_seq. split.
    - intros ([v' DD] & -> & Hk)%elem_of_list_fmap. by apply (ci_fkeys _ _ _ CI) in Hk as [? _].
    - apply (ci_fall _ _ _ CI). }
  assert (LK : length (pp_fixed pp) = pp_nfixed pp) by (rewrite <- (fmap_length fst), PK; apply seq_length).
  destruct (po_fixed _ _ _ _ PO) as (_ & FN & FK).
  set (hd0 := fun x : nat * list nat => default 0 (x.2 !! 0)).
  assert (HH : forall v D, (v, D) ∈ pp_fixed pp -> hd0 (v, D) ∈ D).
  { intros v D Hk. pose proof Hk as (x & C & HxC & Hs & Hf)%FK. destruct (gi_fixed _ _ _ _ G x C HxC) as (_ & NC & _).
    destruct Hf as [|y j C D Ly _]; [done|]. simpl. by left. }
  rewrite <- LK, <- (fmap_length hd0), <- (seq_length (pp_reserved pp) nq0).
  apply submseteq_length, NoDup_submseteq.
  - apply NoDup_alt. intros i j x Hi Hj. rewrite list_lookup_fmap in Hi, Hj.
    destruct (pp_fixed pp !! i) as [[v D]|] eqn:Ei; simpl in Hi; [|done]. destruct (pp_fixed pp !! j) as [[v' D']|] eqn:Ej; simpl in Hj; [|done].
    injection Hi as Hi. injection Hj as Hj.
    pose proof (elem_of_list_lookup_2 _ _ _ Ei) as Mi. pose proof (elem_of_list_lookup_2 _ _ _ Ej) as Mj.
    pose proof (HH _ _ Mi) as Xi. pose proof (HH _ _ Mj) as Xj. rewrite Hi in Xi. rewrite Hj in Xj.
    pose proof Mi as (w & C & HwC & Hs & Hf)%FK. pose proof Mj as (w' & C' & HwC' & Hs' & Hf')%FK.
    apply (relabel_in _ _ _ Hf) in Xi as (y & Hy & Ly). apply (relabel_in _ _ _ Hf') in Xj as (y' & Hy' & Ly').
    assert (y = y') as <- by (by eapply located_inj).
    assert (w = w') as <- by (eapply (gi_fdisj _ _ _ _ G); eauto).
    assert (v = v') as <- by congruence.
    eapply (NoDup_lookup (pp_fixed pp).*1); [exact FN|rewrite list_lookup_fmap, Ei; done|rewrite list_lookup_fmap, Ej; done].
  - intros x ([v D] & -> & Hk)%elem_of_list_fmap. rewrite elem_of_seq.
    apply (top_fix H0 v). { by apply (ci_fkeys _ _ _ CI) in Hk as [? _]. }
    apply (fixmap_label _ _ _ Hk). by apply HH.
Qed.

(** the environment *)
Lemma comp_le : pp_qubits pp <= gn qg.
Proof.
  destruct top_main as (R & gc & l & D & HR & Eg & El & Eq & Hr & Hl & Hres).
  destruct (decide (0 < pp_qubits pp)) as [H0|]; [|lia]. rewrite (Hl H0).
  assert (NoDup l) as ND.
  { apply NoDup_alt. intros i j x Hi Hj. assert (L1 : located cp x 0 i) by by exists l. assert (L2 : located cp x 0 j) by by exists l.
    by destruct (located_det _ _ _ _ _ _ _ _ D L1 L2). }
  rewrite <- (seq_length (gn qg) 0). apply submseteq_length, NoDup_submseteq; [done|].
  intros x [j Hj]%elem_of_list_lookup. assert (L1 : located cp x 0 j) by by exists l.
  apply (dc_located _ _ _ D) in L1 as (? & _). apply elem_of_seq. lia.
Qed.
Lemma degree_le i l : pp_vnbrs pp !! i = Some l -> length l <= gn vg.
Proof.
  intros Hi. destruct (po_vn _ _ _ _ PO) as (Lv & Nv & Kv).
  rewrite <- (seq_length (gn vg) 0). apply submseteq_length, NoDup_submseteq; [by eapply Nv|].
  intros x Hx. destruct (proj1 (Kv i x)) as (_ & a & b & _ & Hb & _); [by exists l|]. apply screw_lt in Hb. apply elem_of_seq. lia.
Qed.
Lemma foldr_max_le (ls : list (list nat)) d b : d <= b -> (forall l, l ∈ ls -> length l <= b) ->
  foldr (fun l m => Nat.max (length l) m) d ls <= b.
Proof.
  clear. intros Hd. induction ls as [|l ls IH]; intros H; simpl; [done|].
  pose proof (H l ltac:(by left)). assert (forall l, l ∈ ls -> length l <= b) by (intros x Hx; apply H; by right). specialize (IH H1). lia.
Qed.
Lemma top_env : (make_env pp p o = Err TooSmall /\ too_small vg qg cp p) \/
  (exists e m, make_env pp p o = Ok e /\ pb e = top_pb /\ 0 < nq0 /\ wtab e = o_wtab o m /\ skip_init e = p_skip_init p /\
     interactive e = p_interactive p /\ chain_fuel e = o_fuel o /\ chainlength_patience e = p_chainlength_patience p /\
     ((Z.of_nat (gn vg) * Z.of_nat (gn qg) < 4294967296)%Z -> (0 < m < 4294967296)%Z /\ (Z.of_nat nq0 <= m)%Z /\
        forall l, l ∈ pp_vnbrs pp -> (Z.of_nat (length l) * Z.of_nat nq0 <= m)%Z)).
Proof.
  unfold make_env. destruct top_main as (R & gc & l & D & HR & Eg & El & Eq & Hr & Hl & Hres).
  rewrite decide_False by lia. cbv zeta.
  destruct (decide (nq0 = 0)) as [Z|NZ].
  - left. split. { unfold compute_margin. rewrite decide_True by done. cbn [rbind]. unfold margin_bound. simpl. done. }
    left. intros q j (l' & El' & Hq). assert (l' = l) as -> by congruence.
    destruct (decide (pp_qubits pp = 0)) as [Z0|Z0].
    + right. intros y Ey. destruct (dc_size _ _ _ D _ _ _ Eg El) as (Wg & Sg & S2 & S0).
      assert (Lq : located cp q 0 j) by (by exists l). destruct (dc_located _ _ _ D _ _ _ Lq) as (Hq1 & _).
      assert (Hy : y < gn qg) by (destruct Ey as [Ey|Ey]; apply (gi_qg _ _ _ _ G) in Ey; lia).
      destruct (dc_partition _ _ _ D y Hy) as (c & k & Ly).
      assert (c = 0) as ->. { symmetry. apply (dc_paths _ _ _ D q y 0 j c k Lq Ly). by apply rtc_once. }
      assert (EE : edge gc j k) by (apply (dc_edges _ _ _ D 0 gc j k Eg); eauto 6).
      assert (ge gc = []) as Zg by (apply S0; lia). unfold edge in EE. rewrite Zg in EE. destruct EE as [X|X]; by apply elem_of_nil in X.
    + left. apply (Hres q j Hq). rewrite <- (Hl ltac:(lia)). lia.
  - unfold compute_margin. rewrite decide_False by done.
    destruct (po_vn _ _ _ _ PO) as (Lv & _). pose proof (gi_v0 _ _ _ _ G) as V0.
    destruct (pp_vnbrs pp) as [|l0 ls] eqn:Evn; [simpl in Lv; lia|]. cbn [rbind].
    set (d := foldr (fun l m => Nat.max (length l) m) (length l0) ls).
    assert (Hd : d <= gn vg).
    { apply foldr_max_le; [apply (degree_le 0); by rewrite Evn|]. intros x [i Hi]%elem_of_list_lookup. apply (degree_le (S i)). by rewrite Evn. }
    unfold margin_bound. case_decide as Hm; cbn [rbind].
    + left. split; [done|]. right. pose proof comp_le. pose proof (gi_size _ _ _ _ G) as Sz.
      case_decide as Hd0.
      * rewrite Z.mod_small in Hm by lia. lia.
      * assert (~ (Z.of_nat d * Z.of_nat nq0 < 4294967296)%Z); [|nia]. intros Lt. rewrite Z.mod_small in Hm by nia. nia.
    + right.
      assert (Em : (if decide (length (pp_restrict pp) = 0) then Ok None
        else let! ms := masks_of (pp_nvars pp) (nq0 + pp_reserved pp) (pp_restrict pp) in Ok (Some ms)) = Ok top_masks).
      { unfold top_masks. destruct (top_masks_ok ltac:(lia)) as (ms & -> & _). cbn [rbind]. repeat case_decide; try done; lia. }
      rewrite Em. clear Em. cbn [rbind]. do 2 eexists. split; [done|]. simpl. split; [done|]. split; [lia|]. repeat (split; [done|]).
      intros Lt. pose proof comp_le. pose proof (gi_size _ _ _ _ G) as Sz.
      assert (Hall : forall l, l ∈ l0 :: ls -> length l <= d).
      { clear. unfold d. clear d. induction ls as [|a ls IH]; simpl; intros l Hl.
        - by apply elem_of_list_singleton in Hl as ->.
        - rewrite !elem_of_cons in Hl. destruct Hl as [->|[->|Hl]]; [|lia|].
          + specialize (IH l0 ltac:(by left)). lia.
          + specialize (IH l ltac:(by right)). lia. }
      assert (Mm : (0 <= (if decide (d = 0%nat) then Z.of_nat nq0 else Z.of_nat d * Z.of_nat nq0) < 4294967296)%Z).
      { case_decide; [lia|]. split; [nia|]. assert (Z.of_nat d * Z.of_nat nq0 <= Z.of_nat (gn vg) * Z.of_nat (gn qg))%Z; [|lia]. apply Z.mul_le_mono_nonneg; lia. }
      rewrite Z.mod_small in Hm |- * by done. split; [lia|]. split; [case_decide; nia|].
      intros l' Hl'. specialize (Hall l' Hl'). case_decide; [assert (length l' = 0) as -> by lia; lia|]. nia.
Qed.

Lemma top_new_rinv e : pb e = top_pb -> 0 < nq0 -> rinv e E0 (pathfinder_new e (pp_vnbrs pp)).
Proof.
  intros Ep H0. unfold pathfinder_new. cbv zeta.
  destruct (perm_table (rnd e) (nv (pb e) + nr (pb e)) 0 (seq 0 (nq (pb e)))) as [t pos] eqn:Et.
  apply (perm_table_ok _ _ (nq (pb e))) in Et as [Lt Kt]; [|apply seq_length].
  split; [split; simpl|].
  - split; [rewrite Ep; apply top_vn_wf|done].
  - split; simpl; rewrite ?replicate_length; try done.
    + rewrite Lt, Ep. simpl. pose proof (top_nf H0). lia.
    + intros v r (-> & _)%lookup_replicate. by rewrite replicate_length.
    + intros v r (-> & _)%lookup_replicate. by rewrite replicate_length.
    + intros v r (-> & _)%lookup_replicate. rewrite replicate_length. split; [done|].
      intros d [_ ->]%elem_of_replicate_inv || intros d Hd. apply elem_of_replicate_inv in Hd. subst. done.
  - simpl. intros u Hu. apply elem_of_list_lookup in Hu as [i Hi]. apply lookup_replicate in Hi as [-> Hi]. lia.
Qed.

Lemma top_best_new e : best (pathfinder_new e (pp_vnbrs pp)) = emb_new (pb e).
Proof. unfold pathfinder_new. cbv zeta. destruct (perm_table _ _ _ _). done. Qed.
Lemma top_vn_new e : vn (pathfinder_new e (pp_vnbrs pp)) = pp_vnbrs pp.
Proof. unfold pathfinder_new. cbv zeta. destruct (perm_table _ _ _ _). done. Qed.

(** ** chains handed back *)
Definition result_of (em : emb) (cs : list (list nat)) : Prop :=
  length cs = gn vg /\ (forall v C, cs !! v = Some C -> NoDup C /\ forall i c, pp_screw pp !! v = Some i -> chains em !! i = Some c -> length C = csize c) /\
  forall v q, has_qubit cs v q <-> exists i j, pp_screw pp !! v = Some i /\ located cp q 0 j /\ in_chain em i j.

Lemma get_chains em : 0 < nq0 -> length (chains em) = gn vg ->
  (forall v c, chains em !! v = Some c -> below c (pp_qubits pp)) ->
  exists cs, foldM (fun out u => let! c := get_chain pp em u in Ok (out ++ [c])) (seq 0 (gn vg)) [] = Ok cs /\ result_of em cs.
Proof.
  intros H0 Lc B. destruct top_main as (R & gc & l & D & HR & Eg & El & Eq & Hr & Hl & Hres). specialize (Hl ltac:(lia)).
  set (rel := fun v C => exists i c, pp_screw pp !! v = Some i /\ chains em !! i = Some c /\
     Forall2 (fun x j => located cp x 0 j) C (cqubits c)).
  edestruct (foldM_inv (fun out u => let! c := get_chain pp em u in Ok (out ++ [c]))
    (fun dn out => Forall2 rel dn out) (seq 0 (gn vg)) []) as (cs & -> & H).
  - constructor.
  - intros dn v rest out Es H.
    assert (Hv : v < gn vg). { assert (v ∈ seq 0 (gn vg)) as Hv by (rewrite Es; set_solver). apply elem_of_seq in Hv. lia. }
    unfold get_chain. destruct (screw_ex v Hv) as [i Hi]. rewrite (vget_ok _ _ _ Hi). cbn [rbind].
    destruct (lookup_lt_is_Some_2 (chains em) i) as [c Hc]; [rewrite Lc; by eapply screw_lt|]. rewrite (vget_ok _ _ _ Hc). cbn [rbind].
    destruct (from_ok2 _ _ _ 0 l (cqubits c) D El) as (C & -> & HC).
    { intros j Hj. rewrite <- Hl. apply (B i c Hc). unfold cqubits in Hj. apply elem_of_list_fmap in Hj as ([j' x] & -> & Hj).
      apply elem_of_map_to_list in Hj. apply pm_is_Some. unfold qin. simpl. eauto. }
    cbn [rbind]. eexists; split; [done|]. apply Forall2_app; [done|]. constructor; [|constructor]. exists i, c. done.
  - exists cs. split; [done|].
    assert (HL : forall v C, cs !! v = Some C -> rel v C).
    { intros v C Hv. destruct (Forall2_lookup_r _ _ _ _ _ H Hv) as (v' & Hv' & Hrel). apply lookup_seq in Hv' as [-> _]. done. }
    split; [by rewrite <- (Forall2_length _ _ _ H), seq_length|]. split.
    + intros v C Hv. destruct (HL v C Hv) as (i & c & Hi & Hc & HC).
      split. 2: { intros i' c' Hi' Hc'. assert (i' = i) as -> by congruence. assert (c' = c) as -> by congruence.
        rewrite (Forall2_length _ _ _ HC). unfold cqubits, csize. by rewrite fmap_length. }
      assert (ND : NoDup (cqubits c)) by apply NoDup_fst_map_to_list. clear -HC ND D. revert ND.
      induction HC as [|x j C D' L H IH]; [constructor|]. intros [Nj ND]%NoDup_cons. apply NoDup_cons. split; [|auto].
      intros [k Hk]%elem_of_list_lookup. destruct (Forall2_lookup_l _ _ _ _ _ H Hk) as (j' & Hj' & Lj').
      destruct (located_det _ _ _ _ _ _ _ _ D L Lj') as [_ <-]. apply Nj. by eapply elem_of_list_lookup_2.
    + intros v q. split.
      * intros (C & Hv & Hq). destruct (HL v C Hv) as (i & c & Hi & Hc & HC).
        apply elem_of_list_lookup in Hq as [k Hk]. destruct (Forall2_lookup_l _ _ _ _ _ HC Hk) as (j & Hj & Lj).
        exists i, j. split; [done|]. split; [done|]. exists c. split; [done|].
        apply elem_of_list_lookup_2 in Hj. unfold cqubits in Hj. apply elem_of_list_fmap in Hj as ([j' x] & -> & Hj).
        apply elem_of_map_to_list in Hj. eauto.
      * intros (i & j & Hi & Lj & (c & Hc & [x Hx])).
        assert (Hv : v < gn vg) by apply (screw_lt _ _ Hi).
        destruct (lookup_lt_is_Some_2 cs v) as [C HC]; [rewrite <- (Forall2_length _ _ _ H), seq_length; done|].
        exists C. split; [done|]. destruct (HL v C HC) as (i' & c' & Hi' & Hc' & HCC).
        assert (i' = i) as -> by congruence. assert (c' = c) as -> by congruence.
        assert (Hj : j ∈ cqubits c). { unfold cqubits. apply elem_of_list_fmap. exists (j, x). split; [done|]. by apply elem_of_map_to_list. }
        apply elem_of_list_lookup in Hj as [k Hk]. destruct (Forall2_lookup_r _ _ _ _ _ HCC Hk) as (q' & Hq' & Lq').
        assert (q = q') as -> by (by eapply located_inj). by eapply elem_of_list_lookup_2.
Qed.

Lemma adj_edge x y i j : located cp x 0 i -> located cp y 0 j -> adjq top_pb i j -> edge qg x y.
Proof.
  intros Lx Ly H. destruct top_main as (R & gc & l & D & HR & Eg & El & Eq & Hr & Hl & Hres).
  destruct (po_qn _ _ _ _ PO) as [Lq Kq]. specialize (Kq gc Eg).
  assert (EE : edge gc i j).
  { destruct H as [H|H].
    - change (nbq top_pb i j) with (nbr (pp_qnbrs pp) i j) in H. apply Kq in H. tauto.
    - change (nbq top_pb j i) with (nbr (pp_qnbrs pp) j i) in H. apply Kq in H as (_ & _ & H). destruct H; [right|left]; done. }
  apply (dc_edges _ _ _ D _ _ _ _ Eg) in EE as (x' & y' & Lx' & Ly' & EE).
  assert (x' = x) as -> by (by eapply located_inj). assert (y' = y) as -> by (by eapply located_inj). done.
Qed.

Context {D0 : nat -> nat -> Prop}.
Notation F0 := (mkFD (fixmap (pp_fixed pp)) D0).
Lemma full_result e em cs : pb e = top_pb -> 0 < nq0 -> full e E0 F0 em -> result_of em cs -> overlapping_embedding vg qg p cs.
Proof.
  intros Ep H0 (I & W & Gd) (Lcs & Ncs & Rcs).
  destruct top_main as (R & gc & l & D & HR & Eg & El & Eq & Hr & Hl & Hres). specialize (Hl ltac:(lia)).
  rewrite Ep in I. pose proof (ei_len _ _ _ _ I) as Le. simpl in Le. rewrite top_nv in Le.
  assert (LOC : forall i c j, chains em !! i = Some c -> qin c j -> exists q, located cp q 0 j).
  { intros i c j Hc Hj. destruct (lookup_lt_is_Some_2 l j) as [q Hq]; [|exists q, l; done].
    rewrite <- Hl, <- top_nq. apply (ei_below _ _ _ _ I _ _ Hc). by apply pm_is_Some. }
  assert (NEf : forall v C, (v, C) ∈ p_fixed p -> forall q, has_qubit cs v q <-> q ∈ C).
  { intros v C HC q. rewrite Rcs. destruct (po_fixed _ _ _ _ PO) as (FC & FN & FK).
    destruct (FC v C HC) as [Hv CQ]. destruct (screw_ex v Hv) as [i Hi].
    assert (exists DD, Forall2 (fun x j => located cp x 0 j) C DD) as [DD HD].
    { clear HC. induction C as [|q' C IH]; [exists []; constructor|]. destruct IH as [DD HD]; [intros; apply CQ; by right|].
      destruct (CQ q') as [j Hj]; [by left|]. exists (j :: DD). by constructor. }
    assert (HM : (i, DD) ∈ pp_fixed pp) by (apply FK; eauto).
    destruct (lookup_lt_is_Some_2 (chains em) i) as [c Hc]; [rewrite Le; by eapply screw_lt|].
    assert (Hi' : nv0 <= i) by (destruct (ci_fkeys _ _ _ (top_chain_input H0) _ _ HM) as [? _]; simpl in *; lia).
    pose proof (ei_fix _ _ _ _ I i c Hc Hi') as Pf.
    assert (QD : forall j, qin c j <-> j ∈ DD).
    { intros j. cbn [fd_map] in Pf. rewrite <- (fixmap_label _ _ j HM), <- Pf. symmetry. apply pm_is_Some. }
    split.
    - intros (i' & j & Hi2 & Lj & Hin). assert (i' = i) as -> by congruence. apply (in_chain_qin _ _ _ _ Hc), QD in Hin.
      apply (relabel_in _ _ _ HD) in Hin as (x & Hx & Lx). assert (x = q) as -> by (by eapply located_inj). done.
    - intros Hq. destruct (CQ q Hq) as [j Lj]. exists i, j. split; [done|]. split; [done|].
      apply (in_chain_qin _ _ _ _ Hc), QD, (relabel_in _ _ _ HD). eauto. }
  assert (NE : forall i, i < gn vg -> nonempty em i).
  { intros i Hi. destruct (lookup_lt_is_Some_2 (chains em) i) as [c Hc]; [lia|]. exists c. split; [done|].
    destruct (decide (i < nv0)) as [Hf|Hf].
    - destruct (Gd i) as [(c' & Hc' & [r Hr']) _]; [rewrite Ep; done|]. assert (c' = c) as -> by congruence.
      pose proof (cwf_links _ _ _ (ei_cwf _ _ _ _ I _ _ Hc) _ _ Hr') as Q. apply pm_is_Some in Q.
      intros Z. rewrite <- size_pm in Z. apply map_size_empty_inv in Z. apply pm_is_Some in Q. rewrite Z in Q. destruct Q as [? Q]. by rewrite lookup_empty in Q.
    - pose proof (ei_fix _ _ _ _ I i c Hc ltac:(simpl; lia)) as Pf. intros Z. rewrite <- size_pm in Z. apply map_size_empty_inv in Z.
      apply (top_fne i H0); [rewrite top_nv; lia|]. cbn [fd_map] in Pf. congruence. }
  split.
  - done.
  - intros v C HC. split; [by eapply Ncs|]. assert (Hv : v < gn vg) by (rewrite <- Lcs; by eapply lookup_lt_Some). split.
    + destruct (screw_ex v Hv) as [i Hi]. destruct (NE i) as (c & Hc & Sz); [by eapply screw_lt|].
      rewrite <- size_pm in Sz. apply map_size_non_empty_iff in Sz. apply map_choose in Sz as (j & x & Hj).
      assert (Q : qin c j) by (apply pm_is_Some; eauto). destruct (LOC _ _ _ Hc Q) as [q Lq].
      assert (HQ : has_qubit cs v q). { apply Rcs. exists i, j. split; [done|]. split; [done|]. by apply (in_chain_qin _ _ _ _ Hc). }
      destruct HQ as (C' & HC' & Hq). assert (C' = C) as -> by congruence. intros ->. by apply elem_of_nil in Hq.
    + intros q Hq. assert (HQ : has_qubit cs v q) by by exists C. apply Rcs in HQ as (i & j & _ & Lj & _).
      by apply (dc_located _ _ _ D) in Lj as (? & _).
  - intros v Hv Nf. destruct (screw_ex v Hv) as [i Hi]. apply (screw_free v i Hi) in Nf.
    destruct (Gd i) as [(c & Hc & [r Hr']) _]; [rewrite Ep; done|].
    pose proof (rooted_connected (adjq top_pb) c r (adjq_sym top_pb) (ei_cwf _ _ _ _ I _ _ Hc) (ei_root _ _ _ _ I _ _ _ Hc Hr')) as Cn.
    intros x y Hx Hy. apply Rcs in Hx as (i1 & jx & Hi1 & Lx & Ix), Hy as (i2 & jy & Hi2 & Ly & Iy).
    assert (i1 = i) as -> by congruence. assert (i2 = i) as -> by congruence.
    apply (in_chain_qin _ _ _ _ Hc) in Ix, Iy. specialize (Cn jx jy Ix Iy). clear Ix Hi1 Hi2.
    revert x Lx. induction Cn as [jx|jx jz jy (A1 & A2 & A3) _ IH]; intros x Lx.
    + assert (x = y) as -> by (by eapply located_inj). constructor.
    + destruct (LOC _ _ _ Hc A3) as [z Lz].
      assert (HQ : forall q j, located cp q 0 j -> qin c j -> has_qubit cs v q).
      { intros q j Lq Qj. apply Rcs. exists i, j. split; [done|]. split; [done|]. by apply (in_chain_qin _ _ _ _ Hc). }
      eapply rtc_l; [|by apply IH]. split; [by eapply adj_edge|]. split; eauto.
  - intros u v EE Nuv Nff.
    assert (B : u < gn vg /\ v < gn vg). { destruct EE as [EE|EE]; destruct (gi_vg _ _ _ _ G _ _ EE); done. }
    destruct B as [Hu Hv]. destruct (screw_ex u Hu) as [iu Hiu]. destruct (screw_ex v Hv) as [iv Hiv].
    assert (LK : forall u v iu iv, pp_screw pp !! u = Some iu -> pp_screw pp !! v = Some iv -> ~ is_fixed p u -> u <> v -> edge vg u v ->
      touching (edge qg) (has_qubit cs) u v).
    { clear u v EE Nuv Nff Hu Hv iu iv Hiu Hiv. intros u v iu iv Hiu Hiv Nf Nuv EE.
      assert (Niv : iu <> iv) by (intros ->; apply Nuv; by eapply screw_inj).
      destruct (Gd iu) as [_ Gv]; [rewrite Ep; by apply (screw_free u iu Hiu)|].
      destruct (Gv iv) as (cu & Hcu & [q Hq]).
      { apply (po_vn _ _ _ _ PO). split; [done|]. exists u, v. split; [done|]. split; [done|]. split; [by rewrite <- fixed_key|done]. }
      { apply NE. by eapply screw_lt. }
      destruct (ei_link _ _ _ _ I _ _ _ _ Hcu Niv Hq) as (_ & cv & r & Hcv & Hr' & Hqr).
      pose proof (cwf_links _ _ _ (ei_cwf _ _ _ _ I _ _ Hcu) _ _ Hq) as Qq. apply pm_is_Some in Qq.
      pose proof (cwf_links _ _ _ (ei_cwf _ _ _ _ I _ _ Hcv) _ _ Hr') as Qr. apply pm_is_Some in Qr.
      destruct (LOC _ _ _ Hcu Qq) as [x Lx]. destruct (LOC _ _ _ Hcv Qr) as [y Ly].
      exists x, y. split; [apply Rcs; exists iu, q; split; [done|]; split; [done|]; by apply (in_chain_qin _ _ _ _ Hcu)|].
      split; [apply Rcs; exists iv, r; split; [done|]; split; [done|]; by apply (in_chain_qin _ _ _ _ Hcv)|].
      destruct Hqr as [->|Ha]; [left; by eapply located_inj|right; by eapply adj_edge]. }
    destruct (fixed_dec u) as [Fu|Nu]; [|by eapply LK].
    destruct (fixed_dec v) as [Fv|Nv]; [tauto|].
    destruct (LK v u iv iu) as (y & x & Hy & Hx & Hxy); auto. { destruct EE; [right|left]; done. }
    exists x, y. split; [done|]. split; [done|]. destruct Hxy as [->|Hxy]; [by left|]. right. destruct Hxy; [right|left]; done.
  - exact NEf.
  - intros v q Nf HQ Hq. apply Rcs in HQ as (i & j & Hi & (l' & El' & Lj) & (c & Hc & Hin)).
    assert (l' = l) as -> by congruence. apply (screw_free v i Hi) in Nf.
    pose proof (ei_bound _ _ _ _ I i c j Hc Hin ltac:(done)) as Bj. simpl in Bj. apply (Hres q j Lj) in Hq. lia.
Qed.

Lemma disjoint_result e em cs : pb e = top_pb -> 0 < nq0 -> full e E0 F0 em -> result_of em cs ->
  (forall q, q < nq0 -> (sumind (chains em) q <= 1)%Z) <-> disjoint_chains cs.
Proof.
  intros Ep H0 Fu Rs. pose proof Rs as (Lcs & Ncs & Rcs). pose proof (full_result e em cs Ep H0 Fu Rs) as OE.
  destruct top_main as (R & gc & l & D & HR & Eg & El & Eq & Hr & Hl & Hres). specialize (Hl ltac:(lia)).
  destruct Fu as (I & W & Gd). rewrite Ep in I. pose proof (ei_len _ _ _ _ I) as Le. simpl in Le. rewrite top_nv in Le.
  split.
  - intros HS u v q HU HV.
    destruct (decide (u = v)) as [|Nuv]; [done|exfalso].
    destruct (fixed_dec u) as [[C HC]|Nu].
    { apply (oe_fixed _ _ _ _ OE _ _ HC) in HU as HqC. destruct (fixed_dec v) as [[C' HC']|Nv].
      - apply (oe_fixed _ _ _ _ OE _ _ HC') in HV as HqC'. apply Nuv. by eapply (gi_fdisj _ _ _ _ G).
      - apply (oe_free _ _ _ _ OE v q Nv HV). by exists u, C. }
    destruct (fixed_dec v) as [[C HC]|Nv].
    { apply (oe_fixed _ _ _ _ OE _ _ HC) in HV as HqC. apply (oe_free _ _ _ _ OE u q Nu HU). by exists v, C. }
    apply Rcs in HU as (iu & j & Hiu & Lj & (cu & Hcu & Qu)), HV as (iv & j' & Hiv & Lj' & (cv & Hcv & Qv)).
    destruct (located_det _ _ _ _ _ _ _ _ D Lj Lj') as [_ <-].
    apply (screw_free u iu Hiu) in Nu. pose proof (ei_bound _ _ _ _ I iu cu j Hcu Qu Nu) as Bj. simpl in Bj. specialize (HS j Bj).
    assert (iu <> iv) by (intros ->; apply Nuv; by eapply screw_inj).
    pose proof (sumind_two _ _ _ _ _ j Hcu Hcv ltac:(done)) as S2. unfold ind, ccount in S2.
    destruct Qu as [? Qu], Qv as [? Qv]. rewrite Qu, Qv in S2. simpl in S2. lia.
  - intros DJ j Hj. destruct (decide (sumind (chains em) j <= 1)%Z) as [|N]; [done|exfalso].
    assert (exists iu iv cu cv, iu <> iv /\ chains em !! iu = Some cu /\ chains em !! iv = Some cv /\ qin cu j /\ qin cv j) as (iu & iv & cu & cv & Nuv & Hcu & Hcv & Qu & Qv).
    { rewrite users_sumind in N. unfold users in N. clear -N. induction (chains em) as [|c cs IH]; simpl in N; [lia|].
      case_bool_decide as Hc.
      - simpl in N. assert (exists i cv, cs !! i = Some cv /\ is_Some (cdata cv !! j)) as (i & cv & Hi & Qv).
        { clear IH Hc. induction cs as [|c' cs IH]; simpl in N; [lia|]. case_bool_decide as Hc'; [by exists 0, c'|].
          destruct (IH N) as (i & cv & ? & ?). by exists (S i), cv. }
        exists 0, (S i), c, cv. done.
      - destruct (IH N) as (iu & iv & cu & cv & ? & ? & ? & ? & ?). exists (S iu), (S iv), cu, cv. split; [lia|]. done. }
    destruct (lookup_lt_is_Some_2 l j) as [q Hq]; [lia|]. assert (Lq : located cp q 0 j) by by exists l.
    destruct (unscrew_ex iu) as [u Hu]; [rewrite <- Le; by eapply lookup_lt_Some|]. destruct (unscrew_ex iv) as [v Hv]; [rewrite <- Le; by eapply lookup_lt_Some|].
    assert (u = v) as ->.
    { apply (DJ u v q); apply Rcs; [exists iu, j|exists iv, j]; (split; [done|]; split; [done|]); [by apply (in_chain_qin _ _ _ _ Hcu)|by apply (in_chain_qin _ _ _ _ Hcv)]. }
    congruence.
Qed.
End top.
