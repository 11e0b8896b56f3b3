(** Lines of fragments are complete exactly when the wires of qubits are; without missing couplers
    between directions nothing is masked. *)
From stdpp Require Import base list list_numbers numbers gmap relations.
From Verif Require Import Base BusModel CliqueModel FragModel SpecBus SpecFrag CoordProofs BitProofs BundleProofs MaskProofs MaskProofs2 TopoProofs BusTop
  CliqueProofs1 CliqueProofs2 CliqueProofs3 CliqueProofs4 CliqueProofs5 CliqueProofs6 CliqueProofs7 CliqueTop FragProofs1 FragProofs2 FragProofs3 FragProofs4.

Section wires.
Context (fs : fspec) (D sh nz : nat) (off : bool -> nat -> nat -> nat) (coupler : nat -> nat -> Prop).
Context (St : striped fs D sh nz off coupler).
Context (nodes : list nat) (edges : list (nat * nat)) (HLt : lattice D sh nz coupler nodes edges).
Notation L := (fs_len fs).
Notation num := (fun u w k j => linemajor_linear u w k j D sh nz).
Notation t := (fs_topo fs).
Notation lq := (line_qubit D sh).
Notation fn := (fnodes fs D sh nodes).
Notation fe := (fedges fs D sh nodes edges).
Notation covers u w k j pos := (off u w k + L * j <= pos < off u w k + L * S j).

Lemma fedge_inner u w k j i : w < D -> k < sh -> j < nz -> S i < L -> num u w k j ∈ nodes ->
  has_edge fe (lq u w (off u w k + L * j + i) k) (lq u w (S (off u w k + L * j + i)) k).
Proof.
  intros Hw Hk Hj Hi Hin. left. unfold fedges. apply elem_of_app. left. apply elem_of_list_bind. exists (num u w k j). split; [|done].
  rewrite (inner_num _ _ _ _ _ _ St) by done. apply elem_of_list_fmap. exists i. split; [done|]. apply elem_of_seq. lia.
Qed.
Lemma has_norm p q : p < q -> has_edge edges p q -> exists e, e ∈ edges /\ norm e = (p, q).
Proof.
  intros Hpq [H|H].
  - exists (p, q). split; [done|]. unfold norm. cbn [fst snd]. destruct (Nat.ltb_spec q p); [lia|done].
  - exists (q, p). split; [done|]. unfold norm. cbn [fst snd]. destruct (Nat.ltb_spec p q); [done|lia].
Qed.
Lemma fedge_ext u w k j : w < D -> k < sh -> S j < nz -> has_edge edges (num u w k j) (num u w k (S j)) ->
  has_edge fe (lq u w (off u w k + L * j + (L - 1)) k) (lq u w (S (off u w k + L * j + (L - 1))) k).
Proof.
  intros Hw Hk Hj H. pose proof (st_len _ _ _ _ _ _ St) as HL. apply has_norm in H as (e & He & E); [|unfold linemajor_linear; lia].
  left. unfold fedges. apply elem_of_app. right. apply elem_of_list_bind. exists e. split; [|done].
  rewrite (efrags_norm fs D sh _ _ E), !(st_first _ _ _ _ _ _ St) by (done || lia).
  rewrite eqb_reflx, Nat.eqb_refl. replace (off u w k + L * S j - 1) with (off u w k + L * j + (L - 1)) by lia. by left.
Qed.
Lemma fedge_cross w k j w' k' j' : w < D -> k < sh -> j < nz -> w' < D -> k' < sh -> j' < nz ->
  has_edge edges (num false w k j) (num true w' k' j') -> has_edge fe (lq false w w' k) (lq true w' w k').
Proof.
  intros Hw Hk Hj Hw' Hk' Hj' H. apply has_norm in H as (e & He & E); [|by apply snum_dir].
  left. unfold fedges. apply elem_of_app. right. apply elem_of_list_bind. exists e. split; [|done].
  rewrite (efrags_norm fs D sh _ _ E), !(st_first _ _ _ _ _ _ St) by (done || lia). cbn [eqb]. by left.
Qed.

Lemma wire_present u w k z0 z1 : w < D -> k < sh -> z1 < D ->
  wire_complete (fun j => num u w k j) (fun j pos => covers u w k j pos) nz nodes edges z0 z1 <-> segment_present D sh fn fe u w z0 z1 k.
Proof.
  intros Hw Hk Hz1. pose proof (st_len _ _ _ _ _ _ St) as HL. split.
  - intros [H1 H2]. split.
    + intros z Hz. destruct (H1 z Hz) as (j & Hj & Hc & Hin). apply (frag_member _ _ _ _ _ _ St); [by apply HLt|done|lia|done|].
      exists j. split_and!; [done|lia|lia|done].
    + intros z Hz. destruct (H1 z ltac:(lia)) as (j & Hj & Hc & Hin). destruct (decide (S z < off u w k + L * S j)).
      * replace z with (off u w k + L * j + (z - off u w k - L * j)) by lia. apply fedge_inner; try done. lia.
      * assert (z = off u w k + L * j + (L - 1)) as -> by lia. 
        destruct (H1 (S (off u w k + L * j + (L - 1))) ltac:(lia)) as (j' & Hj' & Hc' & Hin').
        assert (j' = S j) as ->.
        { assert (j <> j') by (intros ->; lia). assert (j < S j') by nia. assert (j' < S (S j)) by nia. lia. }
        apply fedge_ext; try done. eapply H2; [done|..]; try exact Hc; try exact Hc'; lia.
  - intros HP. 
    assert (Hwo : forall z, z0 <= z <= z1 -> exists j, j < nz /\ covers u w k j z /\ num u w k j ∈ nodes).
    { intros z Hz. destruct HP as [HP _]. specialize (HP z Hz). apply (frag_member _ _ _ _ _ _ St) in HP; [exact HP|by apply HLt|done|lia|done]. }
    split; [done|]. intros j pos Hj Hp0 Hp1 Hc Hc'. destruct HP as [_ HP]. specialize (HP pos ltac:(lia)).
    apply (own_adj _ _ _ _ _ _ St _ _ HLt) in HP; [|done|lia|done]. unfold own in HP.
    rewrite (place_div fs off u w k j pos), (place_div fs off u w k (S j) (S pos)) in HP by done.
    destruct HP as [HP|HP]; [|done]. apply snum_inj in HP; try done; [|lia]. injection HP as HP. lia.
Qed.

(** crossing qubits are coupled *)
Definition crossed : Prop := forall w k j w' k' j', w < D -> k < sh -> j < nz -> w' < D -> k' < sh -> j' < nz ->
  covers false w k j w' -> covers true w' k' j' w -> num false w k j ∈ nodes -> num true w' k' j' ∈ nodes ->
  has_edge edges (num false w k j) (num true w' k' j').
Lemma crossed_good : crossed -> forall a b, ~ is_bad t fn fe a b.
Proof.
  intros Hcr a b (y & x & k & l & Hy & Hx & Hk & Hl & -> & -> & Ha & Hb & Hn).
  rewrite (t_y _ _ _ _ _ _ St) in Hy. rewrite (t_x _ _ _ _ _ _ St) in Hx. rewrite (t_s _ _ _ _ _ _ St) in Hk, Hl.
  assert (E1 : chimera_linear t y x false k = lq false x y k).
  { rewrite <- (lq_t _ _ _ _ _ _ St), line_qubit_linear. done. }
  assert (E2 : chimera_linear t y x true l = lq true y x l).
  { rewrite <- (lq_t _ _ _ _ _ _ St), line_qubit_linear. done. }
  rewrite E1 in Ha, Hn. rewrite E2 in Hb, Hn.
  apply (frag_member _ _ _ _ _ _ St) in Ha as (j & Hj & Hc & Hin); [|by apply HLt|done..].
  apply (frag_member _ _ _ _ _ _ St) in Hb as (j' & Hj' & Hc' & Hin'); [|by apply HLt|done..].
  apply Hn. eapply fedge_cross; [..|by apply (Hcr x k j y l j')]; done.
Qed.
Lemma crossed_removed : crossed -> forall cells, masked t fn fe cells -> removed t fn fe cells [].
Proof.
  intros Hcr cells (R & H1 & H2 & H3). split; [intros a b Hab; by apply crossed_good in Hab|].
  assert (R = []) as ->; [|done]. destruct R as [|q R]; [done|]. destruct (H1 q ltac:(left)) as (a & b & Hab & _). by apply crossed_good in Hab.
Qed.

Lemma count_iff (P Q : nat -> Prop) a : (forall k, P k <-> Q k) -> count_of P a -> count_of Q a.
Proof. intros H (l & N & E & Hl). exists l. split_and!; [done..|]. intros k. rewrite Hl. apply H. Qed.
Lemma filter_all {A} (P : A -> Prop) `{!forall x, Decision (P x)} (l : list A) : (forall x, P x) -> filter P l = l.
Proof. intros HP. induction l as [|x l IH]; [done|]. rewrite filter_cons_True by done. by rewrite IH. Qed.
Lemma offer_capacity (wire : bool -> nat -> nat -> nat -> nat -> Prop) w Ls c :
  (forall u w k z0 z1, w < D -> k < sh -> z1 < D -> wire u w k z0 z1 <->
     wire_complete (fun j => num u w k j) (fun j pos => covers u w k j pos) nz nodes edges z0 z1) ->
  peeling D D w Ls -> ells_offer sh wire Ls c -> capacity D sh (without [] fn) (edges_without [] fe) Ls c.
Proof.
  intros Hwire (_ & Hin & _) (l & HF & ->). exists l. split; [|done].
  assert (En : without [] fn = fn). { unfold without. apply filter_all. intros x. apply not_elem_of_nil. }
  assert (Ee : edges_without [] fe = fe). { unfold edges_without. apply filter_all. intros x. split; apply not_elem_of_nil. }
  rewrite En, Ee.
  revert HF. generalize l. clear l. induction Ls as [|e Ls IH]; intros l HF; inversion HF as [|? c ? l' Hc HF']; subst; constructor.
  - destruct Hc as (a & b & Ha & Hb & ->). destruct (Hin e ltac:(left)) as (Hr & Hcl & H1 & H2). exists a, b. split_and!; [| |done].
    + eapply count_iff; [|exact Ha]. intros k. split; intros [Hk H]; (split; [done|]).
      * apply wire_present; [destruct Hcl; lia|done|lia|]. apply Hwire; [destruct Hcl; lia|done|lia|done].
      * apply Hwire; [destruct Hcl; lia|done|lia|]. apply wire_present; [destruct Hcl; lia|done|lia|done].
    + eapply count_iff; [|exact Hb]. intros k. split; intros [Hk H]; (split; [done|]).
      * apply wire_present; [destruct Hr; lia|done|lia|]. apply Hwire; [destruct Hr; lia|done|lia|done].
      * apply Hwire; [destruct Hr; lia|done|lia|]. apply wire_present; [destruct Hr; lia|done|lia|done].
  - apply IH; [|done]. intros e' He'. apply Hin. by right.
Qed.

(** the masks of a run *)
Lemma frag_masked bound shuf coin : (forall i l, shuf i l ≡ₚ l) -> (1 <= bound)%N ->
  exists c, frag_init fs nodes edges = Ok c /\
  forall bad, bad ≡ₚ tc_bad c -> exists n, forall fuel, n <= fuel ->
  exists masks, mask_run fuel c bound shuf coin 0 (mkTS 0 bad ([], [])) = Ok masks /\ masks <> [] /\
    Forall (fun cells => exists R, removed t fn fe cells R) masks /\ (crossed -> Forall (fun cells => removed t fn fe cells []) masks).
Proof.
  intros Hp Hb. pose proof (rshore _ _ _ _ _ _ St) as Hsh. pose proof (rgood _ _ _ _ _ _ St _ _ HLt) as Hg.
  destruct (frag_init_sim _ _ _ _ _ _ St nodes edges HLt) as (c & Ec & Et).
  destruct (topo_init_ok t Hsh fn fe Hg) as (c' & Ec' & Ht & Hr & Hbad). rewrite Et in Ec'. injection Ec' as <-.
  exists c. split; [done|]. intros bad HP. exists (S (N.to_nat (mask_count c bound))). intros fuel HF.
  destruct (mask_run_ok t Hsh fn fe c Ht Hr Hbad bound shuf coin fuel 0 (mkTS 0 bad ([], [])) HP Hp) as (l & El & Hm & Hl).
  { cbn [ts_num]. lia. }
  exists l. split_and!; [done| | |].
  - intros ->. cbn [ts_num length] in Hl. unfold mask_count in Hl. destruct (tc_bad c) as [|p l]; [done|].
    assert (0 < 2 ^ N.of_nat (length (p :: l)))%N by (apply N.neq_0_lt_0, N.pow_nonzero; done).
    destruct (2 ^ N.of_nat (length (p :: l)) <=? bound)%N; lia.
  - eapply Forall_impl; [exact Hm|]. intros cells (R & _ & H2 & H3). exists R. by split.
  - intros Hcr. eapply Forall_impl; [exact Hm|]. by apply crossed_removed.
Qed.
End wires.
