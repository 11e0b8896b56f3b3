(** Graph-level statements about line masks and masked topologies. *)
From stdpp Require Import base list list_numbers numbers gmap.
From Verif Require Import Base BusModel CliqueModel SpecBus CoordProofs BitProofs BundleProofs MaskProofs MaskProofs2 TopoProofs.

Lemma bit_at_mbit mem i k : bit_at mem i k <-> mbit mem i k = true.
Proof.
  unfold bit_at, mbit. split.
  - intros (b & -> & ?). done.
  - destruct (mem !! i) as [b|]; [|done]. intros. by exists b.
Qed.

Lemma cell_pos t y x u : (y * dim_x t + x) * 2 + (if u : bool then 1 else 0) = cell_index t y x u.
Proof. unfold cell_index, b2n. destruct u; lia. Qed.

Lemma represents_shows t nm em nodes edges : represents t nm em nodes edges ->
  length nm = num_cells t /\ length em = num_cells t /\ bytes nm /\ bytes em /\
  shows (dim_y t) (dim_x t) (shore t) nm em nodes edges.
Proof.
  intros (L1 & L2 & B1 & B2 & Hn & He). split_and!; try done.
  intros y x u k Hy Hx. rewrite cell_pos, !bit_at_mbit. split.
  - destruct u.
    + specialize (Hn true y x k Hy Hx). unfold cell_index_wz, line_qubit in Hn. done.
    + specialize (Hn false x y k Hx Hy). unfold cell_index_wz, line_qubit in Hn. done.
  - destruct u.
    + specialize (He true y x k Hy Hx). unfold cell_index_wz, line_qubit in He. rewrite He.
      split; intros (? & z' & -> & ?); (split; [done|]); exists z'; (split; [lia|]); by rewrite ?Nat.add_1_r in *.
    + specialize (He false x y k Hx Hy). unfold cell_index_wz, line_qubit in He. rewrite He.
      split; intros (? & z' & -> & ?); (split; [done|]); exists z'; (split; [lia|]); by rewrite ?Nat.add_1_r in *.
Qed.

Lemma shows_represents t nm em nodes edges :
  length nm = num_cells t -> length em = num_cells t -> bytes nm -> bytes em ->
  shows (dim_y t) (dim_x t) (shore t) nm em nodes edges -> represents t nm em nodes edges.
Proof.
  intros L1 L2 B1 B2 H. split_and!; try done.
  - intros [] w z k Hw Hz; unfold cell_index_wz, line_qubit.
    + destruct (H w z true k Hw Hz) as [A _]. by rewrite <- bit_at_mbit, <- cell_pos.
    + destruct (H z w false k Hz Hw) as [A _]. by rewrite <- bit_at_mbit, <- cell_pos.
  - intros [] w z k Hw Hz; unfold cell_index_wz, line_qubit.
    + destruct (H w z true k Hw Hz) as [_ A]. rewrite <- bit_at_mbit, <- cell_pos, A.
      split; intros (? & z' & -> & ?); (split; [done|]); exists z'; (split; [lia|]); by rewrite ?Nat.add_1_r in *.
    + destruct (H z w false k Hz Hw) as [_ A]. rewrite <- bit_at_mbit, <- cell_pos, A.
      split; intros (? & z' & -> & ?); (split; [done|]); exists z'; (split; [lia|]); by rewrite ?Nat.add_1_r in *.
Qed.

Lemma missing_is_bad t nodes edges a b :
  missing_coupler (dim_y t) (dim_x t) (shore t) nodes edges a b <-> is_bad t nodes edges a b.
Proof. done || (unfold missing_coupler, is_bad; setoid_rewrite qubit_linear; done). Qed.

(** C34 on graphs *)
Definition lines_exact (t : topo) (nodes : list nat) (edges : list (nat * nat)) (lm : list N) : Prop :=
  forall u w z0 z1, w < dim_w t u -> z0 <= z1 -> z1 < dim_z t u ->
    exists m, get_line_mask t lm u w z0 z1 = Ok m /\ byte m /\
      forall k, k ∈ bits m <-> k < shore t /\ segment_present (dim_x t) (shore t) nodes edges u w z0 z1 k.

Lemma line_masks_exact t nm em nodes edges total :
  represents t nm em nodes edges -> good_graph total nodes edges ->
  exists lm, compute_line_masks t (nm, em) = Ok lm /\ lines_exact t nodes edges lm.
Proof.
  intros (L1 & L2 & B1 & B2 & Hn & He) [_ Hg].
  assert (Hg' : forall p q, has_edge edges p q -> p ∈ nodes /\ q ∈ nodes).
  { intros p q [H|H]; apply Hg in H; tauto. }
  destruct (compute_line_masks_ok t nm em L1 L2 B1) as (lm & E & Ll & Bl & H).
  exists lm. split; [done|]. intros u w z0 z1 Hw Hz Hz1.
  destruct (lookup_lt_is_Some_2 lm (line_addr t u w z0 z1)) as [m Em].
  { rewrite Ll. by apply line_addr_lt. }
  exists m. split; [by apply vget_ok|]. assert (Bm : byte m) by (eapply bytes_lookup; eauto). split; [done|].
  intros k. rewrite (mbit_bits lm _ m k Bl Em). rewrite H by done. unfold rawok. rewrite Hn by done. split.
  - intros [[Hk Hq] Hc]. split; [done|].
    assert (Hc' : forall z, z0 <= z < z1 -> has_edge edges (line_qubit (dim_x t) (shore t) u w z k) (line_qubit (dim_x t) (shore t) u w (S z) k)).
    { intros z Hzz. specialize (Hc (S z) ltac:(lia)). apply He in Hc as (_ & z' & Ez & Hc); [|done|lia].
      assert (z' = z) as -> by lia. done. }
    split; [|done]. intros z Hzz. destruct (decide (z = z1)) as [->|Hne]; [done|].
    apply (Hg' _ _ (Hc' z ltac:(lia))).
  - intros (Hk & Hs1 & Hs2). split; [split; [done|]; apply Hs1; lia|].
    intros z' Hz'. apply He; [done|lia|]. split; [done|]. exists (z' - 1). split; [lia|].
    replace z' with (S (z' - 1)) at 2 by lia. apply Hs2. lia.
Qed.

(** a mask's graph, restated *)
Lemma line_masks_shows t nm em nodes edges :
  length nm = num_cells t -> length em = num_cells t -> Forall (fun b => (b < 256)%N) nm -> Forall (fun b => (b < 256)%N) em ->
  shows (dim_y t) (dim_x t) (shore t) nm em nodes edges ->
  (forall p q, (p, q) ∈ edges -> p ∈ nodes /\ q ∈ nodes) ->
  exists lm, compute_line_masks t (nm, em) = Ok lm /\
    forall u w z0 z1, w < nlines (dim_y t) (dim_x t) u -> z0 <= z1 -> z1 < npositions (dim_y t) (dim_x t) u ->
    exists m, get_line_mask t lm u w z0 z1 = Ok m /\
      forall k, N.testbit m (N.of_nat k) = true <-> k < shore t /\ segment_present (dim_x t) (shore t) nodes edges u w z0 z1 k.
Proof.
  intros L1 L2 B1 B2 Hs He.
  destruct (line_masks_exact t nm em nodes edges (list_max nodes + 1)) as (lm & E & H).
  - by apply shows_represents.
  - split; [|done]. intros q Hq%elem_of_list_In. pose proof (list_max_le nodes (list_max nodes)) as [HM _].
    specialize (HM (le_n _)). rewrite List.Forall_forall in HM. specialize (HM q Hq). lia.
  - exists lm. split; [done|]. intros u w z0 z1 Hw Hz Hz1. destruct (H u w z0 z1 Hw Hz Hz1) as (m & Em & Bm & Hm).
    exists m. split; [done|]. intros k. rewrite <- Hm. by rewrite bits_elem.
Qed.

(** C39 *)
Lemma masked_run t nodes edges bound shuf coin :
  shore t <= 8 -> good_graph (nqubits (dim_y t) (dim_x t) (shore t)) nodes edges -> (forall i l, shuf i l ≡ₚ l) ->
  exists c, topo_init t nodes edges = Ok c /\
    (forall a b, (a, b) ∈ tc_bad c <-> missing_coupler (dim_y t) (dim_x t) (shore t) nodes edges a b) /\
    forall bad, bad ≡ₚ tc_bad c -> exists n, forall fuel, n <= fuel ->
    exists l, mask_run fuel c bound shuf coin 0 (mkTS 0 bad ([], [])) = Ok l /\
      (forall nm em, (nm, em) ∈ l -> exists R,
         (forall q, q ∈ R -> exists a b, missing_coupler (dim_y t) (dim_x t) (shore t) nodes edges a b /\ (q = a \/ q = b)) /\
         (forall a b, missing_coupler (dim_y t) (dim_x t) (shore t) nodes edges a b -> a ∈ R \/ b ∈ R) /\
         shows (dim_y t) (dim_x t) (shore t) nm em (without R nodes) (edges_without R edges)) /\
      (forall ch : nat * nat -> bool, (2 ^ N.of_nat (length (tc_bad c)) <= bound)%N ->
         exists nm em R, (nm, em) ∈ l /\
           (forall q, q ∈ R <-> exists e, e ∈ tc_bad c /\ q = if ch e then e.1 else e.2) /\
           shows (dim_y t) (dim_x t) (shore t) nm em (without R nodes) (edges_without R edges)).
Proof.
  intros Hsh Hg Hp. rewrite nqubits_t in Hg.
  destruct (topo_init_ok t Hsh nodes edges Hg) as (c & Ec & Ht & Hr & Hb).
  exists c. split; [done|]. split.
  { intros a b. rewrite missing_is_bad. apply Hb. }
  intros bad HP. exists (S (N.to_nat (mask_count c bound))). intros fuel HF.
  destruct (mask_run_ok t Hsh nodes edges c Ht Hr Hb bound shuf coin fuel 0 (mkTS 0 bad ([], [])) HP Hp) as (l & El & Hm & Hl).
  { cbn [ts_num]. lia. }
  exists l. split; [done|]. split.
  - intros nm em Hin. rewrite Forall_forall in Hm. apply Hm in Hin as (R & H1 & H2 & H3). exists R. split_and!.
    + intros q Hq. destruct (H1 q Hq) as (a & b & ? & ?). exists a, b. by rewrite missing_is_bad.
    + intros a b Hab. apply H2. by apply missing_is_bad.
    + by apply represents_shows in H3 as (_ & _ & _ & _ & ?).
  - intros ch Hbd. destruct (decide (tc_bad c = [])) as [E0|E0].
    + destruct l as [|[nm em] l'].
      { unfold mask_count in Hl. rewrite E0 in Hl. done. }
      exists nm, em, []. split; [by left|]. split.
      { intros q. rewrite E0. split; [by intros ?%elem_of_nil|]. by intros (e & ?%elem_of_nil & _). }
      rewrite Forall_cons in Hm. destruct Hm as [(R & H1 & H2 & H3) _].
      assert (R = []) as ->.
      { destruct R as [|q R]; [done|]. destruct (H1 q ltac:(left)) as (a & b & Hab & _).
        apply Hb in Hab. rewrite E0 in Hab. by apply elem_of_nil in Hab. }
      by apply represents_shows in H3 as (_ & _ & _ & _ & ?).
    + destruct (mask_run_exhaustive t Hsh nodes edges c Ht Hr Hb bound shuf coin fuel 0 (mkTS 0 bad ([], [])) HP E0 Hbd) as (l' & El' & Hall).
      { cbn [ts_num]. lia. }
      rewrite El in El'. injection El' as <-.
      destruct (choice_number bad (fun i => default true (ch <$> bad !! i))) as (j & Hj & Hch).
      rewrite (Permutation_length HP) in Hj.
      destruct (Hall j) as (m & Em & Hrep). { cbn [ts_num]. lia. }
      destruct m as [nm em]. exists nm, em, (pick_exhaustive bad j). split; [by eapply elem_of_list_lookup_2|]. split.
      * intros q. rewrite elem_of_pick_exhaustive. split.
        -- intros (i & e & Ei & ->). exists e. split; [rewrite <- HP; by eapply elem_of_list_lookup_2|].
           rewrite Hch by (by eapply lookup_lt_Some). by rewrite Ei.
        -- intros (e & He & ->). rewrite <- HP in He. apply elem_of_list_lookup in He as [i Ei]. exists i, e. split; [done|].
           rewrite Hch by (by eapply lookup_lt_Some). by rewrite Ei.
      * by apply represents_shows in Hrep as (_ & _ & _ & _ & ?).
Qed.

(** C38: the loop never ends once both shores have a qubit *)
Lemma cell_loop_stuck t y x k0 k1 fuel emb : byte k0 -> byte k1 -> k0 <> 0%N -> k1 <> 0%N ->
  cell_inflate_loop fuel t y x k0 k1 emb = Err OOF.
Proof.
  intros B0 B1 N0 N1. revert emb. induction fuel as [|fuel IH]; intros emb; [done|]. cbn [cell_inflate_loop].
  destruct (N.eqb_spec k0 0); [done|]. destruct (N.eqb_spec k1 0); [done|]. cbn [orb].
  destruct (first_bit_bits k0 B0 N0) as (a & ? & -> & _). destruct (first_bit_bits k1 B1 N1) as (b & ? & -> & _).
  cbn [rbind]. apply IH.
Qed.

Lemma cell_inflate_stuck t nm em nodes edges y x : represents t nm em nodes edges -> y < dim_y t -> x < dim_x t ->
  (exists k, k < shore t /\ qubit (dim_x t) (shore t) y x false k ∈ nodes) ->
  (exists k, k < shore t /\ qubit (dim_x t) (shore t) y x true k ∈ nodes) ->
  forall fuel emb, cell_inflate fuel t (nm, em) y x emb = Err OOF.
Proof.
  intros (L1 & L2 & B1 & B2 & Hn & He) Hy Hx (k & Hk & Qk) (l & Hlk & Ql) fuel emb. unfold cell_inflate, qmask. cbn [fst snd].
  destruct (cell_get t nm false x y L1 Hx Hy) as [a Ea]. destruct (cell_get t nm true y x L1 Hy Hx) as [b Eb].
  rewrite (vget_ok _ _ _ Ea), (vget_ok _ _ _ Eb). cbn [rbind]. apply cell_loop_stuck.
  - exact (bytes_lookup nm _ _ B1 Ea).
  - exact (bytes_lookup nm _ _ B1 Eb).
  - intros ->. assert (T : mbit nm (cell_index_wz t false x y) k = true) by (apply Hn; [done..|split; done]).
    unfold mbit in T. rewrite Ea, N.bits_0 in T. done.
  - intros ->. assert (T : mbit nm (cell_index_wz t true y x) l = true) by (apply Hn; [done..|split; done]).
    unfold mbit in T. rewrite Eb, N.bits_0 in T. done.
Qed.

Lemma one_cell_stuck t nodes edges c y x :
  shore t <= 8 -> good_graph (nqubits (dim_y t) (dim_x t) (shore t)) nodes edges -> topo_init t nodes edges = Ok c ->
  y < dim_y t -> x < dim_x t ->
  (exists k, k < shore t /\ qubit (dim_x t) (shore t) y x false k ∈ nodes) ->
  (exists k, k < shore t /\ qubit (dim_x t) (shore t) y x true k ∈ nodes) ->
  forall fuel emb, cell_inflate fuel t (tc_nodemask c, tc_edgemask c) y x emb = Err OOF.
Proof.
  intros Hsh Hg Ec. rewrite nqubits_t in Hg. destruct (topo_init_ok t Hsh nodes edges Hg) as (c' & Ec' & Ht & Hr & Hb).
  rewrite Ec in Ec'. injection Ec' as <-. by apply (cell_inflate_stuck t _ _ nodes edges).
Qed.

Lemma one_cell_empty t nodes edges c y x :
  shore t <= 8 -> good_graph (nqubits (dim_y t) (dim_x t) (shore t)) nodes edges -> topo_init t nodes edges = Ok c ->
  y < dim_y t -> x < dim_x t ->
  (forall k, k < shore t -> qubit (dim_x t) (shore t) y x false k ∉ nodes) \/
  (forall k, k < shore t -> qubit (dim_x t) (shore t) y x true k ∉ nodes) ->
  forall fuel emb, cell_inflate (S fuel) t (tc_nodemask c, tc_edgemask c) y x emb = Ok emb.
Proof.
  intros Hsh Hg Ec Hy Hx Hno fuel emb. rewrite nqubits_t in Hg.
  destruct (topo_init_ok t Hsh nodes edges Hg) as (c' & Ec' & Ht & (L1 & L2 & B1 & B2 & Hn & He) & Hb).
  rewrite Ec in Ec'. injection Ec' as <-. unfold cell_inflate, qmask. cbn [fst snd].
  destruct (cell_get t (tc_nodemask c) false x y L1 Hx Hy) as [a Ea].
  destruct (cell_get t (tc_nodemask c) true y x L1 Hy Hx) as [b Eb].
  rewrite (vget_ok _ _ _ Ea), (vget_ok _ _ _ Eb). cbn [rbind cell_inflate_loop].
  assert (Z : forall u w z m, w < dim_w t u -> z < dim_z t u -> tc_nodemask c !! cell_index_wz t u w z = Some m ->
    (forall k, k < shore t -> line_qubit (dim_x t) (shore t) u w z k ∉ nodes) -> m = 0%N).
  { intros u w z m Hw Hz Em Hk. apply bits_nil; [exact (bytes_lookup _ _ _ B1 Em)|].
    destruct (bits m) as [|k l] eqn:E; [done|]. exfalso.
    assert (Hb' : k ∈ bits m) by (rewrite E; left). rewrite (mbit_bits _ _ _ _ B1 Em) in Hb'.
    apply Hn in Hb' as [? ?]; [|done..]. by apply (Hk k). }
  destruct Hno as [H|H].
  - rewrite (Z false x y a Hx Hy Ea H). done.
  - rewrite (Z true y x b Hy Hx Eb H). destruct (a =? 0)%N; done.
Qed.

Lemma C33_chimera_forward t y x u k : y < dim_y t -> x < dim_x t -> k < shore t ->
  chimera_linear t y x u k = qubit (dim_x t) (shore t) y x u k /\
  chimera_linear t y x u k < nqubits (dim_y t) (dim_x t) (shore t) /\
  linear_chimera t (chimera_linear t y x u k) = (y, x, u, k).
Proof.
  intros. split_and!; [by rewrite qubit_linear|rewrite nqubits_t; by apply chimera_linear_lt|by apply linear_of_chimera].
Qed.
Lemma C33_chimera_backward t q y x u k : q < nqubits (dim_y t) (dim_x t) (shore t) ->
  linear_chimera t q = (y, x, u, k) ->
  chimera_linear t y x u k = q /\ y < dim_y t /\ x < dim_x t /\ k < shore t.
Proof. rewrite nqubits_t. apply chimera_of_linear. Qed.
Lemma C33_segments t u w z0 z1 u' w' z0' z1' :
  w < nlines (dim_y t) (dim_x t) u -> z0 <= z1 -> z1 < npositions (dim_y t) (dim_x t) u ->
  w' < nlines (dim_y t) (dim_x t) u' -> z0' <= z1' -> z1' < npositions (dim_y t) (dim_x t) u' ->
  line_addr t u w z0 z1 < line_mask_size t /\
  (line_addr t u w z0 z1 = line_addr t u' w' z0' z1' -> u = u' /\ w = w' /\ z0 = z0' /\ z1 = z1').
Proof.
  intros. split; [by apply line_addr_lt|]. by apply line_addr_inj.
Qed.
