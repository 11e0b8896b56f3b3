(** Property theorems about the busclique tables: C33, C34, C38, C39. *)
From stdpp Require Import base list numbers gmap.
From Verif Require Import Base BusModel CliqueModel SpecBus CoordProofs BusTop.

(** C33: the linear index of a Chimera qubit is the standard numbering, and the two conversions
    are inverse to each other on their ranges *)
Theorem C33_chimera_coordinates : forall t y x u k, y < dim_y t -> x < dim_x t -> k < shore t ->
  chimera_linear t y x u k = qubit (dim_x t) (shore t) y x u k /\
  chimera_linear t y x u k < nqubits (dim_y t) (dim_x t) (shore t) /\
  linear_chimera t (chimera_linear t y x u k) = (y, x, u, k).
Proof. exact C33_chimera_forward. Qed.
Print Assumptions C33_chimera_coordinates.
Theorem C33_chimera_index : forall t q y x u k, q < nqubits (dim_y t) (dim_x t) (shore t) ->
  linear_chimera t q = (y, x, u, k) ->
  chimera_linear t y x u k = q /\ y < dim_y t /\ x < dim_x t /\ k < shore t.
Proof. exact C33_chimera_backward. Qed.
Print Assumptions C33_chimera_index.
(** line-major coordinates (Pegasus, Zephyr) *)
Theorem C33_linemajor_coordinates : forall u w k z dw sh dz, w < dw -> k < sh -> z < dz ->
  linemajor_linear u w k z dw sh dz < 2 * dw * sh * dz /\
  linear_linemajor (linemajor_linear u w k z dw sh dz) dw sh dz = (u, w, k, z).
Proof. exact (fun u w k z dw sh dz a b c => conj (linemajor_lt u w k z dw sh dz a b c) (linemajor_roundtrip u w k z dw sh dz a b c)). Qed.
Print Assumptions C33_linemajor_coordinates.
Theorem C33_linemajor_index : forall q u w k z dw sh dz, q < 2 * dw * sh * dz ->
  linear_linemajor q dw sh dz = (u, w, k, z) ->
  linemajor_linear u w k z dw sh dz = q /\ w < dw /\ k < sh /\ z < dz.
Proof. exact linemajor_of_linear. Qed.
Print Assumptions C33_linemajor_index.
(** the byte of a cell shore, the word of a table position and the byte of a line segment:
    inside the arrays, and different for different places *)
Theorem C33_cell_bytes : forall t y x u y' x' u', y < dim_y t -> x < dim_x t -> x' < dim_x t ->
  cell_index t y x u < num_cells t /\
  (cell_index t y x u = cell_index t y' x' u' -> y = y' /\ x = x' /\ u = u').
Proof. exact (fun t y x u y' x' u' a b c => conj (cell_index_lt t y x u a b) (cell_index_inj t y x u y' x' u' b c)). Qed.
Print Assumptions C33_cell_bytes.
Theorem C33_grid_words : forall rows cols y x y' x', y < rows -> x < cols -> x' < cols ->
  grid_index cols y x < rows * cols /\
  (grid_index cols y x = grid_index cols y' x' -> y = y' /\ x = x').
Proof. exact (fun rows cols y x y' x' a b c => conj (grid_index_lt rows cols y x a b) (grid_index_inj cols y x y' x' b c)). Qed.
Print Assumptions C33_grid_words.
Theorem C33_segment_bytes : forall t u w z0 z1 u' w' z0' z1',
  w < nlines (dim_y t) (dim_x t) u -> z0 <= z1 -> z1 < npositions (dim_y t) (dim_x t) u ->
  w' < nlines (dim_y t) (dim_x t) u' -> z0' <= z1' -> z1' < npositions (dim_y t) (dim_x t) u' ->
  line_addr t u w z0 z1 < line_mask_size t /\
  (line_addr t u w z0 z1 = line_addr t u' w' z0' z1' -> u = u' /\ w = w' /\ z0 = z0' /\ z1 = z1').
Proof. exact C33_segments. Qed.
Print Assumptions C33_segment_bytes.
Example C33_case : let t := mkTopo 3 5 4 in
  linear_chimera t 77 = (1, 4, true, 1) /\ chimera_linear t 1 4 true 1 = 77 /\
  linear_linemajor 100 4 3 5 = (true, 2, 2, 0) /\ line_addr t true 2 1 3 = 67 /\ line_mask_size t = 75.
Proof. vm_compute. repeat split. Qed.

(** C34: for masks that show a graph whose couplers join present qubits, bit [k] of the mask of a
    segment is set exactly when all its qubits with index [k] and the couplers between them are
    present *)
Theorem C34_line_masks_exact : forall t nm em nodes edges,
  length nm = num_cells t -> length em = num_cells t ->
  Forall (fun b => (b < 256)%N) nm -> Forall (fun b => (b < 256)%N) em ->
  shows (dim_y t) (dim_x t) (shore t) nm em nodes edges ->
  (forall p q, (p, q) ∈ edges -> p ∈ nodes /\ q ∈ nodes) ->
  exists lm, compute_line_masks t (nm, em) = Ok lm /\
    forall u w z0 z1, w < nlines (dim_y t) (dim_x t) u -> z0 <= z1 -> z1 < npositions (dim_y t) (dim_x t) u ->
    exists m, get_line_mask t lm u w z0 z1 = Ok m /\
      forall k, N.testbit m (N.of_nat k) = true <->
        k < shore t /\ segment_present (dim_x t) (shore t) nodes edges u w z0 z1 k.
Proof. exact line_masks_shows. Qed.
Print Assumptions C34_line_masks_exact.
(** a 1 x 3 grid with shore 2 and all qubits, the coupler between columns 1 and 2 of the second
    horizontal line missing *)
Example C34_case : let t := mkTopo 1 3 2 in
  let edges := [(2,6);(3,7);(6,10);(0,2);(0,3)] in
  exists nm em lm, chimera_nodes t (seq 0 12) (replicate 6 0%N) = Ok nm /\ chimera_edges t edges (replicate 6 0%N) = Ok em /\
    compute_line_masks t (nm, em) = Ok lm /\
    get_line_mask t lm true 0 0 1 = Ok 3%N /\ get_line_mask t lm true 0 0 2 = Ok 1%N /\ get_line_mask t lm true 0 2 2 = Ok 3%N.
Proof. eexists _, _, _. split; [vm_compute; reflexivity|]. split; [vm_compute; reflexivity|]. split; [vm_compute; reflexivity|].
  split_and!; vm_compute; reflexivity. Qed.

(** C39: every masked topology shows the graph without a set of qubits that has an end of every
    missing coupler and nothing else, whatever the random generator does; and when there are few
    missing couplers, every choice of one end each is visited *)
Theorem C39_masked_topologies : forall t nodes edges bound shuf coin,
  shore t <= 8 -> good_graph (nqubits (dim_y t) (dim_x t) (shore t)) nodes edges -> (forall i l, shuf i l ≡ₚ l) ->
  exists c, topo_init t nodes edges = Ok c /\
    (forall a b, (a, b) ∈ tc_bad c <-> missing_coupler (dim_y t) (dim_x t) (shore t) nodes edges a b) /\
    forall bad, bad ≡ₚ tc_bad c -> exists n, forall fuel, n <= fuel ->
    exists l, mask_run fuel c bound shuf coin 0 (mkTS 0 bad ([], [])) = Ok l /\
      (forall nm em, (nm, em) ∈ l -> exists R,
         (forall q, q ∈ R -> exists a b, missing_coupler (dim_y t) (dim_x t) (shore t) nodes edges a b /\ (q = a \/ q = b)) /\
         (forall a b, missing_coupler (dim_y t) (dim_x t) (shore t) nodes edges a b -> a ∈ R \/ b ∈ R) /\
         shows (dim_y t) (dim_x t) (shore t) nm em (without R nodes) (edges_without R edges)) /\
      (forall ch : nat * nat -> bool, (2 ^ N.of_nat (length (tc_bad c)) <= bound)%N ->
         exists nm em R, (nm, em) ∈ l /\
           (forall q, q ∈ R <-> exists e, e ∈ tc_bad c /\ q = if ch e then e.1 else e.2) /\
           shows (dim_y t) (dim_x t) (shore t) nm em (without R nodes) (edges_without R edges)).
Proof. exact masked_run. Qed.
Print Assumptions C39_masked_topologies.
(** a 2 x 2 grid with shore 2, qubit 5 missing and the coupler 0-2 missing: two masks *)
Definition ex_topo : topo := mkTopo 2 2 2.
Definition ex_nodes : list nat := filter (fun q => q <> 5) (seq 0 16).
Definition ex_edges : list (nat * nat) :=
  [(0,3);(1,2);(1,3);(4,6);(4,7);(8,10);(8,11);(9,10);(9,11);(12,14);(12,15);(13,14);(13,15);
   (0,8);(1,9);(4,12);(2,6);(3,7);(10,14);(11,15)].
Example C39_case : good_graph (nqubits 2 2 2) ex_nodes ex_edges /\
  missing_coupler 2 2 2 ex_nodes ex_edges 0 2 /\
  exists c l, topo_init ex_topo ex_nodes ex_edges = Ok c /\ tc_bad c = [(0, 2)] /\
    mask_run 5 c 10 (fun _ l => l) (fun _ _ => true) 0 (mkTS 0 [(0,2)] ([], [])) = Ok l /\ length l = 2.
Proof.
  split; [|split].
  - split.
    + apply Forall_forall. apply (bool_decide_unpack _). by vm_compute.
    + assert (H : Forall (fun e => e.1 ∈ ex_nodes /\ e.2 ∈ ex_nodes) ex_edges) by (apply (bool_decide_unpack _); by vm_compute).
      rewrite Forall_forall in H. intros p q Hpq. exact (H _ Hpq).
  - exists 0, 0, 0, 0. split_and!; try lia; try done; try (apply (bool_decide_unpack _); by vm_compute).
  - eexists _, _. split; [vm_compute; reflexivity|]. split; [done|]. split; [vm_compute; reflexivity|done].
Qed.

(** C38 is false: whenever a cell has a qubit on each shore, the one-cell construction never
    returns, however long one waits ([fuel] iterations) *)
Theorem C38_one_cell_clique_refuted : forall t nodes edges c y x,
  shore t <= 8 -> good_graph (nqubits (dim_y t) (dim_x t) (shore t)) nodes edges -> topo_init t nodes edges = Ok c ->
  y < dim_y t -> x < dim_x t ->
  (exists k, k < shore t /\ qubit (dim_x t) (shore t) y x false k ∈ nodes) ->
  (exists k, k < shore t /\ qubit (dim_x t) (shore t) y x true k ∈ nodes) ->
  forall fuel emb, cell_inflate fuel t (tc_nodemask c, tc_edgemask c) y x emb = Err OOF.
Proof. exact one_cell_stuck. Qed.
Print Assumptions C38_one_cell_clique_refuted.
(** the only searches that return are those of cells with an empty shore, which yield nothing *)
Theorem C38_one_cell_clique_partial : forall t nodes edges c y x,
  shore t <= 8 -> good_graph (nqubits (dim_y t) (dim_x t) (shore t)) nodes edges -> topo_init t nodes edges = Ok c ->
  y < dim_y t -> x < dim_x t ->
  (forall k, k < shore t -> qubit (dim_x t) (shore t) y x false k ∉ nodes) \/
  (forall k, k < shore t -> qubit (dim_x t) (shore t) y x true k ∉ nodes) ->
  forall fuel emb, cell_inflate (S fuel) t (tc_nodemask c, tc_edgemask c) y x emb = Ok emb.
Proof. exact one_cell_empty. Qed.
Print Assumptions C38_one_cell_clique_partial.
Example C38_case : exists c, topo_init ex_topo ex_nodes ex_edges = Ok c /\
  cell_score ex_topo (tc_nodemask c, tc_edgemask c) 1 1 = Ok 2 /\
  find_clique 1000 ex_topo [(tc_nodemask c, tc_edgemask c)] 2 [] = Err OOF.
Proof. eexists. split; [vm_compute; reflexivity|]. split; vm_compute; reflexivity. Qed.
