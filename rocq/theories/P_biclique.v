(** Property theorems about the Chimera biclique search: C41, C42, C43. *)
From stdpp Require Import base list numbers gmap.
From Verif Require Import Base BusModel BicliqueModel SpecBus BicliqueTop P_bus.

(** C41: what [best_bicliques] collects, for any missing qubits and couplers and whatever the random
    generator does: at the key (s0, s1) there is an embedding of the complete bipartite graph with
    sides s0 and s1.  Every size that some rectangle of some visited mask offers is a key. *)
Theorem C41_bicliques_valid : forall t nodes edges bound shuf coin,
  shore t <= 8 -> good_graph (nqubits (dim_y t) (dim_x t) (shore t)) nodes edges ->
  (forall i l, shuf i l ≡ₚ l) -> (1 <= bound)%N -> 1 <= dim_y t -> 1 <= dim_x t ->
  exists c, topo_init t nodes edges = Ok c /\ forall bad, bad ≡ₚ tc_bad c -> exists n, forall fuel, n <= fuel ->
  exists masks embs, mask_run fuel c bound shuf coin 0 (mkTS 0 bad ([], [])) = Ok masks /\
    best_bicliques t (chimera_line t) chimera_biclique_length masks = Ok embs /\
    (forall s0 s1 emb, embs !! (s0, s1) = Some emb -> 1 <= s0 /\ 1 <= s1 /\ biclique_embedding nodes edges s0 s1 emb) /\
    (forall nm em R y0 y1 x0 x1 s0 s1, (nm, em) ∈ masks ->
       (forall a b, missing_coupler (dim_y t) (dim_x t) (shore t) nodes edges a b -> a ∈ R \/ b ∈ R) ->
       shows (dim_y t) (dim_x t) (shore t) nm em (without R nodes) (edges_without R edges) ->
       y0 <= y1 < dim_y t -> x0 <= x1 < dim_x t ->
       rectangle_offers (dim_x t) (shore t) (without R nodes) (edges_without R edges) y0 y1 x0 x1 s0 s1 ->
       1 <= s0 -> 1 <= s1 -> exists emb, embs !! (s0, s1) = Some emb).
Proof. exact bicliques_valid. Qed.
Print Assumptions C41_bicliques_valid.
(** the graph of C39: 2 x 2, shore 2, one qubit and one coupler missing, so two masks *)
Example C41_case : (let! c := topo_init ex_topo ex_nodes ex_edges in
  let! masks := mask_run 5 c 10 (fun _ l => l) (fun _ _ => true) 0 (mkTS 0 (tc_bad c) ([], [])) in
  let! embs := best_bicliques ex_topo (chimera_line ex_topo) chimera_biclique_length masks in
  Ok (length masks, map_to_list embs)) =
  Ok (2, [(3, 3, [[0; 8]; [1; 9]; [4; 12]; [3; 7]; [10; 14]; [11; 15]]);
          (3, 1, [[0]; [1]; [4]; [3; 7]]); (1, 2, [[1]; [2]; [3]]);
          (1, 4, [[1; 9]; [2]; [3]; [10]; [11]]); (2, 1, [[0]; [1]; [3]]); (2, 3, [[0; 8]; [1; 9]; [3]; [10]; [11]]);
          (4, 2, [[8]; [9]; [12]; [13]; [10; 14]; [11; 15]]);
          (2, 2, [[8]; [9]; [10]; [11]]);
          (2, 4, [[1; 9]; [4; 12]; [2; 6]; [3; 7]; [10; 14]; [11; 15]])]).
Proof. by vm_compute. Qed.

(** C42: after the sliding sums, the two numbers of every rectangle are the numbers of complete
    vertical and horizontal lines through it *)
Theorem C42_biclique_sizes : forall t nm em nodes edges, shore t <= 8 -> length nm = num_cells t -> length em = num_cells t ->
  Forall (fun b => (b < 256)%N) nm -> Forall (fun b => (b < 256)%N) em ->
  good_graph (nqubits (dim_y t) (dim_x t) (shore t)) nodes edges ->
  shows (dim_y t) (dim_x t) (shore t) nm em nodes edges -> 1 <= dim_y t -> 1 <= dim_x t ->
  exists lm mem, compute_line_masks t (nm, em) = Ok lm /\ biclique_cache t lm = Ok mem /\
    forall y0 y1 x0 x1, y0 <= y1 < dim_y t -> x0 <= x1 < dim_x t ->
      exists a b, bscore t mem y0 y1 x0 x1 = Ok (a, b) /\ rectangle_offers (dim_x t) (shore t) nodes edges y0 y1 x0 x1 a b.
Proof. exact biclique_sizes. Qed.
Print Assumptions C42_biclique_sizes.
Example C42_case : (let! c := topo_init ex_topo ex_nodes ex_edges in
  let! lm := compute_line_masks ex_topo (tc_nodemask c, tc_edgemask c) in
  let! mem := biclique_cache ex_topo lm in
  let! a := bscore ex_topo mem 0 1 0 1 in let! b := bscore ex_topo mem 0 0 0 1 in Ok (a, b)) = Ok ((3, 4), (3, 2)).
Proof. by vm_compute. Qed.

(** C43 does not hold: [best_bicliques] compares with a map of chain lengths that it never
    fills, so a later mask replaces a shorter embedding by a longer one of the same size.
    1 x 2 cells, shore 2: for K_{2,1} a visited mask has an embedding with chains of one qubit; the
    collected one has a chain of two. *)
Theorem C43_shortest_refuted : exists t nodes edges,
  shore t <= 8 /\ good_graph (nqubits (dim_y t) (dim_x t) (shore t)) nodes edges /\
  forall coin, exists c masks embs, topo_init t nodes edges = Ok c /\
    mask_run 5 c 64 (fun _ l => l) coin 0 (mkTS 0 (tc_bad c) ([], [])) = Ok masks /\
    best_bicliques t (chimera_line t) chimera_biclique_length masks = Ok embs /\
    exists cells zs short long, cells ∈ masks /\ bmask t (chimera_line t) chimera_biclique_length cells = Ok zs /\
      (2, 1, 1, short) ∈ zs /\ embs !! (2, 1) = Some long /\
      (forall ch, ch ∈ short -> length ch = 1) /\ (exists ch, ch ∈ long /\ length ch = 2).
Proof.
  exists (mkTopo 1 2 2), [0; 1; 2; 3; 5; 7], [(0, 3); (1, 2); (1, 3); (3, 7); (5, 7)].
  split; [vm_compute; lia|]. split.
  { split.
    - assert (H : Forall (fun q => q < 8) [0; 1; 2; 3; 5; 7]) by (apply (bool_decide_unpack _); by vm_compute).
      rewrite Forall_forall in H. exact H.
    - assert (H : Forall (fun e => e.1 ∈ [0; 1; 2; 3; 5; 7] /\ e.2 ∈ [0; 1; 2; 3; 5; 7]) [(0, 3); (1, 2); (1, 3); (3, 7); (5, 7)])
        by (apply (bool_decide_unpack _); by vm_compute).
      rewrite Forall_forall in H. intros p q Hpq. exact (H _ Hpq). }
  intros coin. eexists _, _, _. split; [vm_compute; reflexivity|]. split; [vm_compute; reflexivity|]. split; [vm_compute; reflexivity|].
  eexists _, _, [[0]; [1]; [3]], [[1]; [5]; [3; 7]]. split; [left|]. split; [vm_compute; reflexivity|].
  split; [right; left|]. split; [by vm_compute|]. split.
  - assert (H : Forall (fun ch : list nat => length ch = 1) [[0]; [1]; [3]]) by (repeat constructor).
    rewrite Forall_forall in H. exact H.
  - exists [3; 7]. split; [|done]. right. right. left.
Qed.
Print Assumptions C43_shortest_refuted.

(** C43, what holds: the collected embedding is the shortest that any rectangle of the last mask
    offering its size allows.  Missing for the full property: the earlier masks. *)
Theorem C43_shortest_partial : forall t nodes edges bound shuf coin,
  shore t <= 8 -> good_graph (nqubits (dim_y t) (dim_x t) (shore t)) nodes edges ->
  (forall i l, shuf i l ≡ₚ l) -> (1 <= bound)%N -> 1 <= dim_y t -> 1 <= dim_x t ->
  exists c, topo_init t nodes edges = Ok c /\ forall bad, bad ≡ₚ tc_bad c -> exists n, forall fuel, n <= fuel ->
  exists masks embs, mask_run fuel c bound shuf coin 0 (mkTS 0 bad ([], [])) = Ok masks /\
    best_bicliques t (chimera_line t) chimera_biclique_length masks = Ok embs /\
    forall s0 s1 emb, embs !! (s0, s1) = Some emb -> exists pre nm em post len, masks = pre ++ (nm, em) :: post /\
      (forall ch, ch ∈ emb -> length ch <= len) /\ (exists ch, ch ∈ emb /\ length ch = len) /\
      (forall R y0 y1 x0 x1,
         (forall a b, missing_coupler (dim_y t) (dim_x t) (shore t) nodes edges a b -> a ∈ R \/ b ∈ R) ->
         shows (dim_y t) (dim_x t) (shore t) nm em (without R nodes) (edges_without R edges) ->
         y0 <= y1 < dim_y t -> x0 <= x1 < dim_x t ->
         rectangle_offers (dim_x t) (shore t) (without R nodes) (edges_without R edges) y0 y1 x0 x1 s0 s1 ->
         len <= (y1 - y0 + 1) `max` (x1 - x0 + 1)) /\
      (forall nm' em' R y0 y1 x0 x1, (nm', em') ∈ post ->
         (forall a b, missing_coupler (dim_y t) (dim_x t) (shore t) nodes edges a b -> a ∈ R \/ b ∈ R) ->
         shows (dim_y t) (dim_x t) (shore t) nm' em' (without R nodes) (edges_without R edges) ->
         y0 <= y1 < dim_y t -> x0 <= x1 < dim_x t ->
         ~ rectangle_offers (dim_x t) (shore t) (without R nodes) (edges_without R edges) y0 y1 x0 x1 s0 s1).
Proof. exact bicliques_shortest_last. Qed.
Print Assumptions C43_shortest_partial.
