(** Property theorems about the Chimera clique search: C35, C36, C37, C40. *)
From stdpp Require Import base list numbers gmap.
From Verif Require Import Base BusModel CliqueModel SmallModel SpecBus SmallProofs CliqueTop P_bus.

(** C35: the embeddings collected by [best_cliques], for any missing qubits and couplers and
    whatever the random generator does, are clique embeddings in the given graph; those at place [i]
    have chains of length [i] *)
Theorem C35_cliques_valid : forall t nodes edges bound shuf coin,
  shore t <= 8 -> good_graph (nqubits (dim_y t) (dim_x t) (shore t)) nodes edges -> (forall p q, (p, q) ∈ edges -> p <> q) ->
  (forall i l, shuf i l ≡ₚ l) -> (1 <= bound)%N -> 1 <= dim_y t -> 1 <= dim_x t ->
  exists c, topo_init t nodes edges = Ok c /\ forall bad, bad ≡ₚ tc_bad c -> exists n, forall fuel, n <= fuel ->
  exists masks embs, mask_run fuel c bound shuf coin 0 (mkTS 0 bad ([], [])) = Ok masks /\
    best_cliques t masks (short_clique 2 nodes edges []) = Ok embs /\
    length embs = 2 + dim_y t `min` dim_x t /\
    forall i emb, embs !! i = Some emb -> clique_embedding nodes edges emb /\ forall ch, ch ∈ emb -> length ch = i.
Proof. exact cliques_valid. Qed.
Print Assumptions C35_cliques_valid.

(** C35: [find_clique] for more chains than one cell has room for: it ends, the embedding is valid
    and big enough, its chains are the shortest that any peeling of any mask allows; when it
    reports failure no peeling of any mask is big enough *)
Theorem C35_find_clique : forall t nodes edges bound shuf coin,
  shore t <= 8 -> good_graph (nqubits (dim_y t) (dim_x t) (shore t)) nodes edges ->
  (forall i l, shuf i l ≡ₚ l) -> (1 <= bound)%N -> forall size fuel0, 1 <= dim_y t -> 1 <= dim_x t -> 1 <= shore t -> shore t < size ->
  exists c, topo_init t nodes edges = Ok c /\ forall bad, bad ≡ₚ tc_bad c -> exists n, forall fuel, n <= fuel ->
  exists masks b emb, mask_run fuel c bound shuf coin 0 (mkTS 0 bad ([], [])) = Ok masks /\ find_clique fuel0 t masks size [] = Ok (b, emb) /\
    if b : bool then exists w, clique_embedding nodes edges emb /\ size <= length emb /\ (forall ch, ch ∈ emb -> length ch = S w) /\
        forall nm em R L n w', (nm, em) ∈ masks ->
         (forall a b, missing_coupler (dim_y t) (dim_x t) (shore t) nodes edges a b -> a ∈ R \/ b ∈ R) ->
         shows (dim_y t) (dim_x t) (shore t) nm em (without R nodes) (edges_without R edges) ->
         peeling (dim_y t) (dim_x t) w' L ->
         capacity (dim_x t) (shore t) (without R nodes) (edges_without R edges) L n -> size <= n -> w <= w'
    else emb = [] /\ forall nm em R L n w', (nm, em) ∈ masks ->
         (forall a b, missing_coupler (dim_y t) (dim_x t) (shore t) nodes edges a b -> a ∈ R \/ b ∈ R) ->
         shows (dim_y t) (dim_x t) (shore t) nm em (without R nodes) (edges_without R edges) ->
         w' <= dim_y t `min` dim_x t ->
         peeling (dim_y t) (dim_x t) w' L ->
         capacity (dim_x t) (shore t) (without R nodes) (edges_without R edges) L n -> n < size.
Proof. exact find_clique_top. Qed.
Print Assumptions C35_find_clique.
(** the graph of C39: 2 x 2, shore 2, one qubit and one coupler missing, so two masks *)
Definition ex_run : res (nat * list (list (list nat)) * (bool * list (list nat))) :=
  let! c := topo_init ex_topo ex_nodes ex_edges in
  let! masks := mask_run 5 c 10 (fun _ l => l) (fun _ _ => true) 0 (mkTS 0 (tc_bad c) ([], [])) in
  let! embs := best_cliques ex_topo masks (short_clique 2 ex_nodes ex_edges []) in
  let! r := find_clique 0 ex_topo masks 3 [] in Ok (length masks, embs, r).
Example C35_case : (forall p q, (p, q) ∈ ex_edges -> p <> q) /\
  ex_run = Ok (2, [[]; [[0]; [3]]; [[8; 10]; [9; 11]]; [[0; 8; 3]; [12; 10; 14]; [13; 11; 15]]],
               (true, [[0; 8; 3]; [12; 10; 14]; [13; 11; 15]])).
Proof.
  split; [|by vm_compute].
  assert (H : Forall (fun e => e.1 <> e.2) ex_edges) by (apply (bool_decide_unpack _); by vm_compute).
  rewrite Forall_forall in H. intros p q Hpq. exact (H _ Hpq).
Qed.

(** C36: for one width and a graph without missing couplers inside its cells, the number of chains
    extracted is the largest capacity of a peeling *)
Theorem C36_width_optimal : forall t nm em nodes edges width,
  shore t <= 8 -> length nm = num_cells t -> length em = num_cells t ->
  Forall (fun b => (b < 256)%N) nm -> Forall (fun b => (b < 256)%N) em ->
  good_graph (nqubits (dim_y t) (dim_x t) (shore t)) nodes edges ->
  shows (dim_y t) (dim_x t) (shore t) nm em nodes edges ->
  (forall a b, ~ missing_coupler (dim_y t) (dim_x t) (shore t) nodes edges a b) ->
  2 <= width -> width <= dim_y t -> width <= dim_x t ->
  exists lm mem r, compute_line_masks t (nm, em) = Ok lm /\ clique_cache t lm nocheck width = Ok mem /\
    extract_solution t (chimera_line t) lm width mem = Ok r /\
    let emb := match r with Some emb => emb | None => [] end in
    clique_embedding nodes edges emb /\ (forall ch, ch ∈ emb -> length ch = S width) /\
    (exists L, peeling (dim_y t) (dim_x t) width L /\ capacity (dim_x t) (shore t) nodes edges L (length emb)) /\
    (forall L n, peeling (dim_y t) (dim_x t) width L -> capacity (dim_x t) (shore t) nodes edges L n -> n <= length emb).
Proof. exact one_width. Qed.
Print Assumptions C36_width_optimal.

(** C36: what [best_cliques] collects for width [w] is the best over all peelings and all visited
    masks, and is such a peeling; at place 1 there is a largest clique of single qubits *)
Theorem C36_best_cliques : forall t nodes edges bound shuf coin,
  shore t <= 8 -> good_graph (nqubits (dim_y t) (dim_x t) (shore t)) nodes edges -> (forall p q, (p, q) ∈ edges -> p <> q) ->
  (forall i l, shuf i l ≡ₚ l) -> (1 <= bound)%N -> 1 <= dim_y t -> 1 <= dim_x t ->
  exists c, topo_init t nodes edges = Ok c /\ forall bad, bad ≡ₚ tc_bad c -> exists n, forall fuel, n <= fuel ->
  exists masks embs, mask_run fuel c bound shuf coin 0 (mkTS 0 bad ([], [])) = Ok masks /\
    best_cliques t masks (short_clique 2 nodes edges []) = Ok embs /\
    (exists emb, embs !! 1 = Some emb /\ forall k, k <= 2 -> has_single_clique nodes edges k -> k <= length emb) /\
    forall w, 1 <= w <= dim_y t `min` dim_x t -> exists emb, embs !! S w = Some emb /\
      (emb = [] \/ exists nm em R L, (nm, em) ∈ masks /\
         (forall a b, missing_coupler (dim_y t) (dim_x t) (shore t) nodes edges a b -> a ∈ R \/ b ∈ R) /\
         shows (dim_y t) (dim_x t) (shore t) nm em (without R nodes) (edges_without R edges) /\
         peeling (dim_y t) (dim_x t) w L /\
         capacity (dim_x t) (shore t) (without R nodes) (edges_without R edges) L (length emb)) /\
      (forall nm em R L n, (nm, em) ∈ masks ->
         (forall a b, missing_coupler (dim_y t) (dim_x t) (shore t) nodes edges a b -> a ∈ R \/ b ∈ R) ->
         shows (dim_y t) (dim_x t) (shore t) nm em (without R nodes) (edges_without R edges) ->
         peeling (dim_y t) (dim_x t) w L ->
         capacity (dim_x t) (shore t) (without R nodes) (edges_without R edges) L n -> n <= length emb).
Proof. exact cliques_best. Qed.
Print Assumptions C36_best_cliques.
(** a peeling of width 2 of the example: column 0 with both rows, then row 1 with both columns;
    without qubit 0 the first ell has room for one chain and the second for two: the clique of three chains above *)
Example C36_case : let L := [mkEll 0 0 0 1 0 0; mkEll 1 1 1 1 0 1] in
  peeling 2 2 2 L /\ peeling 2 2 2 [mkEll 0 1 0 1 1 1; mkEll 1 0 1 1 0 1].
Proof.
  cbv zeta. split.
  - split_and!; [done| | |].
    + intros e He. rewrite !elem_of_cons, elem_of_nil in He. destruct He as [->|[->|[]]]; unfold ell_in; cbn; lia.
    + intros e [= <-]. cbn. lia.
    + intros [|[|i]] a b Ha Hb; try done. injection Ha as <-. injection Hb as <-. unfold peels. cbn. lia.
  - split_and!; [done| | |].
    + intros e He. rewrite !elem_of_cons, elem_of_nil in He. destruct He as [->|[->|[]]]; unfold ell_in; cbn; lia.
    + intros e [= <-]. cbn. lia.
    + intros [|[|i]] a b Ha Hb; try done. injection Ha as <-. injection Hb as <-. unfold peels. cbn. lia.
Qed.

(** C37: for every width from 2 to the size of the grid, any masks and any length check, the
    table computation and the extraction read and write inside their arrays *)
Theorem C37_clique_tables_safe : forall t nm em check width,
  length nm = num_cells t -> length em = num_cells t -> Forall (fun b => (b < 256)%N) nm ->
  2 <= width -> width <= dim_y t -> width <= dim_x t ->
  exists lm mem r, compute_line_masks t (nm, em) = Ok lm /\ clique_cache t lm check width = Ok mem /\
    forall line, extract_solution t line lm width mem = Ok (r line).
Proof. exact clique_cache_safe. Qed.
Print Assumptions C37_clique_tables_safe.
(** width 1 is outside the range: the table is not usable *)
Example C37_case : let t := mkTopo 3 4 4 in let m := replicate (num_cells t) 15%N in
  exists lm mem, compute_line_masks t (m, m) = Ok lm /\ clique_cache t lm nocheck 3 = Ok mem /\ length mem = 24 /\
    exists e, clique_cache t lm nocheck 1 = Err e.
Proof. cbv zeta. eexists _, _. split; [vm_compute; reflexivity|]. split; [vm_compute; reflexivity|]. split; [vm_compute; reflexivity|]. eexists. vm_compute. reflexivity. Qed.

(** C40: each finder returns a clique of single qubits of its size, and fails only when there is
    none *)
Theorem C40_small_cliques : forall nodes edges,
  Forall (fun e => e.1 <> e.2) edges -> (forall p q, (p, q) ∈ edges -> p ∈ nodes /\ q ∈ nodes) ->
  forall k r, (k, r) ∈ [(1, find_generic_1 nodes []); (2, find_generic_2 edges []); (3, find_generic_3 edges []); (4, find_generic_4 edges [])] ->
  match r with
  | Some emb => clique_embedding nodes edges emb /\ length emb = k /\ forall ch, ch ∈ emb -> length ch = 1
  | None => ~ has_single_clique nodes edges k
  end.
Proof. exact small_cliques. Qed.
Print Assumptions C40_small_cliques.
(** [short_clique]: a largest clique of single qubits with at most [n] of them *)
Theorem C40_short_clique : forall nodes edges,
  Forall (fun e => e.1 <> e.2) edges -> (forall p q, (p, q) ∈ edges -> p ∈ nodes /\ q ∈ nodes) ->
  forall n, 2 <= n <= 4 ->
  let emb := short_clique n nodes edges [] in
  clique_embedding nodes edges emb /\ (forall ch, ch ∈ emb -> length ch = 1) /\ length emb <= n /\
  forall k, k <= n -> has_single_clique nodes edges k -> k <= length emb.
Proof. exact short_clique_ok. Qed.
Print Assumptions C40_short_clique.
Example C40_case : let edges := [(5,2);(2,9);(9,5);(2,7);(7,9);(3,5);(5,7)] in
  find_generic_3 edges [] = Some [[9];[5];[2]] /\ find_generic_4 edges [] = Some [[5];[7];[9];[2]] /\
  find_generic_4 (take 6 edges) [] = None /\ find_generic_3 [(1,2);(2,3);(3,4);(4,1)] [] = None.
Proof. vm_compute. repeat split. Qed.
