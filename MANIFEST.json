{"claims": [
{"property": "C01", "status": "proved", "theorems": ["C01_success_is_a_minor_embedding"], "note": "all graphs, parameters, random and stop sequences; conditions on the input in SpecTop.good_input"},
{"property": "C02", "status": "proved", "theorems": ["C02_fixed_chains_honoured"], "note": "fixed chains nonempty, disjoint, without repeats"},
{"property": "C03", "status": "proved", "theorems": ["C03_no_undefined_behaviour"], "note": "whole run of find_embedding without restrict_chains"},
{"property": "C04", "status": "proved", "theorems": ["C04_overlapping_results_linked"], "note": "a run stopped during initialization hands back empty chains"},
{"property": "C05", "status": "proved", "theorems": ["C05_candidate_taken_iff_better", "C05_best_never_worse"], "note": ""},
{"property": "C06", "status": "proved", "theorems": ["C06_valid_start_kept_or_improved", "C06_bad_init_only_for_bad_start", "C06_bad_start_refused"], "note": "a non-interactive interrupt still raises"},
{"property": "C07", "status": "proved", "theorems": ["C07_usage_counts_exact"], "note": "for every history of embedding operations"},
{"property": "C08", "status": "proved", "theorems": ["C08_reference_counts_consistent"], "note": "for every history of embedding operations"},
{"property": "C09", "status": "proved", "theorems": ["C09_freeze_thaw_round_trip"], "note": ""},
{"property": "C10", "status": "proved", "theorems": ["C10_steal_moves_qubits_safely"], "note": ""},
{"property": "C11", "status": "proved", "theorems": ["C11_queue_behaves", "C11_drain_is_sorted", "C11_capacity_is_sharp"], "note": ""},
{"property": "C12", "status": "proved", "theorems": ["C12_search_is_exact", "C12_search_succeeds"], "note": "with restrict_chains, each search is exact within its own area; the only possible failure is a 64-bit overflow, see C29"},
{"property": "C13", "status": "proved", "theorems": ["C13_root_is_optimal"], "note": "restricted chains included"},
{"property": "C14", "status": "proved", "theorems": ["C14_orders_are_permutations"], "note": ""},
{"property": "C15", "status": "proved", "theorems": ["C15_neighbour_lists_exact", "C15_neighbour_lists_symmetric"], "note": ""},
{"property": "C16", "status": "proved", "theorems": ["C16_components_are_connected_components"], "note": ""},
{"property": "C17", "status": "proved", "theorems": ["C17_into_then_from", "C17_from_then_into", "C17_variables_relabelled_bijectively"], "note": ""},
{"property": "C18", "status": "partial", "theorems": ["C18_corrupt_iff_invalid_partial", "C18_corrupt_iff_outside_partial", "C18_fixed_chain_out_of_range_refuted"], "note": "proved when fixed chains are in range of the graphs; false otherwise: they are used as indices before validation"},
{"property": "C19", "status": "proved", "theorems": ["C19_one_thread_per_neighbour"], "note": ""},
{"property": "C20", "status": "proved", "theorems": ["C20_chunks_partition"], "note": ""},
{"property": "C21", "status": "proved", "theorems": ["C21_every_schedule_equals_serial", "C21_every_schedule_agrees", "C21_result_is_unique", "C21_threaded_equals_serial", "C21_both_succeed"], "note": "interleavings of single accesses to shared words; the sections between barriers"},
{"property": "C22", "status": "proved", "theorems": ["C22_statistics_exact"], "note": "fixed (reserved) qubits are not examined by the code; see C26"},
{"property": "C23", "status": "partial", "theorems": ["C23_quickpass_keeps_disjoint_partial", "C23_refuted"], "note": "holds without fixed chains; refuted with a fixed chain, where a chain can be extended over another one"},
{"property": "C24", "status": "partial", "theorems": ["C24_in_order_partial", "C24_fixed_skipped_partial", "C24_one_variable_partial", "C24_refuted"], "note": "holds when the fixed variables have the largest labels; refuted otherwise: the listed indices are not translated to the internal numbering, so other variables are processed and even fixed chains are moved"},
{"property": "C25", "status": "partial", "theorems": ["C25_neighbourhood_partial", "C25_common_set_partial", "C25_refuted"], "note": "holds if all variables are restricted to the same nodes, where the initial chains also lie; if no two adjacent variables are restricted, a chain stays on nodes its variable or a neighbour may use; refuted in general: the search masks with the intersection of two variables' masks in the wrong places, and a successful run can place a restricted variable outside its allowed set"},
{"property": "C26", "status": "partial", "theorems": ["C26_success_avoids_fixed_partial", "C26_refuted"], "note": "holds when the initial chains avoid the fixed ones; refuted otherwise"},
{"property": "C27", "status": "partial", "theorems": ["C27_permutation_entries_partial", "C27_refuted"], "note": "holds for disjoint nonempty fixed chains; refuted for fixed chains that overlap, which pass the checks and lead to an out-of-range access"},
{"property": "C28", "status": "partial", "theorems": ["C28_local_search_from_start_partial", "C28_local_search_strategy_partial", "C28_local_search_after_success_partial", "C28_refuted"], "note": "holds when the search starts from complete chains; refuted for a partial start"},
{"property": "C29", "status": "partial", "theorems": ["C29_no_overflow_partial", "C29_refuted"], "note": "proved for at most 64 free variables; false without that bound"},
{"property": "C30", "status": "proved", "theorems": ["C30_draw_bijective", "C30_never_zero", "C30_discard", "C30_seed_determines", "C30_seed_injective", "C30_range"], "note": "xorshift128+ generator; the statistical quality is not a claim"},
{"property": "C31", "status": "partial", "theorems": ["C31_suspend_partial", "C31_fixed_refuted"], "note": "holds for every suspended variable without a fixed chain; refuted for a suspended variable that also has a fixed chain; without restrict_chains"},
{"property": "C32", "status": "proved", "theorems": ["C32_chainlength_loop_terminates", "C32_bound_irrelevant"], "note": ""},
{"property": "C33", "status": "proved", "theorems": ["C33_chimera_coordinates", "C33_chimera_index", "C33_linemajor_coordinates", "C33_linemajor_index", "C33_cell_bytes", "C33_grid_words", "C33_segment_bytes"], "note": ""},
{"property": "C34", "status": "proved", "theorems": ["C34_line_masks_exact"], "note": "couplers join present qubits"},
{"property": "C35", "status": "proved", "theorems": ["C35_cliques_valid", "C35_find_clique"], "note": "Chimera; find_clique for sizes above one cell (smaller sizes: C38)"},
{"property": "C36", "status": "proved", "theorems": ["C36_width_optimal", "C36_best_cliques"], "note": "Chimera"},
{"property": "C37", "status": "proved", "theorems": ["C37_clique_tables_safe"], "note": "any masks, any length check"},
{"property": "C38", "status": "partial", "theorems": ["C38_one_cell_clique_refuted", "C38_one_cell_clique_partial"], "note": "false: the loop in cell_cache::inflate never updates its masks inside the loop, so it does not end when both shores have a qubit"},
{"property": "C39", "status": "proved", "theorems": ["C39_masked_topologies"], "note": "Chimera; shuffles and coins arbitrary"},
{"property": "C40", "status": "proved", "theorems": ["C40_small_cliques", "C40_short_clique"], "note": ""},
{"property": "C41", "status": "proved", "theorems": ["C41_bicliques_valid"], "note": "Chimera"},
{"property": "C42", "status": "proved", "theorems": ["C42_biclique_sizes"], "note": ""},
{"property": "C43", "status": "partial", "theorems": ["C43_shortest_partial", "C43_shortest_refuted"], "note": "refuted for the code as it is: the map of chain lengths is never filled, so the last mask wins; the partial theorem says what is minimal"},
{"property": "C44", "status": "partial", "theorems": ["C44_size_exact", "C44_safe", "C44_identifier_partial", "C44_pegasus_partial", "C44_pegasus_refuted", "C44_chimera_graph"], "note": "sizes and safety for all families; identifiers are injective for Chimera and Zephyr; refuted for Pegasus, whose identifiers omit the seed (everything else is determined); for Chimera the graph itself is determined"},
{"property": "C45", "status": "proved", "theorems": ["C45_size_index", "C45_requests"], "note": "Chimera for the composition with the search"},
{"property": "C46", "status": "partial", "theorems": ["C46_lookup_partial", "C46_lookup_refuted"], "note": "answers are always right; refuted: requests with unequal sides are found only if both sides of a cached biclique reach the larger one, and an empty cache raises"},
{"property": "C47", "status": "proved", "theorems": ["C47_labels", "C47_success", "C47_success_free", "C47_safe"], "note": "the results are stated without restrict_chains (see C25)"},
{"property": "C48", "status": "partial", "theorems": ["C48_complete_partial", "C48_prefix_fails", "C48_torn_refuted", "C48_transient_refuted"], "note": "holds when no process dies in the middle of a dump; refuted in general: files are renamed after the locks are released, so a crash can leave a torn cache file for good"},
{"property": "C49", "status": "proved", "theorems": ["C49_refused_only_without_room"], "note": ""},
{"property": "C50", "status": "proved", "theorems": ["C50_history"], "note": ""},
{"property": "C51", "status": "proved", "theorems": ["C51_merge_best", "C51_insert_best"], "note": ""},
{"property": "C52", "status": "partial", "theorems": ["C52_by_chainlength_partial", "C52_by_chainlength_refuted"], "note": "refuted: a smaller clique or none may be returned for a larger length, and sparse caches raise KeyError"},
{"property": "C53", "status": "partial", "theorems": ["C53_sparse_roundtrip", "C53_dense_refuted"], "note": "holds for the sparse export; refuted for the dense export, which always loses the largest clique"},
{"property": "C54", "status": "proved", "theorems": ["C54_largest_balanced"], "note": ""},
{"property": "C55", "status": "partial", "theorems": ["C55_sequential_partial", "C55_overlap_refuted", "C55_crash_refuted"], "note": "holds for calls one after the other without crashes; refuted for overlapping calls (the second os.replace finds no file) and after a crash between eviction and the LRU update (all further calls for new graphs raise)"},
{"property": "C56", "status": "partial", "theorems": ["C56_shape_partial", "C56_empty_refuted"], "note": "refuted for an empty source graph, where a bare dict is returned"},
{"property": "C57", "status": "partial", "theorems": ["C57_history_partial", "C57_refuted"], "note": "the answer of a find_embedding that is stopped during initialization is what the object held before, which need not be an embedding; calls without local_search (see C28), fixed variables last for explicit orders (see C24)"},
{"property": "C58", "status": "partial", "theorems": ["C58_fair_restrictions_partial", "C58_success_refuted", "C58_termination_refuted", "C58_trim_bound_irrelevant", "C58_link_bound_irrelevant"], "note": "holds if no two adjacent variables are restricted, or all are restricted to the same nodes; refuted otherwise: a mark meaning outside the searched area is taken for visited, so chains are joined along stale paths and success is reported for chains that do not touch, or the loop that joins them never ends"},
{"property": "C59", "status": "proved", "theorems": ["C59_valid", "C59_sound", "C59_complete", "C59_verify", "C59_found"], "note": "all graphs and dicts; a dict that is an embedding in the sense of C47 passes"},
{"property": "C60", "status": "partial", "theorems": ["C60_infeasible_partial", "C60_total", "C60_one_to_one", "C60_refuted"], "note": "holds for source graphs without self-loops; refuted with self-loops, which are counted although an embedding need not represent them"},
{"property": "C61", "status": "partial", "theorems": ["C61_lower_bound_partial", "C61_none_partial", "C61_terminates_partial", "C61_termination_refuted", "C61_none_refuted", "C61_tile_refuted"], "note": "a number that is returned is a lower bound, None is right for subgraph embeddings, and the loop ends if some lattice is large enough; refuted otherwise: the loop never ends for a star with seven leaves and Chimera, None is returned for K4 as a minor of Chimera, and a contradicting tile parameter does not raise; without self-loops"},
{"property": "C62", "status": "partial", "theorems": ["C62_multiple", "C62_sublattice_partial", "C62_overlap_refuted", "C62_zero_refuted"], "note": "holds for find_multiple_embeddings; for find_sublattice_embeddings it holds for 1:1 embeddings, a single embedding or displaced tile embeddings; refuted for chains otherwise (one_to_iterable is not passed on and embeddings overlap), and for max_num_emb=0 with a tile embedding"},
{"property": "C63", "status": "partial", "theorems": ["C63_nothing_left", "C63_some_found", "C63_maximum_refuted", "C63_filter_refuted"], "note": "the search of find_multiple_embeddings stops only when nothing fits beside (no self-loops, see C60); the number is not the maximum, and find_sublattice_embeddings with chains applies the 1:1 filter"},
{"property": "C64", "status": "partial", "theorems": ["C64_roundtrip_partial", "C64_square_refuted"], "note": "holds unless there are as many embeddings as nodes; refuted then: they are taken for one embedding"},
{"property": "C65", "status": "proved", "theorems": ["C65_zephyr_cliques", "C65_pegasus_cliques"], "note": "Zephyr tile parameter at most 4 and Pegasus offsets at most 6, so that a mask has 8 bits as the code's uint8_t masks need; the last part holds when crossing wires that are present are coupled"},
{"property": "C66", "status": "partial", "theorems": ["C66_zephyr_find_partial", "C66_pegasus_find_partial", "C66_two_chains_refuted"], "note": "proved for more than 2t chains on Zephyr and at least 3 on Pegasus; one or two chains on Pegasus: refuted, the search starts at width 1 for which the cache throws; on Zephyr up to 2t chains are searched by another function that need not end (C38)"},
{"property": "C67", "status": "proved", "theorems": ["C67_zephyr_bicliques", "C67_pegasus_bicliques"], "note": "Zephyr tile parameter at most 4 and Pegasus offsets at most 6, as in C65; that the embeddings are shortest does not hold (C43)"},
{"property": "C68", "status": "proved", "theorems": ["C68_grid", "C68_refused"], "note": "the Chimera lattice without missing qubits, as the function assumes"},
{"property": "C69", "status": "proved", "theorems": ["C69_clique", "C69_chimera_clique", "C69_biclique"], "note": "tables: end to end for cliques on Chimera; for any table of valid embeddings otherwise, which C41, C65 and C67 show the tables to be"},
{"property": "C70", "status": "partial", "theorems": ["C70_specs", "C70_scale", "C70_center", "C70_dim", "C70_new", "C70_placement", "C70_scale_refuted"], "note": "rational numbers instead of floats; C70_scale_refuted: a layout whose points coincide cannot be scaled, and a target of scale 0 does not bound the source"},
{"property": "C71", "status": "partial", "theorems": ["C71_closest", "C71_overlap", "C71_refuted"], "note": "rational numbers instead of floats, scipy's KDTree by its specification; that sets have at least lo nodes is false (C71_refuted)"},
{"property": "C72", "status": "proved", "theorems": ["C72_chimera", "C72_pegasus", "C72_zephyr", "C72_points", "C72_refuted"], "note": "rational numbers instead of floats; C72_refuted: on Zephyr a source node can get no qubit, and a lattice with one grid point raises an exception"},
{"property": "C73", "status": "proved", "theorems": ["C73_placement", "C73_closest", "C73_fixed_refuted"], "note": "C73_fixed_refuted: with a fixed chain for a variable that is also placed, undefined behaviour"},
{"property": "C74", "status": "proved", "theorems": ["C74_native_clique", "C74_largest_clique", "C74_tightest_clique", "C74_largest_clique_refuted"], "note": "C74_largest_clique_refuted: with a larger max_chain_length a score is compared with None, an exception"},
{"property": "C75", "status": "proved", "theorems": ["C75_largest_biclique", "C75_tightest_biclique", "C75_largest_biclique_refuted"], "note": "C75_largest_biclique_refuted: with max_chain_length 0 there is no largest size, an exception"},
{"property": "C76", "status": "partial", "theorems": ["C76_native_most_partial", "C76_largest_most_partial", "C76_tightest_shortest_partial", "C76_biclique_most_partial", "C76_biclique_tightest_partial", "C76_native_most_refuted"], "note": "for graphs in which no coupler between neighbouring qubits of a line is missing; without this the lines that begin after a missing coupler are not counted and the claim is false (C76_native_most_refuted). The shortest chains of tightestNativeBiClique only if no coupler inside a cell is missing"},
{"property": "C77", "status": "proved", "theorems": ["C77_chimera_picture", "C77_zephyr_picture", "C77_pegasus_picture"], "note": ""},
{"property": "C78", "status": "partial", "theorems": ["C78_zephyr_chains_partial", "C78_pegasus_chains_partial", "C78_zephyr_cliques_partial", "C78_pegasus_cliques_partial", "C78_zephyr_bicliques", "C78_pegasus_bicliques", "C78_odd_coupler_refuted"], "note": "true of all bicliques and of all cliques whose chains are not single qubits; false of chains or pairs of chains that rely on an odd coupler, which has no trace in the picture (C78_odd_coupler_refuted)"},
{"property": "C79", "status": "partial", "theorems": ["C79_layout_fills_the_box_partial", "C79_flat_refuted", "C79_bad_arguments"], "note": "true of all layouts that are not flat; false of graphs whose nodes share their first or their second coordinate, one qubit for example, whose positions become NaN (C79_flat_refuted). The layouts of dwave.graphs are arbitrary here."},
{"property": "C80", "status": "partial", "theorems": ["C80_components_apart_partial", "C80_scaled_partial", "C80_flat_refuted", "C80_one_node_refuted", "C80_same_position_refuted"], "note": "proved of components whose turned layouts are not flat, without a scale, and with a scale unless all nodes have the same position. A flat component of three or more nodes is an exception (C80_flat_refuted); one node with a scale gets NaN (C80_one_node_refuted). Rectangles may touch, so two nodes of different components may get the same position (C80_same_position_refuted). The rotation and rpack are assumed to be rigid and to pack without overlap."},
{"property": "C81", "status": "partial", "theorems": ["C81_objective_partial", "C81_gradient_is_half_the_derivative_partial", "C81_gradient_refuted", "C81_inf_objective_partial", "C81_inf_gradient_is_half_the_derivative_partial", "C81_inf_dimension_refuted"], "note": "for p = 1 and p = infinity over rational numbers, other p are not modelled; with p = infinity every dimension but 2 is an error (C81_inf_dimension_refuted). The claim about the gradient is false: each pair of nodes is counted twice in the objective and once in the gradient, so the gradient is half of the derivative wherever the coordinates of the moved node differ from those of all others (C81_gradient_refuted)."},
{"property": "C82", "status": "partial", "theorems": ["C82_distances_partial", "C82_given_refuted"], "note": "proved of the computed distances, for the lengths that networkx computes; false of distances given by the caller, which are ignored (C82_given_refuted)."},
{"property": "C83", "status": "proved", "theorems": ["C83_overlapping", "C83_bounding_box", "C83_density", "C83_negative_position_refuted"], "note": "for positive integer sides without overflow of the C type long; the density over rational numbers. A packing is one without overlaps and without negative positions; with a negative position the density can be above 1 (C83_negative_position_refuted)."},
{"property": "C84", "status": "partial", "theorems": ["C84_packed_rectangles_are_apart_partial", "C84_pack_partial", "C84_check_of_pack", "C84_impossible"], "note": "for all results of qsort and all amounts by which the search raises the box. Not proved: that the rectangles find places again in the box chosen by the search, so an exception is not excluded. The jump matrix is indexed by positions instead of cells; no overflow."}
]}
