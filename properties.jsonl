{"id": "C01", "title": "A reported success is a valid minor embedding", "statement": "If findEmbedding (no restrict_chains; no fixed chains) returns 1, then the chains it hands back form a minor embedding of the source graph in the target graph: every source variable has a nonempty chain, every chain is connected in the target graph, no two chains share a qubit, and for every source edge some target edge joins the two chains.", "quantifier": "all source graphs, all target graphs, all parameter values, all initial chains given without repeats, all random sequences, all timeout/cancel points, serial and parallel distance computation", "why_tests_cant": "randomised heuristic: the space of graphs, parameters, seeds and stop times is infinite, a test samples a handful", "anchors": ["include/find_embedding/find_embedding.hpp: findEmbedding, pathfinder_wrapper", "include/find_embedding/pathfinder.hpp: heuristicEmbedding, find_chain, find_short_chain", "include/find_embedding/embedding.hpp: embedding", "include/find_embedding/chain.hpp: chain"]}
{"id": "C02", "title": "Fixed chains are honoured", "statement": "With fixed_chains given (nonempty, on qubits of the main component), a successful run returns exactly the given qubit set for each fixed variable, no other variable uses any fixed qubit, and every source edge touching at least one non-fixed variable is realised by a target edge.", "quantifier": "all graphs, fixed chain maps, parameters, random sequences, stop points", "why_tests_cant": "needs every run that mixes fixed and free chains", "anchors": ["include/find_embedding/embedding.hpp: fix_chain", "include/find_embedding/embedding_problem.hpp: fixed_handler_hival", "include/find_embedding/find_embedding.hpp: parameter_processor"]}
{"id": "C03", "title": "No out-of-range access, dangling lookup or endless inner loop while placing chains", "statement": "For well-formed inputs, no step of initialization, overfill improvement, pushdown or chain-length improvement looks up a qubit missing from a chain, indexes an array out of range, overfills a distance queue, or runs an inner loop (path linking, branch trimming, stealing, Dijkstra) forever.", "quantifier": "all well-formed problems, all reachable embedding states, all random sequences", "why_tests_cant": "memory errors and hangs depend on rare combinations of chain shapes", "anchors": ["include/find_embedding/chain.hpp: retrieve, link_path, steal, trim_branch", "include/find_embedding/pathfinder.hpp: compute_distances_from_chain", "include/find_embedding/pairing_queue.hpp: emplace"]}
{"id": "C04", "title": "Overlapping results are still connected and linked", "statement": "With return_overlap, when a run gets past initialization, every chain handed back is nonempty and connected and every source edge is realised either by a target edge between the chains or by a shared qubit; only disjointness can fail, and it fails exactly when the return value is 0.", "quantifier": "all graphs, parameters, random sequences, stop points", "why_tests_cant": "needs every intermediate embedding state", "anchors": ["include/find_embedding/find_embedding.hpp: findEmbedding", "include/find_embedding/pathfinder.hpp: check_improvement"]}
{"id": "C05", "title": "Once found, an embedding never gets worse", "statement": "After a non-overlapping embedding has been found, the best embedding is only ever replaced by a non-overlapping one whose chain-length histogram is strictly smaller (fewer distinct lengths at the top, compared from the longest chain down); in particular the longest chain never grows.", "quantifier": "all sequences of candidate embeddings offered to the improvement check", "why_tests_cant": "histories of arbitrary length", "anchors": ["include/find_embedding/pathfinder.hpp: check_improvement", "include/find_embedding/embedding.hpp: statistics"]}
{"id": "C06", "title": "skip_initialization keeps or improves a valid starting embedding", "statement": "If initial_chains form a valid embedding and skip_initialization is set, the run returns 1 and its result is the starting embedding or one with a strictly better chain-length histogram; if the starting chains are not all connected and pairwise linked the run fails with BadInitializationException.", "quantifier": "all graphs, all starting embeddings, all random sequences and stop points", "why_tests_cant": "universally quantified over starts and runs", "anchors": ["include/find_embedding/pathfinder.hpp: heuristicEmbedding", "include/find_embedding/embedding.hpp: linked, linkup"]}
{"id": "C07", "title": "Qubit usage accounting is exact", "statement": "At every point of a run, the usage count of each qubit equals the number of chains containing it.", "quantifier": "all sequences of chain operations on an embedding", "why_tests_cant": "histories of operations of any length", "anchors": ["include/find_embedding/chain.hpp: qubit_weight updates", "include/find_embedding/embedding.hpp: weight"]}
{"id": "C08", "title": "Chain reference counts stay consistent", "statement": "At every point of a run the built-in chain diagnostic reports no error: each parent is in the chain and each qubit's reference count equals the number of chain qubits having it as parent plus the number of links on it.", "quantifier": "all sequences of chain operations", "why_tests_cant": "histories of operations of any length", "anchors": ["include/find_embedding/chain.hpp: run_diagnostic"]}
{"id": "C09", "title": "Freeze then thaw restores the embedding", "statement": "Freezing out a variable and thawing it back restores every chain, link, reference count and usage count exactly; freezing leaves the variable empty and unlinked.", "quantifier": "all embeddings with mutual links, all variables", "why_tests_cant": "round trip over all states", "anchors": ["include/find_embedding/chain.hpp: freeze, thaw", "include/find_embedding/embedding.hpp: freeze_out, thaw_back"]}
{"id": "C10", "title": "Stealing moves qubits without breaking either chain", "statement": "When one chain steals from a linked neighbour, both chains stay connected, the union of their qubits does not grow, the thief only gains qubits of the victim, the victim never becomes empty, the two remain linked, and the thief respects its size limit for new qubits.", "quantifier": "all pairs of linked well-formed chains, all limits, all acceptance predicates", "why_tests_cant": "all chain shapes", "anchors": ["include/find_embedding/chain.hpp: steal"]}
{"id": "C11", "title": "Distance queue returns minimal elements and loses nothing", "statement": "The pairing queue always yields a minimum element; draining it yields the inserted elements, each exactly once, in nondecreasing order of (distance, tie-breaker); and it never writes beyond its storage while at most its capacity of elements are inserted.", "quantifier": "all sequences of insertions and removals", "why_tests_cant": "histories of any length and shape", "anchors": ["include/find_embedding/pairing_queue.hpp: pairing_queue, pairing_node"]}
{"id": "C12", "title": "Dijkstra computes true shortest distances", "statement": "After a distance computation from a chain, the distance of every reached qubit is the minimum over all admissible paths from the chain of the sum of qubit costs along the path, unreachable qubits stay unvisited, and following parents walks along target edges to the chain at that cost.", "quantifier": "all target graphs, chains, nonnegative costs, weight bounds, tie-break permutations", "why_tests_cant": "shortest-path optimality is a universal statement over paths", "anchors": ["include/find_embedding/pathfinder.hpp: compute_distances_from_chain, dijkstra_initialize_chain"]}
{"id": "C13", "title": "Root choice is optimal for the summed distance", "statement": "The root chosen for a new chain is a qubit with minimum total distance among all qubits, every minimiser can be chosen, and placement fails only if every qubit is blocked or unreachable from some embedded neighbour.", "quantifier": "all distance vectors and random draws", "why_tests_cant": "all vectors", "anchors": ["include/find_embedding/util.hpp: collectMinima", "include/find_embedding/pathfinder.hpp: find_chain"]}
{"id": "C14", "title": "Variable orders visit each free variable exactly once", "statement": "Each ordering strategy (shuffle, DFS, BFS, PFS, RPFS) produces a permutation of the non-fixed variables.", "quantifier": "all source graphs, all strategies, all random sequences", "why_tests_cant": "all graphs and sequences", "anchors": ["include/find_embedding/embedding_problem.hpp: var_order, dfs_component, bfs_component, pfs_component"]}
{"id": "C15", "title": "Neighbour lists represent exactly the input edges", "statement": "Neighbour lists built from an edge list are sorted, free of repeats and self-loops, and contain y at x iff an input edge joins x and y (in either order) and the source/sink/mask rules allow it; without sources and sinks they are symmetric.", "quantifier": "all edge lists, relabellings, source/sink/mask sets", "why_tests_cant": "all edge lists", "anchors": ["include/find_embedding/graph.hpp: __get_neighbors, _to_vectorhoods"]}
{"id": "C16", "title": "Components are the connected components of the target", "statement": "Two target nodes are placed in the same component iff a path joins them; component lists partition the nodes and are ordered by nonincreasing size; within a component reserved nodes come last and labels are a bijection.", "quantifier": "all target graphs and reserved sets", "why_tests_cant": "union-find over all edge orders", "anchors": ["include/find_embedding/graph.hpp: components, __init_union, __init_find"]}
{"id": "C17", "title": "Label translation round-trips", "statement": "Translating target nodes into component labels and back is the identity, fails exactly when some node lies outside the main component or the graph, and variable relabelling for fixed variables is a bijection that puts non-fixed variables first in order.", "quantifier": "all graphs, chains and fixed sets", "why_tests_cant": "all inputs", "anchors": ["include/find_embedding/graph.hpp: into_component, from_component", "include/find_embedding/find_embedding.hpp: _filter_fixed_vars, _inverse_permutation, input_chains"]}
{"id": "C18", "title": "Chains outside the main component are rejected", "statement": "findEmbedding raises CorruptParametersException (before any search) iff some fixed, initial or restrict chain names a variable out of range or a qubit outside the largest connected component of the target.", "quantifier": "all inputs", "why_tests_cant": "all inputs", "anchors": ["include/find_embedding/find_embedding.hpp: input_chains"]}
{"id": "C19", "title": "Each neighbour is searched exactly once by the worker threads", "statement": "In parallel mode, under every interleaving of the worker threads, each embedded neighbour is handed to exactly one thread, un-embedded neighbours to none, the embedded-neighbour count is exact, and all threads finish.", "quantifier": "all neighbour lists, thread counts and interleavings", "why_tests_cant": "all schedules", "anchors": ["include/find_embedding/pathfinder.hpp: run_in_thread"]}
{"id": "C20", "title": "Parallel chunks partition the qubits", "statement": "For every thread count, the chunks used in parallel loops are disjoint, nonempty, in range and cover every qubit exactly once.", "quantifier": "all qubit counts and thread counts", "why_tests_cant": "all sizes", "anchors": ["include/find_embedding/pathfinder.hpp: exec_chunked, exec_indexed, pathfinder_parallel"]}
{"id": "C21", "title": "Threaded and serial distance totals agree", "statement": "When the variable has at least one embedded neighbour, the parallel computation produces the same total distances, distances, parents and visited marks as the serial one, for every schedule.", "quantifier": "all embeddings, variables, thread counts, schedules", "why_tests_cant": "all schedules", "anchors": ["include/find_embedding/pathfinder.hpp: prepare_root_distances"]}
{"id": "C22", "title": "Statistics report exact histograms", "statement": "The statistics function returns 1 iff no available qubit is used by two chains; then the histogram counts variables by chain length up to the maximum, otherwise it counts qubits by overuse up to the maximum.", "quantifier": "all embeddings", "why_tests_cant": "all embeddings", "anchors": ["include/find_embedding/embedding.hpp: statistics"]}
{"id": "C23", "title": "quickpass with zero overlap bound yields disjoint chains", "statement": "A quickpass with overlap_bound 0 starting from an embedding without overlaps leaves an embedding without overlaps, in which every two placed adjacent variables that were processed are linked.", "quantifier": "all graphs, orders, bounds, random sequences", "why_tests_cant": "all runs", "anchors": ["include/find_embedding/pathfinder.hpp: quickPass"]}
{"id": "C24", "title": "quickpass processes the variables the caller names", "statement": "quickPass with an explicit variable order processes exactly the listed non-fixed variables, in that order.", "quantifier": "all orders and fixed sets", "why_tests_cant": "all relabellings", "anchors": ["include/find_embedding/find_embedding.hpp: input_vars"]}
{"id": "C25", "title": "restrict_chains confines chains", "statement": "Each restricted variable's chain stays inside its allowed qubit set throughout the algorithm.", "quantifier": "all graphs, restrictions, runs", "why_tests_cant": "all runs", "anchors": ["include/find_embedding/embedding_problem.hpp: domain_handler_masked", "include/find_embedding/util.hpp: restrict_chains"]}
{"id": "C26", "title": "Initial chains never silently overlap fixed chains", "statement": "If a run reports success then no returned chain of a free variable shares a qubit with a fixed chain, even when initial_chains were given on fixed qubits.", "quantifier": "all fixed and initial chain maps", "why_tests_cant": "all inputs", "anchors": ["include/find_embedding/embedding.hpp: statistics, linkup"]}
{"id": "C27", "title": "Overlapping fixed chains are handled without memory errors", "statement": "For any fixed_chains accepted by parameter processing, the per-variable permutation table has an entry for every variable that can be used as an index.", "quantifier": "all fixed chain maps", "why_tests_cant": "all inputs", "anchors": ["include/find_embedding/pathfinder.hpp: pathfinder_base constructor, find_chain"]}
{"id": "C28", "title": "quickpass with local search is memory safe", "statement": "quickPass with local_search never looks up a link or qubit that does not exist.", "quantifier": "all initial chain sets and orders", "why_tests_cant": "all inputs", "anchors": ["include/find_embedding/pathfinder.hpp: quickPass, find_short_chain", "include/find_embedding/embedding.hpp: flip_back"]}
{"id": "C29", "title": "Distances never overflow", "statement": "With weights as tabulated (each weight times the exponent margin at most 2^63-1), every distance and every summed distance stays below the 64-bit infinity value.", "quantifier": "all graphs, embeddings, weight tables within the margin", "why_tests_cant": "arithmetic over all sizes", "anchors": ["include/find_embedding/embedding_problem.hpp: populate_weight_table, compute_margin", "include/find_embedding/pathfinder.hpp: accumulate_distance"]}
{"id": "C30", "title": "Seeded random generator is a reproducible permutation", "statement": "The generator state evolves by a bijection of 128-bit states that never reaches the all-zero state from a nonzero one, discard(n) equals n draws, and equal seeds give equal streams.", "quantifier": "all 128-bit states, all seeds, all n", "why_tests_cant": "2^128 states", "anchors": ["include/fastrng.hpp: fastrng"]}
{"id": "C31", "title": "suspend_chains blobs are always hit", "statement": "When find_embedding succeeds with suspend_chains, each suspended variable's chain is adjacent through the pinned fixed variables: it contains or touches each of its blobs as requested.", "quantifier": "all blob lists and runs", "why_tests_cant": "all runs", "anchors": ["minorminer/_minorminer.pyx: _input_parser"]}
{"id": "C32", "title": "Chain-length refinement terminates", "statement": "The chain-length improvement loop finishes for every random sequence: the number of improving passes is finite because the histogram strictly decreases.", "quantifier": "all embeddings and random sequences", "why_tests_cant": "termination for all schedules", "anchors": ["include/find_embedding/pathfinder.hpp: heuristicEmbedding"]}
{"id": "C33", "title": "Topology coordinates round-trip", "statement": "Chimera and line-major (Pegasus, Zephyr) linear indices and coordinates are mutually inverse on their ranges, and cell, grid and bundle-cache indices are injective and within the allocated arrays.", "quantifier": "all dimensions and coordinates", "why_tests_cant": "all sizes", "anchors": ["include/busclique/coordinate_types.hpp: coordinate_converter"]}
{"id": "C34", "title": "Bundle line masks are exact", "statement": "After construction, the mask of a line segment has bit k set iff every qubit of the segment with index k and every coupler between consecutive ones is present.", "quantifier": "all grid sizes and masks", "why_tests_cant": "all sizes and masks", "anchors": ["include/busclique/bundle_cache.hpp: compute_line_masks, get_line_mask"]}
{"id": "C35", "title": "Clique embeddings are valid", "statement": "Every clique embedding produced for a Chimera graph (any missing nodes and couplers) is a valid minor embedding of a complete graph: chains nonempty, connected, pairwise disjoint and pairwise adjacent using only present nodes and couplers.", "quantifier": "all dimensions, node sets, edge sets, widths, length limits", "why_tests_cant": "all yields", "anchors": ["include/busclique/clique_cache.hpp: clique_cache, extract_solution", "include/busclique/topo_cache.hpp: topo_cache", "include/busclique/bundle_cache.hpp: inflate"]}
{"id": "C36", "title": "Clique dynamic program is optimal", "statement": "For a given width, the number of chains extracted equals the maximum, over all ways to peel the square into nested ells, of the sum of ell bundle scores.", "quantifier": "all dimensions, masks, widths", "why_tests_cant": "exponentially many peelings", "anchors": ["include/busclique/clique_cache.hpp: compute_cache, extend_cache, maxcache"]}
{"id": "C37", "title": "Clique cache indexing is in range", "statement": "For every width from 2 up to the grid size all table accesses of the clique dynamic program stay inside the allocated memory.", "quantifier": "all dimensions and widths", "why_tests_cant": "all sizes", "anchors": ["include/busclique/clique_cache.hpp: memrows, memcols, memsize, get"]}
{"id": "C38", "title": "One-cell clique search terminates", "statement": "Searching for a clique that fits in one cell returns the chains of that cell.", "quantifier": "all cell masks", "why_tests_cant": "needs all masks; the faulty loop never returns", "anchors": ["include/busclique/cell_cache.hpp: inflate", "include/busclique/find_clique.hpp: find_clique_short"]}
{"id": "C39", "title": "Masked topologies avoid every missing internal coupler", "statement": "Each masked topology removes at least one end of every missing internal coupler and nothing else, and when few couplers are missing the enumeration covers every choice of ends.", "quantifier": "all bad-edge lists, mask numbers, random choices", "why_tests_cant": "all subsets", "anchors": ["include/busclique/topo_cache.hpp: next, compute_bad_edges"]}
{"id": "C40", "title": "Small clique finders are sound and complete", "statement": "The generic 1-, 2-, 3- and 4-clique finders return true iff the loop-free edge list contains such a clique, and the chains returned are one.", "quantifier": "all edge lists", "why_tests_cant": "all edge lists and orders", "anchors": ["include/busclique/small_cliques.hpp: find_generic_1, find_generic_2, find_generic_3, find_generic_4"]}
{"id": "C41", "title": "Biclique embeddings are valid", "statement": "Each biclique embedding for a Chimera graph has nonempty, connected, pairwise disjoint chains and every chain of one side is adjacent to every chain of the other.", "quantifier": "all dimensions, masks, rectangles", "why_tests_cant": "all yields", "anchors": ["include/busclique/biclique_cache.hpp: biclique_cache", "include/busclique/bundle_cache.hpp: inflate"]}
{"id": "C42", "title": "Biclique sizes are exact", "statement": "The sliding-window sums give, for every rectangle, exactly the number of full horizontal and vertical lines crossing it.", "quantifier": "all dimensions, masks, rectangles", "why_tests_cant": "all sizes", "anchors": ["include/busclique/biclique_cache.hpp: compute_cache"]}
{"id": "C43", "title": "Best biclique per size is the shortest", "statement": "For each size the collected biclique embedding has minimum chain length over all masks.", "quantifier": "all sequences of masks", "why_tests_cant": "all histories", "anchors": ["include/busclique/find_biclique.hpp: best_bicliques"]}
{"id": "C44", "title": "Cache identifiers separate topologies", "statement": "Serialization writes exactly the number of bytes it reports, and equal identifiers imply equal topology, masks and seed.", "quantifier": "all topologies and seeds", "why_tests_cant": "all values", "anchors": ["include/busclique/util.hpp: _serialize, topo_spec_base::serialize, pegasus_spec_base::serialize"]}
{"id": "C45", "title": "Clique cache by size minimises chain length", "statement": "The per-size index of cached cliques maps each size to the first (shortest) chain length at which a clique at least that large is known, for every size up to the largest known.", "quantifier": "all lists of embeddings", "why_tests_cant": "all lists", "anchors": ["minorminer/busclique.pyx: _make_clique_cache", "include/busclique/find_clique.hpp: best_cliques"]}
{"id": "C46", "title": "Biclique lookup finds any cached shape that fits", "statement": "find_biclique_embedding(n, m) returns an embedding whenever some cached biclique has sides at least n and m in some order, and what it returns is a biclique of the requested shape.", "quantifier": "all caches and requests", "why_tests_cant": "all caches", "anchors": ["minorminer/busclique.pyx: find_biclique_embedding, _make_biclique_cache"]}
{"id": "C47", "title": "Python labels map back to the caller's labels", "statement": "Relabelling assigns distinct consecutive indices to distinct labels in first-seen order, isolated nodes are kept through self-loops, and returned chains use the caller's labels.", "quantifier": "all label sequences", "why_tests_cant": "all inputs", "anchors": ["minorminer/_minorminer_h.pxi: labeldict", "minorminer/_minorminer.pyx: _read_graph"]}
{"id": "C48", "title": "Disk cache readers never see a torn file", "statement": "Under any interleaving of processes and crashes, a cache file is either absent, or holds the complete contents written by one process.", "quantifier": "all interleavings and crash points", "why_tests_cant": "all schedules and crash points", "anchors": ["minorminer/busclique.pyx: _fetch_cache, copy_on_close_context"]}
{"id": "C49", "title": "Problems are refused as too small only without room", "statement": "findEmbedding refuses a problem as too small only if every qubit of the largest target component is fixed or isolated, or if the product of the graph sizes exceeds 32 bits.", "quantifier": "all graphs and fixed chains", "why_tests_cant": "all inputs", "anchors": ["include/find_embedding/embedding_problem.hpp: compute_margin", "include/find_embedding/find_embedding.hpp: findEmbedding"]}
{"id": "C50", "title": "Clique answers stay valid over any history of a cache", "statement": "However a clique cache came about (computed, direct or ordinary insertion of valid cliques, merges with other caches), no operation fails, every request is answered by a valid clique on the requested labels or not at all, and largest_clique is at least as large as any answer.", "quantifier": "all histories of cache operations and all requests", "why_tests_cant": "all histories", "anchors": ["minorminer/busclique.pyx: insert_clique_embedding, merge_clique_cache, find_clique_embedding, largest_clique"]}
{"id": "C51", "title": "Merging keeps the better clique of every size", "statement": "After merge_clique_cache or insert_clique_embedding a size is answered exactly if it was answered before or by the new cliques; the answer has the smaller longest chain (or the greater value of the caller's quality function), and the old one is kept in a draw.", "quantifier": "all caches, embeddings, quality functions and sizes", "why_tests_cant": "all inputs and histories", "anchors": ["minorminer/busclique.pyx: merge_clique_cache, insert_clique_embedding"]}
{"id": "C52", "title": "Largest clique by chain length", "statement": "largest_clique_by_chainlength(c) returns a largest cached clique among those whose chains have length at most c.", "quantifier": "all caches and lengths", "why_tests_cant": "all histories", "anchors": ["minorminer/busclique.pyx: largest_clique_by_chainlength"]}
{"id": "C53", "title": "Exported clique caches can be imported without loss", "statement": "Importing an exported clique cache into an empty one answers every request like the original.", "quantifier": "all caches and requests", "why_tests_cant": "all histories", "anchors": ["minorminer/busclique.pyx: get_clique_cache, update_clique_cache"]}
{"id": "C54", "title": "Largest balanced biclique is valid and largest", "statement": "largest_balanced_biclique returns a biclique with equal sides, and no cached biclique has both sides larger.", "quantifier": "all Chimera graphs and random seeds", "why_tests_cant": "all inputs", "anchors": ["minorminer/busclique.pyx: largest_balanced_biclique, _make_biclique_cache"]}
{"id": "C55", "title": "The file cache keeps working and stays bounded", "statement": "No call that goes through the file cache raises because of other calls or of an earlier crash; between calls the cache directory holds at most the configured number (100) of cache files, no temporary files, and the LRU file lists exactly the cache files.", "quantifier": "all sequences, interleavings and crash points of calls by any number of processes", "why_tests_cant": "the failure needs a particular interleaving or a crash between two file operations", "anchors": ["minorminer/busclique.pyx: _fetch_cache, copy_on_close_context, __lru_size"]}
{"id": "C56", "title": "The shape of find_embedding's result depends on return_overlap only", "statement": "find_embedding returns a pair of a dict and a bool when return_overlap is set, and a dict otherwise.", "quantifier": "all graphs and parameters", "why_tests_cant": "all inputs, including degenerate ones", "anchors": ["minorminer/_minorminer.pyx: find_embedding, EmptySourceGraphError"]}
{"id": "C57", "title": "Every history of calls on one miner object is safe and its answers are right", "statement": "For every sequence of find_embedding, set_initial_chains and quickpass calls on one miner object, no call has undefined behaviour; every chain set returned by find_embedding is an embedding, possibly overlapping, whose success flag tells whether it is disjoint; every quickpass leaves fixed chains alone, leaves each processed variable connected and linked to its neighbours that have chains, keeps which other variables have chains, and keeps each qubit's number of users within the overlap bound.", "quantifier": "all graphs, parameters and finite sequences of calls", "why_tests_cant": "the object keeps its best embedding, workspaces, variable order and initial chains from call to call; the sequences are unbounded", "anchors": ["minorminer/_minorminer.pyx: miner", "include/find_embedding/find_embedding.hpp: pathfinder_wrapper", "include/find_embedding/pathfinder.hpp: quickPass, heuristicEmbedding, set_initial_chains"]}
{"id": "C58", "title": "Restricted chains do not harm correctness", "statement": "With restrict_chains confining variables to nonempty sets of target nodes, every run of find_embedding ends, has no undefined behaviour, and returns a minor embedding when it reports success.", "quantifier": "all graphs, restrictions, parameters and random draws", "why_tests_cant": "the failure needs a particular combination of restrictions, graph and random draws", "anchors": ["include/find_embedding/embedding_problem.hpp: domain_handler_masked", "include/find_embedding/embedding.hpp: construct_chain_steiner", "include/find_embedding/chain.hpp: link_path"]}
{"id": "C59", "title": "The embedding checks report exactly the defects", "statement": "is_valid_embedding returns True exactly when every source node has a nonempty chain of target nodes that is connected in the target, chains are disjoint, and every source edge between different nodes has a target edge between the chains; everything diagnose_embedding yields is a defect of the kind it names, and every defect is yielded (for a shared target node, all but one of its users); verify_embedding raises a defect that is not ignored if one is yielded.", "quantifier": "all source graphs, target graphs and dicts", "why_tests_cant": "all inputs, including dicts that are wrong in several ways at once", "anchors": ["minorminer/utils/diagnostic.py: diagnose_embedding, is_valid_embedding, verify_embedding"]}
{"id": "C60", "title": "The feasibility filter never rejects a feasible embedding", "statement": "embedding_feasibility_filter always returns, and when it returns False the source graph has no minor embedding in the target graph (with one_to_one: no embedding as a subgraph).", "quantifier": "all source and target graphs, one_to_one or not", "why_tests_cant": "all pairs of graphs; the counting argument is about degree distributions of any size", "anchors": ["minorminer/utils/feasibility.py: embedding_feasibility_filter"]}
{"id": "C61", "title": "The lattice size bound is a lower bound", "statement": "lattice_size_lower_bound returns; a number it returns is at most the size of every lattice of that topology in which the source graph can be embedded; it returns None only if no lattice of that topology is large enough; arguments that contradict the target graph raise ValueError.", "quantifier": "all source graphs, topologies, tile parameters, one_to_one or not", "why_tests_cant": "all graphs and lattice sizes", "anchors": ["minorminer/utils/feasibility.py: lattice_size_lower_bound"]}
{"id": "C62", "title": "Several embeddings at once are embeddings and disjoint", "statement": "find_multiple_embeddings and find_sublattice_embeddings return embeddings of the source graph in the target graph of which no two use a common target node, at most max_num_emb of them, for every embedder that returns only embeddings of the graphs it is given or an empty dict; the caller's target graph is not changed.", "quantifier": "all graphs, embedders, orders, timeouts, tiles, sublattice mappings and limits", "why_tests_cant": "all embedders and graphs; the number of embeddings and sublattices is unbounded", "anchors": ["minorminer/utils/parallel_embeddings.py: find_multiple_embeddings, find_sublattice_embeddings"]}
{"id": "C63", "title": "The search for several embeddings stops early only when nothing is left", "statement": "With an embedder that finds an embedding whenever there is one, and without timeout, find_multiple_embeddings and find_sublattice_embeddings return fewer embeddings than allowed only if no further embedding fits beside them; with max_num_emb=None the number of embeddings found is the maximum possible.", "quantifier": "all graphs and such embedders", "why_tests_cant": "all graphs; the filter must not reject what the embedder would find", "anchors": ["minorminer/utils/parallel_embeddings.py: find_multiple_embeddings, find_sublattice_embeddings", "minorminer/utils/feasibility.py: embedding_feasibility_filter"]}
{"id": "C64", "title": "Embedding arrays convert back", "statement": "array_to_embeddings applied to the result of embeddings_to_array with the same node order gives back the embeddings, restricted to these nodes.", "quantifier": "all lists of embeddings and node orders", "why_tests_cant": "all sizes, including equal numbers of embeddings and nodes", "anchors": ["minorminer/utils/parallel_embeddings.py: embeddings_to_array, array_to_embeddings"]}
{"id": "C65", "title": "Clique tables on Pegasus and Zephyr hold valid embeddings", "statement": "On every Pegasus and Zephyr lattice with any qubits and couplers missing, the clique table built for find_clique_embedding and largest_clique has no undefined behaviour; entry n, if it offers c chains, describes c disjoint connected chains of at most n present qubits, any two joined by a present coupler; and when every two crossing wires that are present are coupled, no square triangle of wires that the search considers offers more chains than its entry.", "quantifier": "all Pegasus and Zephyr lattices (Zephyr tile at most 4), all sets of present nodes and edges", "why_tests_cant": "all lattice sizes, all defect patterns", "anchors": ["include/busclique/util.hpp: pegasus_spec_base, zephyr_spec_base", "include/busclique/bundle_cache.hpp: bundle_cache", "include/busclique/clique_cache.hpp: clique_cache, clique_yield_cache"]}
{"id": "C66", "title": "The clique search on Pegasus and Zephyr", "statement": "find_clique on a Pegasus or Zephyr graph either reports that there is none or returns the requested number of disjoint connected chains of present qubits, any two joined by a present coupler; it always returns.", "quantifier": "all Pegasus and Zephyr lattices, defect patterns and sizes", "why_tests_cant": "all lattice sizes, defect patterns and requested sizes", "anchors": ["include/busclique/find_clique.hpp: find_clique, find_clique_nice, find_clique_nice<pegasus_spec>"]}
{"id": "C67", "title": "Bicliques on Pegasus and Zephyr are valid and not missed", "statement": "On every Pegasus and Zephyr lattice with any qubits and couplers missing, the biclique search has no undefined behaviour; every entry (s0, s1) it collects is an embedding of the complete bipartite graph with sides s0 and s1 into present qubits and couplers; and when every two crossing wires that are present are coupled, every pair of sizes that a rectangle of positions offers has an entry.", "quantifier": "all Pegasus and Zephyr lattices (Zephyr tile at most 4), all sets of present nodes and edges, all random draws", "why_tests_cant": "all lattice sizes, all defect patterns", "anchors": ["include/busclique/find_biclique.hpp: best_bicliques", "include/busclique/biclique_cache.hpp: biclique_cache, biclique_yield_cache", "include/busclique/util.hpp: biclique_length, construct_line"]}
{"id": "C68", "title": "Grids are embedded in Chimera lattices exactly when they fit", "statement": "utils.chimera.find_grid_embedding returns, for a grid of one to three dimensions no larger than the lattice (rows, columns, tile), a dict whose keys are the grid points, each once, and whose chains are a minor embedding of the grid in the full Chimera lattice with two qubits per chain; for any other request it raises ValueError.", "quantifier": "all grid sizes, numbers of dimensions and lattice sizes, with or without the optional ones", "why_tests_cant": "the sizes are unbounded; a wrong coordinate shows only for lattices that are not square or tiles of other sizes than the tested ones", "anchors": ["minorminer/utils/chimera.py: find_grid_embedding, _get_target_graph"]}
{"id": "C69", "title": "The clique and biclique functions of minorminer.utils answer with the caller's labels or raise", "statement": "utils.{chimera,pegasus,zephyr}.find_clique_embedding returns an embedding of the complete graph on exactly the requested labels, and raises ValueError only for a repeated label or if the tables hold no clique of that size. find_biclique_embedding returns two dicts, one for each side, that form a biclique embedding on the requested labels (two numbers mean successive labels), and raises ValueError only if a label is on both sides, nothing is requested, or the tables have no room.", "quantifier": "all requests (numbers and lists of labels, with repeats), all graphs with missing qubits and couplers, all tables of valid embeddings in any order", "why_tests_cant": "the combination of label lists, sides that are swapped inside the cache and tables of partial graphs cannot be enumerated", "anchors": ["minorminer/utils/chimera.py: find_clique_embedding, find_biclique_embedding", "minorminer/utils/pegasus.py: find_clique_embedding, find_biclique_embedding", "minorminer/utils/zephyr.py: find_clique_embedding, find_biclique_embedding", "minorminer/busclique.pyx: busgraph_cache.find_clique_embedding, busgraph_cache.find_biclique_embedding"]}
{"id": "C70", "title": "Layouts keep their shape and get the requested specs", "statement": "The dimension, centre and scale reported by a Layout are those of the box around its points (the scale is half of the longest side). Assigning a scale or a centre, or passing them to the constructor, gives a layout with exactly these specs whose points are the old ones moved without turning or distortion; a higher dimension appends zeros; a lower one is refused. A Placement copies both layouts, leaves the target where it is and rescales the source so that it is not larger than the target, by the scale ratio if one is given.", "quantifier": "all layouts with at least one point, all dimensions, scales, centres and scale ratios", "why_tests_cant": "arithmetic identities over all point sets", "anchors": ["minorminer/layout/layout.py: Layout, _dimension_layout, _center_layout, _scale_layout, _get_center", "minorminer/layout/placement.py: Placement"]}
{"id": "C71", "title": "The closest placement gives near connected sets and avoids overlap", "statement": "layout.closest assigns to each source node a connected set of at most hi target nodes (subset_size=(lo,hi)) such that fewer than num_neighbors of all connected sets with lo to hi nodes have a nearer barycentre; among the neighbours found it picks one with the least sum of the distance and the exponential penalty for target nodes used before. It raises no exception if there are at least num_neighbors such sets.", "quantifier": "all target graphs and layouts, source layouts, subset sizes, numbers of neighbours, set iteration orders and nearest neighbour searches that meet their specification", "why_tests_cant": "the number of connected subsets is exponential, and the enumeration by growing sets must miss none of them", "anchors": ["minorminer/layout/placement.py: closest, _get_connected_subgraphs, _minimize_overlap"]}
{"id": "C72", "title": "The intersection placement gives coupled qubits", "statement": "layout.intersection on a Chimera, Pegasus or Zephyr graph, with any qubits missing, moves the source layout without turning into the grid of intersection points, never looks up a point outside the grid, and gives each source node the qubits that pass through a nearest grid point; any two of them are joined by an internal coupler of the lattice, and in a whole Chimera lattice there are exactly two.", "quantifier": "all lattices of the three families with more than one grid point, all sets of present qubits, all source layouts", "why_tests_cant": "rounding at the edge of the grid for every layout and lattice size", "anchors": ["minorminer/layout/placement.py: intersection, _intersection_binner, _lookup_intersection_coordinates, _chimera_all_intersection_points, _pegasus_all_intersection_points, _zephyr_all_intersection_points"]}
{"id": "C73", "title": "Embedding with a layout gives valid embeddings", "statement": "layout.find_embedding, without fixed chains and restrictions, whatever the placement is, has no undefined behaviour, and every embedding it reports is a minor embedding of the source in the target graph; if the placement is passed as suspended chains, every chain contains a node of its placement. This includes the default placement by distance.", "quantifier": "all graphs, placements and layouts, both hint types, all parameters and random choices", "why_tests_cant": "all combinations of placement and randomized search", "anchors": ["minorminer/layout/__init__.py: find_embedding", "minorminer/layout/placement.py: Placement, closest"]}
{"id": "C74", "title": "Native cliques on Chimera graphs with faults are valid", "statement": "For a Chimera graph given by any set of couplers, nativeCliqueEmbed, largestNativeClique and tightestNativeClique of a processor return chains that are an embedding of a complete graph: each chain is a path of present couplers, chains are disjoint, and any two are joined by a present coupler. All chains have the same length: the width plus one for nativeCliqueEmbed, at most max_chain_length for largestNativeClique. tightestNativeClique returns n chains or none. No call raises an exception when max_chain_length is at most M + N.", "quantifier": "all grid sizes and shores, all sets of couplers, all processor limits of at least 1, all widths, bounds and numbers of chains, all random choices", "why_tests_cant": "all patterns of missing qubits and couplers, and all random tie breaks and deletions", "anchors": ["minorminer/utils/polynomialembedder.py: processor.nativeCliqueEmbed, processor.largestNativeClique, processor.tightestNativeClique, eden_processor"]}
{"id": "C75", "title": "Native bicliques on Chimera graphs with faults are valid", "statement": "largestNativeBiClique and tightestNativeBiClique of a processor return two lists of chains that are an embedding of a complete bipartite graph; each chain is a path of present couplers, the chains of a side have one length, and the two lengths respect max_chain_length and chain_imbalance. tightestNativeBiClique returns exactly n and m chains, or None. No call raises an exception unless max_chain_length is 0.", "quantifier": "all grid sizes and shores, all sets of couplers, all processor limits of at least 1, all bounds and sizes, all random choices and iteration orders of sets", "why_tests_cant": "all patterns of missing qubits and couplers", "anchors": ["minorminer/utils/polynomialembedder.py: processor.largestNativeBiClique, processor.tightestNativeBiClique, eden_processor.biclique, eden_processor.biclique_size"]}
{"id": "C76", "title": "Native cliques and bicliques are as large, or as tight, as the lines allow", "statement": "nativeCliqueEmbed and largestNativeClique return at least as many chains as any sequence of ells of one length has room for, whichever end of each missing coupler inside a cell is given up; tightestNativeClique finds n chains if some sequence of ells has room for them, and none of its chains is longer; largestNativeBiClique returns a pair of sides that is at least as large, in the order of the smaller and then the larger side, as any rectangle within the bounds offers; tightestNativeBiClique finds a biclique if a rectangle offers it.", "quantifier": "all grid sizes and shores, all sets of couplers, all random choices; the processor limit allows all choices of ends of missing couplers", "why_tests_cant": "the maximum over exponentially many sequences of ells and choices of deletions", "anchors": ["minorminer/utils/polynomialembedder.py: eden_processor.maxCliqueWithRectangle, eden_processor.nativeCliqueEmbed, eden_processor.largestNativeBiClique, processor._compute_deletions, processor._map_to_processors"]}
{"id": "C77", "title": "The picture of a graph shows its qubits and couplers", "statement": "busgraph_cache's drawing helpers give, for a Chimera, Zephyr or Pegasus graph with any qubits and couplers missing, the graph of fragments: every present qubit as its one, two or six fragments, every pair of fragments that touch (successive on a wire within one qubit or across a present coupler, or at one crossing of two coupled qubits) exactly once, and nothing else. The picture of a chain is the fragments of its qubits, each once.", "quantifier": "all sizes and shores, all graphs with missing qubits and couplers", "why_tests_cant": "all patterns of missing qubits and couplers", "anchors": ["include/busclique/topo_cache.hpp: topo_cache.fragment_nodes, topo_cache.fragment_edges", "include/busclique/util.hpp: fragment_nodes", "minorminer/busclique.pyx: busgraph_cache.draw_fragment_embedding, fragment_graph_spec, fragment_nodes"]}
{"id": "C78", "title": "The picture of an embedding is an embedding in the picture", "statement": "The picture of an embedding of a clique or of a biclique that the cache found is an embedding of the same clique or biclique in the picture of the graph: the pictures of chains are connected, disjoint, and any two chains that are coupled have pictures joined by an edge.", "quantifier": "all sizes and shores, all graphs with missing qubits and couplers, all bounds on the number of masks, all random choices", "why_tests_cant": "all patterns of missing qubits and couplers, all chains", "anchors": ["include/busclique/topo_cache.hpp: topo_cache.fragment_nodes, topo_cache.fragment_edges", "include/busclique/util.hpp: fragment_nodes", "minorminer/busclique.pyx: busgraph_cache.draw_fragment_embedding"]}
{"id": "C79", "title": "The layout of a qubit graph fills the square asked for", "statement": "graph_layout of a Chimera, Pegasus or Zephyr graph returns one point for each node; in the first two coordinates the points fill exactly the square of half side `scale` (half the larger of rows and columns by default) around `center` (the origin by default), the order and proportions of the nodes in each coordinate are those of the layout of dwave.graphs, and the other coordinates are those of the centre. Graphs of other families, a centre that does not match `dim`, and fewer than two dimensions are errors.", "quantifier": "all layouts made by dwave.graphs, all centres, dimensions and scales", "why_tests_cant": "all layouts, centres and scales", "anchors": ["minorminer/layout/layout.py: graph_layout, _nx_to_graph_layout, _set_dim_and_center"]}
{"id": "C80", "title": "Packed components do not overlap and keep their shape", "statement": "A layout of a graph with several components that is made by packing puts the nodes of each component into a rectangle of its own; the rectangles do not overlap, the distances between nodes of one component are those of the component's own layout, and every node gets one position. With a scale the whole is enlarged or reduced to that scale without turning.", "quantifier": "all graphs, all layout functions, all rotations, all packings of rectangles without overlap, all scales", "why_tests_cant": "all numbers and sizes of components, all layouts of them", "anchors": ["minorminer/layout/layout.py: _pack_components, _rotate_to_minimize_area, _scale_layout"]}
{"id": "C81", "title": "The objective of p_norm measures distortion", "statement": "The function that p_norm minimises is the sum over all pairs of nodes of the squared difference between their p-distance in the layout and their distance in the graph. It is not negative, it is 0 exactly for layouts without distortion, it does not change when the layout is moved, and the gradient passed to the minimiser is its derivative.", "quantifier": "all numbers of nodes and dimensions, all layouts, all matrices of distances", "why_tests_cant": "all layouts and distances, all small moves", "anchors": ["minorminer/layout/layout.py: _p_norm_objective"]}
{"id": "C82", "title": "p_norm compares with the distances of the graph", "statement": "The matrix of distances used by p_norm has one row and one column for each node; the entry for two nodes is the length of a shortest path, and the number of nodes, which is more than any distance, if there is none. Distances given by the caller are used instead of computed ones.", "quantifier": "all graphs, connected or not, all distances given", "why_tests_cant": "all graphs", "anchors": ["minorminer/layout/layout.py: _graph_distance_matrix, p_norm"]}
{"id": "C83", "title": "The checks of a packing are right", "statement": "overlapping returns None exactly if no two of the rectangles have an inner point in common, and else the first pair of indices of two that have one; bbox_size returns the sides of the smallest box at the origin in which all rectangles end; packing_density of a packing is the area of the rectangles divided by that of the box, a number above 0 and at most 1, and 1 exactly if the box is filled.", "quantifier": "all lists of rectangles, all positions", "why_tests_cant": "all numbers and sizes of rectangles, all positions", "anchors": ["minorminer/_extern/rpack/_core.pyx: bbox_size, packing_density, overlapping"]}
{"id": "C84", "title": "Packed rectangles do not overlap", "statement": "rpack.pack returns one position for each rectangle, in the order of the input; all rectangles lie in a box at the origin that respects the bounds, and no two of them overlap.", "quantifier": "all lists of rectangles with positive sides, all bounds, all choices of box, order and rotation", "why_tests_cant": "all numbers and sizes of rectangles; the check of a place looks only at its first column and first row", "anchors": ["minorminer/_extern/rpack/src/rpackcore.c: grid_find_region, grid_split, cut", "minorminer/_extern/rpack/_core.pyx: Grid.pack, pack"]}
