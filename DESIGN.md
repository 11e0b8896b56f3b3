# Formal model of minorminer in Coq: design

The properties are in `properties.jsonl`, the claims in `MANIFEST.json`, the model and proofs in
`rocq/theories`, the wrong programs that were tried in `seeded/LOG.jsonl`. This file was written
before the proofs and is kept current.

## Conventions

* Nodes, qubits and variables are `nat`. Usage counts, reference counts, weights and distances are `Z`
  (the C++ types are `int` / `int64_t`; overflow of distances is an explicit outcome, see C29). The
  Python-level models use labels of any type with decidable equality.
* A vector is a list. An index out of range, a failed `find` that is dereferenced, or any other
  undefined behaviour is the explicit outcome `Err UB`. C++ and Python exceptions are explicit outcomes
  (`BadInit`, `Corrupt`, `TooSmall`, `Cancelled`; each Python-level model file says which
  outcome stands for a Python exception). Signed 64-bit overflow is `Overflow`. A `while` loop takes fuel;
  running out of fuel is the explicit outcome `OOF`. Theorems say that `UB` and `OOF` do not happen
  instead of assuming it.
* Randomness is an arbitrary oracle (a function from draw number to draw), so a theorem for all oracles
  covers every seed. Elapsed time and user interrupts are arbitrary oracles too.
* The floating-point weight table is an arbitrary function (a parameter of the model), with exactly the
  hypotheses used written in the theorem (C29 computes the table with exact powers).
* `unordered_map` iteration order is fixed to the order of `map_to_list`.
* Model files contain only definitions, each citing `/repo` lines. `Spec*.v` files contain the
  independent definitions used in statements. `P_*.v` files contain the property theorems, their
  `Print Assumptions` and their non-vacuity examples. The remaining files contain proofs.
* A property that is false of the code is not weakened silently: the largest part that holds is proved
  (suffix `_partial`) and the full statement is refuted by a concrete run of the model (`_refuted`).

## Plan per property

| id | modelled | method |
|----|----------|--------|
| C01 | chain, embedding, pathfinder, embedding_problem, parameter processing | embedding invariant preserved by every chain operation, lifted through the passes |
| C02 | same, fixed handler, reserved labels | same invariant with fixed variables |
| C03 | same, with `UB` outcomes | safety part of the same invariants; rank functions for loops |
| C04 | same with return_overlap | invariant without disjointness |
| C05 | check_improvement, statistics | well-founded histogram order, induction over histories |
| C06 | linkup, linked, heuristicEmbedding with skip_initialization | invariant + C05 |
| C07 | qubit weights of all chain operations | invariant over all histories of embedding operations |
| C08 | run_diagnostic | invariant gives diagnostic 0 |
| C09 | freeze/thaw | algebra of finite maps |
| C10 | steal | loop invariant |
| C11 | pairing queue as a tree, and as cells with pointers | refinement to trees, then to multisets |
| C12 | Dijkstra | classic Dijkstra invariant |
| C13 | collectMinima, root choice | induction on the vector |
| C14 | var_order and component visitors | loop invariants, Permutation |
| C15 | neighbour lists | induction on edges |
| C16 | union-find, component building | union-find invariant; reachability equivalence |
| C17 | relabelling | induction |
| C18 | input_chains | induction; false for chains out of range, so partial |
| C19 | run_in_thread as small-step interleaving semantics | invariant over all interleavings |
| C20 | exec_chunked, exec_indexed | arithmetic |
| C21 | both prepare_root_distances, single memory accesses interleaved | commuting updates; race freedom of the sections |
| C22 | statistics | induction |
| C23 | quickPass | invariant with bound; refuted with fixed chains |
| C24 | input_vars, quickPass | refutation by a run, plus the part that holds |
| C25 | domain_handler_masked | refutation by a run; domain invariant for fair restrictions |
| C26 | statistics ignores reserved qubits | refutation, plus the part that holds |
| C27 | permutation table size | refutation, plus the part that holds |
| C28 | quickPass local search | refutation, plus the part that holds |
| C29 | weights and margins | arithmetic over paths, boundary 2^63 |
| C30 | fastrng on 64-bit words as `N` | GF(2)-linear inverse |
| C31 | _input_parser | corollary of C02 on the pinned graph; refuted for a suspended fixed variable |
| C32 | chain-length loop | histogram order well-founded |
| C33 | coordinate conversions | div/mod arithmetic |
| C34 | bundle_cache masks | induction on segment length |
| C35 | Chimera clique pipeline | invariants of the dynamic program and the extraction |
| C36 | clique dynamic program | exchange over peelings |
| C37 | memory layout | arithmetic |
| C38 | cell inflate | refuted: the loop never exits |
| C39 | topo_cache next | invariants over all shuffles |
| C40 | small cliques | induction on edges |
| C41 | biclique inflate | invariants |
| C42 | sliding sums | telescoping |
| C43 | best_bicliques | refuted, plus what is minimal |
| C44 | serialize, identifiers | length and injectivity; Pegasus refuted |
| C45 | _make_clique_cache | induction |
| C46 | biclique lookup | soundness; completeness refuted |
| C47 | labeldict, _read_graph, find_embedding of the Python front end | induction; composition with C01-C04 |
| C48 | file protocol as small-step semantics with crashes | invariant over all interleavings; refuted with crashes |
| C49 | suspicion that the problem is too small | counting |
| C50 | clique cache histories | induction over calls |
| C51 | merge of clique caches | induction |
| C52 | largest clique by chain length | refuted, plus the part that holds |
| C53 | export and import of caches | round trip; refuted for the dense form |
| C54 | largest balanced biclique | induction |
| C55 | file cache, LRU bound | invariant for sequential calls; refuted for overlapping calls and crashes |
| C56 | result shape of find_embedding | case analysis; refuted for empty source graphs |
| C57 | miner object with any sequence of calls | induction over histories |
| C58 | restrict_chains through the whole run | refuted in general; proved for fair restrictions |
| C59 | diagnose_embedding, is_valid_embedding, verify_embedding | loop invariants, both directions |
| C60 | embedding_feasibility_filter | double counting of degrees over chains with general weights; exact for one_to_one |
| C61 | lattice_size_lower_bound | corollary of C60; three refutations |
| C62 | find_multiple_embeddings, find_sublattice_embeddings, any embedder | invariant: the remaining graph is the target without the used nodes |
| C63 | the same with a complete embedder | the same invariant and C60 |
| C64 | embeddings_to_array, array_to_embeddings | induction |
| C65 | Pegasus and Zephyr lines, fragments, bundle and clique caches | simulation: the cell masks of the lattice are those of a Chimera lattice of fragments; a valid embedding there contracts to the lattice |
| C66 | find_clique, find_clique_nice on Pegasus and Zephyr | same simulation; refutation by computation |
| C67 | biclique cache, lengths and best_bicliques on Pegasus and Zephyr | same simulation as C65 for rectangles |
| C68 | find_grid_embedding | membership in the comprehension, injectivity of the numbering |
| C69 | find_clique_embedding, find_biclique_embedding of utils | composition with the cache theorems C45, C46, C50 |
| C70 | class Layout, class Placement | extremes of folds, affine maps of boxes |
| C71 | closest, _get_connected_subgraphs, _minimize_overlap | every connected set is reached by growing; counting argument for nearest neighbours; invariant of the counter |
| C72 | intersection | rounding stays in the grid; points of qubits against the couplers of the lattice specifications |
| C73 | layout.find_embedding | composition with C47 and C31 |
| C74 | polynomialembedder: eden_processor and the clique methods of processor | invariant of the dynamic programming table; ells of a sequence cross each other |
| C75 | polynomialembedder: the biclique methods | lines of a rectangle cross each other; the dict of sizes against the rectangles |
| C76 | the same | the table holds the optimum by induction over rectangles; all choices of deletions contain a minimal one |
| C77 | fragment_nodes, fragment_edges, util.hpp fragment_nodes; the tables of topo_cache | the masks of the cache are characterised for every cell; the fragments are reordered by lines |
| C78 | the same with best_cliques and best_bicliques | the couplers without trace can be removed without changing the cache, so the tables are valid without them |
| C79 | graph_layout, _nx_to_graph_layout, _set_dim_and_center; the layout of dwave.graphs is an arbitrary function | the extents of affine images |
| C80 | _pack_components and the end of _rotate_to_minimize_area; rotation and rpack are arbitrary functions with their contracts as hypotheses | every component fits its box; boxes are shifted into disjoint rectangles |
| C81 | _p_norm_objective for p = 1 and p = infinity | sums over pairs; an exact expansion of the objective in one coordinate |
| C82 | _graph_distance_matrix, given the lengths of shortest paths | lookup in the matrix; a shortest path visits each node at most once |
| C83 | bbox_size, packing_density and overlapping of rpack | loops over indices; areas are counted by unit squares |
| C84 | the grid of rpackcore.c, Grid.pack, grid_search_bbox and pack; qsort and the growth of the box are arguments | every marked cell leads to the lower edge of a placed rectangle; a rectangle below another one is found by going up from rectangle to rectangle |

## Trusted base

* The kernel of Coq 8.16.1. No native compilation, no `Unset Guard Checking` or similar, no plugins.
* std++ as a library of definitions and lemmas. `Print Assumptions` of every theorem named in
  `MANIFEST.json` says "Closed under the global context": no axiom of the standard library or of any
  other library is used. (A listing of all constants in the loaded libraries shows seven `Parameter`-like
  entries of `Coq.ssr.ssrunder`; they belong to the module type interface of ssreflect's `under` tactic,
  are loaded with std++, and no theorem depends on them.)
* The reading of the C++, Cython and Python source that is recorded in the comments of the model files.
  The compiler, CPython, networkx, numpy and the operating system are trusted to do what the models say.

### What is modelled

| model | source |
|-------|--------|
| `ChainModel` | include/find_embedding/chain.hpp |
| `EmbModel` | include/find_embedding/embedding.hpp, distances of util.hpp |
| `QueueModel`, `QueueMem` | include/find_embedding/pairing_queue.hpp, at two levels |
| `PathModel` | include/find_embedding/pathfinder.hpp, mutable part of embedding_problem.hpp (domain handlers, fixed handlers, orders, output, randomness) |
| `ConcModel` | worker threads of pathfinder.hpp (748-858) |
| `GraphModel` | include/find_embedding/graph.hpp |
| `ParamModel` | include/find_embedding/find_embedding.hpp, optional_parameters of util.hpp |
| `MinerModel` | class miner of minorminer/_minorminer.pyx, pathfinder_wrapper |
| `PyModel` | find_embedding, _input_parser, _read_graph, _get_chainmap of _minorminer.pyx, labeldict |
| `RngModel` | include/fastrng.hpp |
| `BusModel` | coordinate_types.hpp, util.hpp, cell_cache.hpp, bundle_cache.hpp, topo_cache.hpp of include/busclique |
| `CliqueModel`, `SmallModel` | clique_cache.hpp, find_clique.hpp, small_cliques.hpp |
| `BicliqueModel` | biclique_cache.hpp, find_biclique.hpp |
| `SerialModel` | serialization in util.hpp and topo_cache.hpp, identifiers in busclique.pyx |
| `PyCacheModel` | the caches in memory of minorminer/busclique.pyx |
| `DiskModel` | _fetch_cache and copy_on_close_context of busclique.pyx |
| `NxModel` | minorminer/utils/diagnostic.py |
| `FeasModel` | minorminer/utils/feasibility.py |
| `ParModel` | minorminer/utils/parallel_embeddings.py |
| `UtilModel` | minorminer/utils/chimera.py, pegasus.py, zephyr.py |
| `LayoutModel` | minorminer/layout: class Layout, placement.py, find_embedding |
| `LayoutGenModel` | minorminer/layout/layout.py: graph_layout, _pack_components (given the layouts of dwave.graphs and of components, the rotation and rpack) |
| `PnormModel` | minorminer/layout/layout.py: _p_norm_objective for p = 1 and p = infinity, _graph_distance_matrix |
| `RpackModel` | minorminer/_extern/rpack/_core.pyx: bbox_size, packing_density, overlapping |
| `GridModel` | minorminer/_extern/rpack/src/rpackcore.c: cut, grid_find_region, grid_split; _core.pyx: Grid.pack and the end of pack |
| `PackModel` | minorminer/_extern/rpack: grid_search_bbox, pack (given the results of qsort and the amounts delta) |
| `DrawModel` | topo_cache.hpp fragment_nodes, fragment_edges; util.hpp fragment_nodes; busclique.pyx drawing helpers (the lists only) |
| `PolyModel` | minorminer/utils/polynomialembedder.py |

### Simplifications

* `std::priority_queue` (variable orders) is a list from which a best entry is removed, the first one
  among equals. Entries of different variables never compare equal, because the tie breaker
  (`shuffled[y]`) is a permutation, so only the copies of one variable can tie.
* The number of iterations of the chain-length loop is bounded by fuel given by the oracle; C32 shows that
  enough fuel always exists and that more does not change the result.
* `size_t` is unbounded in the busclique models; a subtraction below zero is `UB`. Mask bounds and the
  logarithms used for them are exact. Bounds on the number of masks are at least 1.
* Threads interleave single accesses to shared words (sequential consistency between the mutex
  operations that the code has).
* Serialization: little endian, 8-byte `size_t`.
* Python caches: relabelling is the identity, gzip and json are not modelled, dicts are lists with
  distinct keys or finite maps.
* File cache: the two locks are one lock, files are byte lists, `pickle` is an encoding of which no
  proper prefix can be loaded, data handed to the operating system is not lost when a process dies.
* Python front end: labels are elements of a type with decidable equality, the label made for a pinned
  node is any fresh label.
* miner objects: a history ends at the first exception.
* networkx graphs are lists of nodes and edges, sets are lists in the order of insertion, `is_connected`
  is modelled; `np.ceil` of a quotient is exact (true below 2^53); the square roots in the lattice bound
  are replaced by the equivalent polynomial inequalities.
* dwave.graphs is not part of the repository: lattice generators, sublattice mappings and
  `greedy_color` are arbitrary functions with the hypotheses written in the theorems; `chimera_graph` is
  defined in `SpecFeas.v` for the refutations.
* Pegasus and Zephyr lines: where `z0 - offset` would wrap around in unsigned arithmetic the line is
  empty in the model as it is in the code; the sort of the clique search is stable.
* Several embeddings: the embedder, the clock and the shuffles are arbitrary; casting a target graph to
  a family (`T_family`) and warnings are not modelled.
* Layouts: coordinates are rational numbers, distances are compared by their squares; scipy's KDTree is
  any function that returns nearest neighbours; labels of qubits are their coordinates.
* polynomialembedder: linear numbering of qubits; random draws are functions of a counter, `sample` and
  `shuffle` any functions that meet their specification, sets are listed in any order; caches are left out.

### What is not modelled

The computation of layouts in minorminer/layout/layout.py (the minimisation in p_norm and p other than 1 and
infinity,
dnx_layout, the convex hull and the choice of the
rotation of a component), minorminer/subgraph.pyx (a binding of an external solver),
in minorminer/_extern/rpack the amounts delta and the choice of qsort among equal rectangles,
printing, timing and logging.
