(** Model of the picture of a busgraph as a grid of fragments: topo_cache.hpp 85-130 [fragment_nodes],
    [fragment_edges], util.hpp 317-331, 439-441, 579-593 and 632-639 [fragment_nodes] of a chain, as used by
    busclique.pyx 667-675 [draw_fragment_embedding]. *)
From stdpp Require Import base list numbers gmap.
From Verif Require Import Base BusModel CliqueModel FragModel.

(** [mask[cell_index(u, w, z)] & mask_bit[k]] as a condition *)
Definition test_bit (t : topo) (mem : list N) (u : bool) (w z k : nat) : res bool :=
  let! m := vget mem (cell_index_wz t u w z) in
  let! b := mask_bit k in
  Ok (negb (N.land m b =? 0)%N).

(** topo_cache.hpp 92-102: the body of either inner loop; [q] is the running counter *)
Definition draw_node (t : topo) (nm : list N) (y x : nat) (u : bool) (s : list nat * nat) (k : nat) : res (list nat * nat) :=
  let '(nodes, q) := s in
  let! b := (if u then test_bit t nm true y x k else test_bit t nm false x y k) in
  Ok ((if (b : bool) then nodes ++ [q] else nodes), S q).
(** topo_cache.hpp 85-106 *)
Definition fragment_nodes (t : topo) (nm : list N) : res (list nat) :=
  let! s := foldM (fun s y =>
    foldM (fun s x =>
      let! s := foldM (draw_node t nm y x false) (seq 0 (shore t)) s in
      foldM (draw_node t nm y x true) (seq 0 (shore t)) s) (seq 0 (dim_x t)) s) (seq 0 (dim_y t)) ([], 0) in
  Ok s.1.

(** topo_cache.hpp 116-124: a vertical qubit.  [y-1] at [y = 0], which would wrap around, is [UB] here;
    the theorems show that it is not reached. *)
Definition draw_edge_vert (t : topo) (nm em bm : list N) (y x : nat) (s : list (nat * nat) * nat) (k : nat)
  : res (list (nat * nat) * nat) :=
  let '(edges, q) := s in
  let! e := test_bit t em false x y k in
  let! edges := (if (e : bool) then
                   match y with 0 => Err UB | S y' => Ok (edges ++ [(q, chimera_linear t y' x false k)]) end
                 else Ok edges) in
  let! n := test_bit t nm false x y k in
  let! edges := (if (n : bool) then
    foldM (fun edges k1 =>
      let! m := vget nm (cell_index_wz t true y x) in
      let! b := mask_bit k1 in
      let! bad := vget bm q in
      Ok (if (N.ldiff (N.land m b) bad =? 0)%N then edges else edges ++ [(q, chimera_linear t y x true k1)]))
      (seq 0 (shore t)) edges
    else Ok edges) in
  Ok (edges, S q).
(** topo_cache.hpp 126-131: a horizontal qubit *)
Definition draw_edge_horz (t : topo) (em : list N) (y x : nat) (s : list (nat * nat) * nat) (k : nat)
  : res (list (nat * nat) * nat) :=
  let '(edges, q) := s in
  let! e := test_bit t em true y x k in
  let! edges := (if (e : bool) then
                   match x with 0 => Err UB | S x' => Ok (edges ++ [(q, chimera_linear t y x' true k)]) end
                 else Ok edges) in
  Ok (edges, S q).
(** topo_cache.hpp 108-135 *)
Definition fragment_edges (t : topo) (nm em bm : list N) : res (list (nat * nat)) :=
  let! s := foldM (fun s y =>
    foldM (fun s x =>
      let! s := foldM (draw_edge_vert t nm em bm y x) (seq 0 (shore t)) s in
      foldM (draw_edge_horz t em y x) (seq 0 (shore t)) s) (seq 0 (dim_x t)) s) (seq 0 (dim_y t)) ([], 0) in
  Ok s.1.

(** util.hpp 317-331 and 579-593: the fragments of a qubit, from the last to the first *)
Definition fragments_of (fs : fspec) (q : nat) : list nat :=
  let '(u, w, k, z) := fs_first fs q in
  (fun i => frag_number (fs_topo fs) u w (z + i) k) <$> rev (seq 0 (fs_len fs)).
(** util.hpp 632-639; for Chimera (util.hpp 439-441) a qubit is its only fragment *)
Definition draw_chain (fs : fspec) (c : list nat) : list nat := c ≫= fragments_of fs.
Definition draw_chain_chimera (c : list nat) : list nat := c ≫= (fun q => [q]).

(** busclique.pyx 904-910 [fragment_graph_spec]: nodes and edges of the picture *)
Definition picture (c : tcache) : res (list nat * list (nat * nat)) :=
  let! nodes := fragment_nodes (tc_topo c) (tc_nodemask c) in
  let! edges := fragment_edges (tc_topo c) (tc_nodemask c) (tc_edgemask c) (tc_badmask c) in
  Ok (nodes, edges).
