(** Model of the busclique library, part 1: coordinates, bit tables, cell masks, line masks.
    Sources: include/busclique/{coordinate_types,util,cell_cache,bundle_cache,topo_cache}.hpp.

    Conventions.  [size_t] values are [nat] (the sizes are bounded by memory, no wrap is
    modelled except where a subtraction could go below zero: those sites return [Err UB]).
    A [uint8_t] mask is an [N] below 256; [~0] stored in a [uint8_t] is 255.  The [bool u] is a
    [bool], [true] for the horizontal direction.  The unit types [size_y], [size_x], [size_w],
    [size_z] of coordinate_types.hpp 30-300 are all [nat]: [vert]/[horz] are the identity. *)
From stdpp Require Import base list numbers gmap.
From Verif Require Import Base.

(** util.hpp 163-: [topo_spec_base]: dim_y, dim_x, shore (the seed is kept by [topo_ident]) *)
Record topo := mkTopo { dim_y : nat; dim_x : nat; shore : nat }.

Definition b2n (u : bool) : nat := if u then 1 else 0.

(** coordinate_types.hpp 316-338 [cell_index_impl], [cell_index(y,x,u)] *)
Definition cell_index (t : topo) (y x : nat) (u : bool) : nat :=
  b2n u + 2 * (x + dim_x t * y).

(** coordinate_types.hpp 330-338 [cell_index(u,w,z)] *)
Definition cell_index_wz (t : topo) (u : bool) (w z : nat) : nat :=
  if u then cell_index t w z u else cell_index t z w u.

(** util.hpp 188 [num_cells] *)
Definition num_cells (t : topo) : nat := dim_y t * (dim_x t * 2).

(** coordinate_types.hpp 342-354 [chimera_linear] *)
Definition chimera_linear (t : topo) (y x : nat) (u : bool) (k : nat) : nat :=
  k + shore t * (b2n u + 2 * (x + dim_x t * y)).

(** coordinate_types.hpp 359-370 [linear_chimera] *)
Definition linear_chimera (t : topo) (q0 : nat) : nat * nat * bool * nat :=
  let k := q0 mod shore t in
  let q := q0 / shore t in
  let u := q mod 2 in
  let q := q / 2 in
  let x := q mod dim_x t in
  let y := q / dim_x t in
  (y, x, negb (u =? 0), k).

(** coordinate_types.hpp 374-392 [linemajor_linear] *)
Definition linemajor_linear (u : bool) (w k z dim_w sh dim_z : nat) : nat :=
  z + dim_z * (k + sh * (w + dim_w * b2n u)).

(** coordinate_types.hpp 407-418 [linear_linemajor]; the last quotient is stored in a [bool] *)
Definition linear_linemajor (q0 dim_w sh dim_z : nat) : bool * nat * nat * nat :=
  let z := q0 mod dim_z in
  let q := q0 / dim_z in
  let k := q mod sh in
  let q := q / sh in
  let w := q mod dim_w in
  let q := q / dim_w in
  (negb (q =? 0), w, k, z).

(** coordinate_types.hpp 451-459 [grid_index] *)
Definition grid_index (cols y x : nat) : nat := x + cols * y.

(** util.hpp 53 [binom] *)
Definition binom (x : nat) : nat := (x * x + x) / 2.

(** coordinate_types.hpp 465-485 [bundle_cache_index] *)
Definition bundle_cache_index (u : bool) (w z0 z1 stride_u stride_w : nat) : nat :=
  b2n u * stride_u + w * stride_w + binom z1 + z0.

(** bundle_cache.hpp 41-44: [linestride], [orthstride] and the size of [line_mask] *)
Definition linestride (t : topo) (u : bool) : nat := if u then binom (dim_x t) else binom (dim_y t).
Definition orthstride (t : topo) : nat := dim_x t * linestride t false.
Definition line_mask_size (t : topo) : nat := orthstride t + dim_y t * linestride t true.

(** bundle_cache.hpp 107-114: the address used by [get_line_mask] *)
Definition line_addr (t : topo) (u : bool) (w z0 z1 : nat) : nat :=
  bundle_cache_index u w z0 z1 (orthstride t) (linestride t u).

(** util.hpp 55-64 [popcount], util.hpp 66-75 [first_bit], util.hpp 77 [mask_bit] *)
Definition popcount_table : list nat :=
  [0; 1; 1; 2; 1; 2; 2; 3; 1; 2; 2; 3; 2; 3; 3; 4; 1; 2; 2; 3; 2; 3; 3; 4; 2; 3; 3; 4; 3; 4; 4; 5;
   1; 2; 2; 3; 2; 3; 3; 4; 2; 3; 3; 4; 3; 4; 4; 5; 2; 3; 3; 4; 3; 4; 4; 5; 3; 4; 4; 5; 4; 5; 5; 6;
   1; 2; 2; 3; 2; 3; 3; 4; 2; 3; 3; 4; 3; 4; 4; 5; 2; 3; 3; 4; 3; 4; 4; 5; 3; 4; 4; 5; 4; 5; 5; 6;
   2; 3; 3; 4; 3; 4; 4; 5; 3; 4; 4; 5; 4; 5; 5; 6; 3; 4; 4; 5; 4; 5; 5; 6; 4; 5; 5; 6; 5; 6; 6; 7;
   1; 2; 2; 3; 2; 3; 3; 4; 2; 3; 3; 4; 3; 4; 4; 5; 2; 3; 3; 4; 3; 4; 4; 5; 3; 4; 4; 5; 4; 5; 5; 6;
   2; 3; 3; 4; 3; 4; 4; 5; 3; 4; 4; 5; 4; 5; 5; 6; 3; 4; 4; 5; 4; 5; 5; 6; 4; 5; 5; 6; 5; 6; 6; 7;
   2; 3; 3; 4; 3; 4; 4; 5; 3; 4; 4; 5; 4; 5; 5; 6; 3; 4; 4; 5; 4; 5; 5; 6; 4; 5; 5; 6; 5; 6; 6; 7;
   3; 4; 4; 5; 4; 5; 5; 6; 4; 5; 5; 6; 5; 6; 6; 7; 4; 5; 5; 6; 5; 6; 6; 7; 5; 6; 6; 7; 6; 7; 7; 8].

Definition first_bit_table : list nat :=
  [0; 0; 1; 0; 2; 0; 1; 0; 3; 0; 1; 0; 2; 0; 1; 0; 4; 0; 1; 0; 2; 0; 1; 0; 3; 0; 1; 0; 2; 0; 1; 0;
   5; 0; 1; 0; 2; 0; 1; 0; 3; 0; 1; 0; 2; 0; 1; 0; 4; 0; 1; 0; 2; 0; 1; 0; 3; 0; 1; 0; 2; 0; 1; 0;
   6; 0; 1; 0; 2; 0; 1; 0; 3; 0; 1; 0; 2; 0; 1; 0; 4; 0; 1; 0; 2; 0; 1; 0; 3; 0; 1; 0; 2; 0; 1; 0;
   5; 0; 1; 0; 2; 0; 1; 0; 3; 0; 1; 0; 2; 0; 1; 0; 4; 0; 1; 0; 2; 0; 1; 0; 3; 0; 1; 0; 2; 0; 1; 0;
   7; 0; 1; 0; 2; 0; 1; 0; 3; 0; 1; 0; 2; 0; 1; 0; 4; 0; 1; 0; 2; 0; 1; 0; 3; 0; 1; 0; 2; 0; 1; 0;
   5; 0; 1; 0; 2; 0; 1; 0; 3; 0; 1; 0; 2; 0; 1; 0; 4; 0; 1; 0; 2; 0; 1; 0; 3; 0; 1; 0; 2; 0; 1; 0;
   6; 0; 1; 0; 2; 0; 1; 0; 3; 0; 1; 0; 2; 0; 1; 0; 4; 0; 1; 0; 2; 0; 1; 0; 3; 0; 1; 0; 2; 0; 1; 0;
   5; 0; 1; 0; 2; 0; 1; 0; 3; 0; 1; 0; 2; 0; 1; 0; 4; 0; 1; 0; 2; 0; 1; 0; 3; 0; 1; 0; 2; 0; 1; 0].

Definition mask_bit_table : list N := [1; 2; 4; 8; 16; 32; 64; 128]%N.

(** table reads [popcount[m]], [first_bit[m]], [mask_bit[k]]: out of range is undefined *)
Definition popcount (m : N) : res nat := vget popcount_table (N.to_nat m).
Definition first_bit (m : N) : res nat := vget first_bit_table (N.to_nat m).
Definition mask_bit (k : nat) : res N := vget mask_bit_table k.

(** [mem[i] |= b] and [mem[i] &= ~b] on a byte array *)
Definition mor (mem : list N) (i : nat) (b : N) : res (list N) :=
  let! m := vget mem i in vset mem i (N.lor m b).
Definition mclear (mem : list N) (i : nat) (b : N) : res (list N) :=
  let! m := vget mem i in vset mem i (N.ldiff m b).

(** util.hpp 404-419 [chimera_spec_base::process_nodes], without [badmask] ([ignore_badmask]) *)
Definition chimera_node (t : topo) (nm : list N) (q : nat) : res (list N) :=
  let '(y, x, u, k) := linear_chimera t q in
  let! b := mask_bit k in
  mor nm (cell_index t y x u) b.
Definition chimera_nodes (t : topo) (nodes : list nat) (nm : list N) : res (list N) :=
  foldM (chimera_node t) nodes nm.

(** util.hpp 379-402 [chimera_spec_base::process_edges], without [badmask] *)
Definition chimera_edge (t : topo) (em : list N) (e : nat * nat) : res (list N) :=
  let '(p, q) := if e.2 <? e.1 then (e.2, e.1) else e in
  let '(py, px, pu, pk) := linear_chimera t p in
  let '(qy, qx, qu, qk) := linear_chimera t q in
  if eqb pu qu then
    if (pk =? qk) && (py + (1 - b2n pu) =? qy) && (px + b2n pu =? qx) then
      let! b := mask_bit qk in mor em (cell_index t qy qx qu) b
    else Ok em
  else Ok em.
Definition chimera_edges (t : topo) (edges : list (nat * nat)) (em : list N) : res (list N) :=
  foldM (chimera_edge t) edges em.

(** the [badmask] part of process_nodes (util.hpp 415-416): [badmask[q] = ~0] *)
Definition bad_node (bm : list N) (q : nat) : res (list N) := vset bm q 255%N.
Definition bad_nodes (nodes : list nat) (bm : list N) : res (list N) := foldM bad_node nodes bm.

(** the [badmask] part of process_edges (util.hpp 395-399) *)
Definition bad_edge (t : topo) (bm : list N) (e : nat * nat) : res (list N) :=
  let '(p, q) := if e.2 <? e.1 then (e.2, e.1) else e in
  let '(py, px, pu, pk) := linear_chimera t p in
  let '(qy, qx, qu, qk) := linear_chimera t q in
  if negb (eqb pu qu) && (py =? qy) && (px =? qx) then
    let! bq := mask_bit qk in
    let! bm := mclear bm p bq in
    let! bp := mask_bit pk in
    mclear bm q bp
  else Ok bm.
Definition bad_edges_pass (t : topo) (edges : list (nat * nat)) (bm : list N) : res (list N) :=
  foldM (bad_edge t) edges bm.

(** [mem[i] &= m] *)
Definition mand (mem : list N) (i : nat) (m : N) : res (list N) :=
  let! x := vget mem i in vset mem i (N.land x m).

(** util.hpp 617-631 [finish_badmask]: the counter [q] runs through all qubits in order *)
Definition finish_shore (t : topo) (nm : list N) (y x : nat) (u : bool) (s : list N * nat) : res (list N * nat) :=
  foldM (fun '(bm, q) _ =>
    let! m := vget nm (cell_index t y x (negb u)) in
    let! bm := mand bm q m in
    Ok (bm, S q)) (seq 0 (shore t)) s.
Definition finish_badmask (t : topo) (nm bm : list N) : res (list N) :=
  let! s := foldM (fun s y =>
    foldM (fun s x =>
      let! s := finish_shore t nm y x false s in
      finish_shore t nm y x true s) (seq 0 (dim_x t)) s) (seq 0 (dim_y t)) (bm, 0) in
  Ok s.1.

(** the [while(mask)] loop of topo_cache.hpp 175-179; at most 8 bits, [fuel] = 8 iterations + 1 *)
Fixpoint mask_bits (fuel : nat) (m : N) : res (list nat) :=
  match fuel with
  | 0 => Err OOF
  | S fuel =>
    if (m =? 0)%N then Ok []
    else
      let! k := first_bit m in
      let! b := mask_bit k in
      let! l := mask_bits fuel (N.lxor m b) in
      Ok (k :: l)
  end.

(** topo_cache.hpp 167-186 [compute_bad_edges]; [q] is the running qubit counter *)
Definition compute_bad_edges (t : topo) (bm : list N) : res (list (nat * nat)) :=
  let! s := foldM (fun s y =>
    foldM (fun s x =>
      let! s := foldM (fun '(bad, q) _ =>
        let! m := vget bm q in
        let! ks := mask_bits 9 m in
        Ok (bad ++ ((fun bk => (q, chimera_linear t y x true bk)) <$> ks), S q)) (seq 0 (shore t)) s in
      Ok (s.1, s.2 + shore t)) (seq 0 (dim_x t)) s) (seq 0 (dim_y t)) ([], 0) in
  Ok s.1.

(** what topo_cache.hpp 137-162 [_initialize] computes for a Chimera topology:
    nodemask, edgemask, badmask, bad_edges *)
Record tcache := mkTC {
  tc_topo : topo; tc_nodemask : list N; tc_edgemask : list N; tc_badmask : list N;
  tc_bad : list (nat * nat) }.

(** topo_cache.hpp 60-69 and 137-155 (everything before the first call of [next]) *)
Definition topo_init (t : topo) (nodes : list nat) (edges : list (nat * nat)) : res tcache :=
  let! nm := chimera_nodes t nodes (replicate (num_cells t) 0%N) in
  let! bm := bad_nodes nodes (replicate (num_cells t * shore t) 0%N) in
  let! em := chimera_edges t edges (replicate (num_cells t) 0%N) in
  let! bm := bad_edges_pass t edges bm in
  let! bm := finish_badmask t nm bm in
  let! bad := compute_bad_edges t bm in
  Ok (mkTC t nm em bm bad).

(** topo_cache.hpp 196-208: the exhaustive choice; bit [i] of [mask_num] picks the end of edge [i] *)
Definition pick_exhaustive (bad : list (nat * nat)) (mask_num : N) : list nat :=
  rev (imap (fun i e => if N.testbit mask_num (N.of_nat i) then e.1 else e.2) bad).

(** topo_cache.hpp 215-225: the adjacency map of the bad edges (in whatever order) *)
Definition adj_of (bad : list (nat * nat)) : gmap nat (gset nat) :=
  foldl (fun adj e =>
    let adj := <[ e.2 := {[ e.1 ]} ∪ default ∅ (adj !! e.2) ]> adj in
    <[ e.1 := {[ e.2 ]} ∪ default ∅ (adj !! e.1) ]> adj) ∅ bad.
Definition degree (adj : gmap nat (gset nat)) (x : nat) : nat := size (default ∅ (adj !! x)).

(** topo_cache.hpp 234-249: the greedy cover; [coin] is the stream of [rng()&1] draws *)
Definition cover_step (coin : nat -> bool) (s : gset nat * gmap nat (gset nat) * nat) (e : nat * nat)
  : gset nat * gmap nat (gset nat) * nat :=
  let '(cover, adj, i) := s in
  if decide (e.1 ∈ cover \/ e.2 ∈ cover) then s
  else
    let '(x, i) :=
      if degree adj e.1 <? degree adj e.2 then (e.2, i)
      else if degree adj e.2 <? degree adj e.1 then (e.1, i)
      else if coin i then (e.2, S i) else (e.1, S i) in
    let adj' := set_fold (fun y a => <[ y := default ∅ (a !! y) ∖ {[ x ]} ]> a) adj (default ∅ (adj !! x)) in
    ({[ x ]} ∪ cover, <[ x := ∅ ]> adj', i).
Definition pick_greedy (coin : nat -> bool) (bad : list (nat * nat)) : list nat :=
  elements (foldl (cover_step coin) (∅, adj_of bad, 0) bad).1.1.

(** topo_cache.hpp 251-267: clear the chosen qubits out of copies of the masks *)
Definition drop_node (t : topo) (s : list N * list N) (q : nat) : res (list N * list N) :=
  let '(nm, em) := s in
  let '(y, x, u, k) := linear_chimera t q in
  let! b := mask_bit k in
  let! nm := mclear nm (cell_index t y x u) b in
  let! em := mclear em (cell_index t y x u) b in
  let! em :=
    if (u : bool) then if x + 1 <? dim_x t then mclear em (cell_index t y (x + 1) u) b else Ok em
    else if y + 1 <? dim_y t then mclear em (cell_index t (y + 1) x u) b else Ok em in
  Ok (nm, em).
Definition drop_nodes (t : topo) (qs : list nat) (s : list N * list N) : res (list N * list N) :=
  foldM (drop_node t) qs s.

(** The mutable part of a topo_cache: the mask counter, the order the bad edges are currently in
    (shuffled and sorted in place), and the masks seen through [cells]. *)
Record tstate := mkTS { ts_num : N; ts_bad : list (nat * nat); ts_cells : list N * list N }.

(** topo_cache.hpp 188-268 [next].  [bound] is [mask_bound]; the test
    [bad_edges.size() <= log2(mask_bound)] is modelled exactly, as [2^size <= mask_bound].
    [shuf] stands for [std::shuffle] followed by [std::sort] (200-233): some rearrangement.
    [None] is the [false] return. *)
Definition tc_next (c : tcache) (bound : N) (shuf : list (nat * nat) -> list (nat * nat)) (coin : nat -> bool)
  (s : tstate) : res (option tstate) :=
  if decide (ts_bad s = []) then
    if (ts_num s =? 0)%N then Ok (Some (mkTS 1 [] (tc_nodemask c, tc_edgemask c))) else Ok None
  else if (2 ^ N.of_nat (length (ts_bad s)) <=? bound)%N then
    if (ts_num s <? 2 ^ N.of_nat (length (ts_bad s)))%N then
      let! m := drop_nodes (tc_topo c) (pick_exhaustive (ts_bad s) (ts_num s)) (tc_nodemask c, tc_edgemask c) in
      Ok (Some (mkTS (ts_num s + 1) (ts_bad s) m))
    else Ok None
  else if (ts_num s <? bound)%N then
    let bad := shuf (ts_bad s) in
    let! m := drop_nodes (tc_topo c) (pick_greedy coin bad) (tc_nodemask c, tc_edgemask c) in
    Ok (Some (mkTS (ts_num s + 1) bad m))
  else Ok None.

(** cell_cache.hpp 53-58 [qmask], [emask] *)
Definition qmask (t : topo) (cells : list N * list N) (u : bool) (w z : nat) : res N :=
  vget cells.1 (cell_index_wz t u w z).
Definition emask (t : topo) (cells : list N * list N) (u : bool) (w z : nat) : res N :=
  vget cells.2 (cell_index_wz t u w z).

(** cell_cache.hpp 60-63 [score] *)
Definition cell_score (t : topo) (cells : list N * list N) (y x : nat) : res nat :=
  let! m0 := qmask t cells false x y in let! p0 := popcount m0 in
  let! m1 := qmask t cells true y x in let! p1 := popcount m1 in
  Ok (p0 `min` p1).

(** util.hpp 422-433 [chimera_spec_base::construct_line] *)
Definition chimera_line (t : topo) (u : bool) (w z0 z1 k : nat) : list nat :=
  (fun z => if u then chimera_linear t w z true k else chimera_linear t z w false k) <$> seq z0 (S z1 - z0).

(** cell_cache.hpp 65-77 [inflate]: the two updates come after the loop, so an iteration
    leaves [k0] and [k1] as they were *)
Fixpoint cell_inflate_loop (fuel : nat) (t : topo) (y x : nat) (k0 k1 : N) (emb : list (list nat))
  : res (list (list nat)) :=
  match fuel with
  | 0 => Err OOF
  | S fuel =>
    if (k0 =? 0)%N || (k1 =? 0)%N then Ok emb
    else
      let! b0 := first_bit k0 in
      let! b1 := first_bit k1 in
      cell_inflate_loop fuel t y x k0 k1
        (emb ++ [chimera_line t false x y y b0 ++ chimera_line t true y x x b1])
  end.
Definition cell_inflate (fuel : nat) (t : topo) (cells : list N * list N) (y x : nat) (emb : list (list nat))
  : res (list (list nat)) :=
  let! k0 := qmask t cells false x y in
  let! k1 := qmask t cells true y x in
  cell_inflate_loop fuel t y x k0 k1 emb.

(** bundle_cache.hpp 116-137 [compute_line_masks]: [mask] is the running pointer (an index) *)
Definition fill_down (t : topo) (cells : list N * list N) (u : bool) (w z p : nat) (mem : list N) : res (list N) :=
  let! m := qmask t cells u w z in
  let! mem := vset mem (p + z) m in
  let! s := foldM (fun '(mem, m) z0 =>
    let! e := emask t cells u w (z0 + 1) in
    let m := N.land m e in
    let! mem := vset mem (p + z0) m in
    Ok (mem, m)) (rev (seq 0 z)) (mem, m) in
  Ok s.1.
Definition fill_line (t : topo) (cells : list N * list N) (u : bool) (dim_z w : nat) (s : list N * nat)
  : res (list N * nat) :=
  let! s := foldM (fun '(mem, p) z =>
    let p := p + z in
    let! mem := fill_down t cells u w z p mem in
    Ok (mem, p)) (seq 0 dim_z) s in
  Ok (s.1, s.2 + dim_z).
Definition fill_side (t : topo) (cells : list N * list N) (u : bool) (dim_w dim_z : nat) (s : list N * nat)
  : res (list N * nat) :=
  foldM (fun s w => fill_line t cells u dim_z w s) (seq 0 dim_w) s.
Definition compute_line_masks (t : topo) (cells : list N * list N) : res (list N) :=
  let! s := fill_side t cells false (dim_x t) (dim_y t) (replicate (line_mask_size t) 0%N, 0) in
  let! s := fill_side t cells true (dim_y t) (dim_x t) s in
  Ok s.1.

(** bundle_cache.hpp 107-114 [get_line_mask], 100-102 [get_line_score] *)
Definition get_line_mask (t : topo) (lm : list N) (u : bool) (w z0 z1 : nat) : res N :=
  vget lm (line_addr t u w z0 z1).
Definition get_line_score (t : topo) (lm : list N) (u : bool) (w z0 z1 : nat) : res nat :=
  let! m := get_line_mask t lm u w z0 z1 in popcount m.

(** bundle_cache.hpp 48-53 [score] *)
Definition bundle_score (t : topo) (lm : list N) (yc xc y0 y1 x0 x1 : nat) : res nat :=
  let! a := get_line_score t lm false xc y0 y1 in
  let! b := get_line_score t lm true yc x0 x1 in
  Ok (a `min` b).

(** a topology's [construct_line]: direction, line, first and last position, index in the line *)
Notation liner := (bool -> nat -> nat -> nat -> nat -> list nat).

(** bundle_cache.hpp 55-67 [inflate] at a corner.  8 bits, so at most 8 iterations. *)
Fixpoint ell_loop (fuel : nat) (line : liner) (yc xc y0 y1 x0 x1 : nat) (k0 k1 : N) (emb : list (list nat))
  : res (list (list nat)) :=
  match fuel with
  | 0 => Err OOF
  | S fuel =>
    if (k0 =? 0)%N || (k1 =? 0)%N then Ok emb
    else
      let! b0 := first_bit k0 in
      let! b1 := first_bit k1 in
      let emb := emb ++ [line false xc y0 y1 b0 ++ line true yc x0 x1 b1] in
      let! m0 := mask_bit b0 in
      let! m1 := mask_bit b1 in
      ell_loop fuel line yc xc y0 y1 x0 x1 (N.lxor k0 m0) (N.lxor k1 m1) emb
  end.
Definition ell_inflate (t : topo) (line : liner) (lm : list N) (yc xc y0 y1 x0 x1 : nat) (emb : list (list nat))
  : res (list (list nat)) :=
  let! k0 := get_line_mask t lm false xc y0 y1 in
  let! k1 := get_line_mask t lm true yc x0 x1 in
  ell_loop 9 line yc xc y0 y1 x0 x1 k0 k1 emb.

(** bundle_cache.hpp 75-95 [inflate(u, ...)] and 69-73 [inflate] on a rectangle (bicliques) *)
Definition side_inflate (t : topo) (line : liner) (lm : list N) (u : bool) (y0 y1 x0 x1 : nat)
  (emb : list (list nat)) : res (list (list nat)) :=
  let '(w0, w1, z0, z1) := if u then (y0, y1, x0, x1) else (x0, x1, y0, y1) in
  foldM (fun emb w =>
    let! k := get_line_mask t lm u w z0 z1 in
    let! ks := mask_bits 9 k in
    Ok (emb ++ ((fun k => line u w z0 z1 k) <$> ks))) (seq w0 (S w1 - w0)) emb.
Definition rect_inflate (t : topo) (line : liner) (lm : list N) (y0 y1 x0 x1 : nat) (emb : list (list nat))
  : res (list (list nat)) :=
  let! emb := side_inflate t line lm false y0 y1 x0 x1 emb in
  side_inflate t line lm true y0 y1 x0 x1 emb.

(** The masked topologies visited by [topology.reset(); do {...} while(topology.next());]
    (find_clique.hpp 235-246, find_biclique.hpp 49-64; topo_cache.hpp 71-77 [reset]): the counter
    starts at 0 again, the bad edges stay in the order they are in.  [shuf i] and [coin i] are
    what the random generator does in the [i]-th call. *)
Fixpoint mask_run (fuel : nat) (c : tcache) (bound : N) (shuf : nat -> list (nat * nat) -> list (nat * nat))
  (coin : nat -> nat -> bool) (i : nat) (s : tstate) : res (list (list N * list N)) :=
  match fuel with
  | 0 => Err OOF
  | S fuel =>
    let! r := tc_next c bound (shuf i) (coin i) s in
    match r with
    | None => Ok []
    | Some s' =>
      let! l := mask_run fuel c bound shuf coin (S i) s' in
      Ok (ts_cells s' :: l)
    end
  end.
