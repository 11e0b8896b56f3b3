(** Model of the busclique library for Pegasus and Zephyr: a qubit is cut into fragments that form a
    Chimera-like grid (util.hpp 205-360, 470-596), then the same tables and searches as for Chimera
    (BusModel.v, CliqueModel.v) are used.  Sources: include/busclique/{util,topo_cache,clique_cache,
    find_clique}.hpp. *)
From stdpp Require Import base list numbers gmap.
From Verif Require Import Base BusModel CliqueModel.

(** What differs between the two: the grid of fragments, the number of fragments of a qubit, the
    coordinates [(u, w, k, z)] of a qubit number, its first fragment, which couplers between the two
    halves of a line are accepted, and the qubits of a segment of a line. *)
Record fspec := mkFS {
  fs_topo : topo;
  fs_len : nat;
  fs_coords : nat -> bool * nat * nat * nat;
  fs_first : nat -> bool * nat * nat * nat;
  fs_odd : nat -> nat -> bool;
  fs_line : liner }.

(** util.hpp 205-218: the grid is 6d by 6d with 2 fragments per shore; [off u i] is [offsets[u][i]] *)
Definition pegasus_topo (d : nat) : topo := mkTopo (6 * d) (6 * d) 2.
(** util.hpp 333-336 [pegasus_coordinates] and 311-314 [pegasus_linear] *)
Definition pegasus_coords (d q : nat) : bool * nat * nat * nat := linear_linemajor q d 12 (d - 1).
Definition pegasus_linear (d : nat) (u : bool) (w k z : nat) : nat := linemajor_linear u w k z d 12 (d - 1).
(** util.hpp 259-268 [first_fragment] *)
Definition pegasus_first (d : nat) (off : bool -> nat -> nat) (q : nat) : bool * nat * nat * nat :=
  let '(u, qw, qk, qz) := pegasus_coords d q in
  (u, qw * 6 + qk / 2, qk mod 2, qz * 6 + off u (qk / 2)).
(** util.hpp 338-347 [construct_line].  Where [z0 - offset] would wrap around the loop is modelled as
    empty; the theorems show that chains are not. *)
Definition pegasus_line (d : nat) (off : bool -> nat -> nat) (u : bool) (w z0 z1 k : nat) : list nat :=
  let qk := (w * 2 + k) mod 12 in
  let qw := (w * 2 + k) / 12 in
  let o := off u (qk / 2) in
  if z0 <? o then [] else
  let qz0 := (z0 - o) / 6 in
  let qz1 := (z1 - o) / 6 in
  (fun qz => pegasus_linear d u qw qk qz) <$> seq qz0 (S qz1 - qz0).
(** util.hpp 349-354 [line_length], bundle_cache.hpp 97-99 [length] *)
Definition pegasus_line_length (off : bool -> nat -> nat) (u : bool) (w z0 z1 : nat) : nat :=
  let o := off u (w mod 6) in (z1 + 12 - o) / 6 - (z0 + 6 - o) / 6.
Definition pegasus_ell_length (off : bool -> nat -> nat) (yc xc y0 y1 x0 x1 : nat) : nat :=
  pegasus_line_length off false xc y0 y1 + pegasus_line_length off true yc x0 x1.
Definition pegasus_spec (d : nat) (off : bool -> nat -> nat) : fspec :=
  mkFS (pegasus_topo d) 6 (pegasus_coords d) (pegasus_first d off) (fun pz qz => qz =? pz) (pegasus_line d off).

(** util.hpp 459-461: the grid is 2d+1 by 2d+1 with 2t fragments per shore *)
Definition zephyr_topo (d t : nat) : topo := mkTopo (2 * d + 1) (2 * d + 1) (2 * t).
(** util.hpp 531-539 [zephyr_coordinates], [zephyr_linear] *)
Definition zephyr_coords (d t q : nat) : bool * nat * nat * nat := linear_linemajor q (2 * d + 1) (2 * t) d.
Definition zephyr_linear (d t : nat) (u : bool) (w k z : nat) : nat := linemajor_linear u w k z (2 * d + 1) (2 * t) d.
(** util.hpp 465-470 [first_fragment] *)
Definition zephyr_first (d t q : nat) : bool * nat * nat * nat :=
  let '(u, w, k, z) := zephyr_coords d t q in (u, w, k, z * 2 + k mod 2).
(** util.hpp 541-550 [construct_line]; wrapping around as above *)
Definition zephyr_line (d t : nat) (u : bool) (w z0 z1 k : nat) : list nat :=
  if z0 <? k mod 2 then [] else
  let qz0 := (z0 - k mod 2) / 2 in
  let qz1 := (z1 - k mod 2) / 2 in
  (fun qz => zephyr_linear d t u w k qz) <$> seq qz0 (S qz1 - qz0).
Definition zephyr_spec (d t : nat) : fspec :=
  mkFS (zephyr_topo d t) 2 (zephyr_coords d t) (zephyr_first d t) (fun pz qz => (qz =? pz) || (qz + 1 =? pz)) (zephyr_line d t).

(** the grid number of a fragment (util.hpp 277-278, 286-287, 319-322: [chimera_linear]) *)
Definition frag_number (t : topo) (u : bool) (w z k : nat) : nat :=
  if u then chimera_linear t w z true k else chimera_linear t z w false k.

(** util.hpp 270-292 and 507-528 [process_nodes]: one qubit; the node, edge and bad masks.  The first
    fragment is entered before the loop over the others (which is unrolled for Zephyr). *)
Definition frag_node (fs : fspec) (s : list N * list N * list N) (q : nat) : res (list N * list N * list N) :=
  let t := fs_topo fs in
  let '(u, w, k, z) := fs_first fs q in
  let '(nm, em, bm) := s in
  let! b := mask_bit k in
  let! nm := mor nm (cell_index_wz t u w z) b in
  let! bm := vset bm (frag_number t u w z k) 255%N in
  foldM (fun '(nm, em, bm) i =>
    let! nm := mor nm (cell_index_wz t u w (z + i)) b in
    let! em := mor em (cell_index_wz t u w (z + i)) b in
    let! bm := vset bm (frag_number t u w (z + i) k) 255%N in
    Ok (nm, em, bm)) (seq 1 (fs_len fs - 1)) (nm, em, bm).

(** [qk ^ 1] *)
Definition flip (k : nat) : nat := if k mod 2 =? 0 then k + 1 else k - 1.

(** util.hpp 221-257 and 473-505 [process_edges]: one coupler; [throw 10] is [Err Corrupt].  The cell,
    line and bit that the two versions compute are those of the first fragments. *)
Definition frag_edge (fs : fspec) (s : list N * list N) (e : nat * nat) : res (list N * list N) :=
  let t := fs_topo fs in
  let '(p, q) := if e.2 <? e.1 then (e.2, e.1) else e in
  let '(qu, qw, qk, qz) := fs_coords fs q in
  let '(pu, pw, pk, pz) := fs_coords fs p in
  let '(_, qline, qbit, qfirst) := fs_first fs q in
  let '(_, pline, pbit, _) := fs_first fs p in
  let '(em, bm) := s in
  if eqb pu qu then
    if (pw =? qw) && (pk =? qk) && (qz =? pz + 1) then
      let! b := mask_bit qbit in
      let! em := mor em (cell_index_wz t pu qline qfirst) b in
      Ok (em, bm)
    else if (pw =? qw) && (pk =? flip qk) && fs_odd fs pz qz then Ok s
    else Err Corrupt
  else
    let! bq := mask_bit qbit in
    let! bm := mclear bm (chimera_linear t qline pline false pbit) bq in
    let! bp := mask_bit pbit in
    let! bm := mclear bm (chimera_linear t qline pline true qbit) bp in
    Ok (em, bm).

(** topo_cache.hpp 60-69 and 137-155 (before the first call of [next]) *)
Definition frag_init (fs : fspec) (nodes : list nat) (edges : list (nat * nat)) : res tcache :=
  let t := fs_topo fs in
  let! s := foldM (frag_node fs) nodes
    (replicate (num_cells t) 0%N, replicate (num_cells t) 0%N, replicate (num_cells t * shore t) 0%N) in
  let '(nm, em, bm) := s in
  let! s := foldM (frag_edge fs) edges (em, bm) in
  let '(em, bm) := s in
  let! bm := finish_badmask t nm bm in
  let! bad := compute_bad_edges t bm in
  Ok (mkTC t nm em bm bad).

(** clique_cache.hpp 356-358, 448-454: Zephyr has the same widths as Chimera *)
Definition zephyr_yields (d t : nat) (cells : list N * list N) : res yields :=
  yield_cache (zephyr_topo d t) (zephyr_line d t) (4 + d) cells.

(** clique_cache.hpp 470-502 [get_length_range]; [None] is [~0] *)
Definition length_range (off : bool -> nat -> nat) (width : nat) : option nat * nat :=
  fold_left (fun r i =>
    let h := width - i in
    let w := i + 1 in
    fold_left (fun r y =>
      fold_left (fun r x =>
        fold_left (fun '(mn, mx) len => (Some (match mn with None => len | Some m => m `min` len end), mx `max` len))
          [pegasus_line_length off false x y (y + h - 1) + pegasus_line_length off true y x (x + w - 1);
           pegasus_line_length off false x y (y + h - 1) + pegasus_line_length off true (y + h - 1) x (x + w - 1);
           pegasus_line_length off false (x + w - 1) y (y + h - 1) + pegasus_line_length off true y x (x + w - 1);
           pegasus_line_length off false (x + w - 1) y (y + h - 1) + pegasus_line_length off true (y + h - 1) x (x + w - 1)] r)
        (seq 6 6) r) (seq 6 6) r) (seq 0 width) (None, 0).
(** the check of clique_cache.hpp 426-430 and find_clique.hpp 154-158 *)
Definition check_length (off : bool -> nat -> nat) (len yc xc y0 y1 x0 x1 : nat) : bool :=
  pegasus_ell_length off yc xc y0 y1 x0 x1 <=? len.
(** the values [len] of a loop from [min] to below [max]; an unbounded start gives none *)
Definition lengths (mn : option nat) (mx : nat) : list nat :=
  match mn with None => [] | Some m => seq m (mx - m) end.

(** clique_cache.hpp 415-435, 461-464; 352-354: [length_bound] = 5 + pdim *)
Definition pegasus_yields (d : nat) (off : bool -> nat -> nat) (cells : list N * list N) : res yields :=
  let t := pegasus_topo d in
  let line := pegasus_line d off in
  let! lm := compute_line_masks t cells in
  foldM (fun ys w =>
    let '(mn, mx) := length_range off w in
    let! mem := clique_cache t lm nocheck w in
    let! ys := process_cliques t line lm w mem ys in
    foldM (fun ys len =>
      let! mem := clique_cache t lm (check_length off len) w in
      process_cliques t line lm w mem ys) (lengths mn mx) ys)
    (seq 2 (dim_y t `min` dim_x t - 1)) (replicate (5 + d) 0, replicate (5 + d) []).

(** find_clique.hpp 228-247 [best_cliques] over the masked topologies *)
Definition frag_best_cliques (ys : list N * list N -> res yields) (masks : list (list N * list N)) (emb_1 : list (list nat))
  : res (list (list (list nat))) :=
  foldM (fun embs cells => let! y := ys cells in Ok (keep_bigger embs y.2)) masks ([[]; emb_1]).

(** [l < max_length]; [None] is the initial maximum *)
Definition shorter (l : nat) (maxlen : option nat) : bool :=
  match maxlen with None => true | Some m => l <? m end.

(** find_clique.hpp 94-123 [find_clique_nice] for Zephyr *)
Definition zephyr_find_nice (fuel d t : nat) (cells : list N * list N) (size : nat) (maxlen : option nat)
  (emb : list (list nat)) : res (bool * list (list nat) * option nat) :=
  let tp := zephyr_topo d t in
  let! short := (if size <=? shore tp then find_clique_short fuel tp cells size else Ok None) in
  match short with
  | Some e => Ok (true, e, Some 1)
  | None =>
    if decide (maxlen = Some 1) then Ok (false, emb, maxlen) else
    let! lm := compute_line_masks tp cells in
    if shore tp =? 0 then Err UB else
    let minw := (size + shore tp - 1) / shore tp in
    let maxw := dim_y tp `min` dim_x tp in
    let maxw := match maxlen with None => maxw | Some l => (2 * l + 1) `min` maxw end in
    let! r := foldM (fun r width =>
      match r with
      | Some _ => Ok r
      | None =>
        let! mem := clique_cache tp lm nocheck width in
        let! sol := extract_solution tp (zephyr_line d t) lm width mem in
        let! s := get_sol sol size in
        match s with
        | Some (l, e) => if shorter l maxlen then Ok (Some (l, e)) else Ok None
        | None => Ok None
        end
      end) (seq minw (S maxw - minw)) None in
    match r with
    | Some (l, e) => Ok (true, e, Some l)
    | None => Ok (false, emb, maxlen)
    end
  end.

(** find_clique.hpp 125-175 [find_clique_nice] for Pegasus.  [pw]: the [for] over widths; [maxw] changes
    in the loop, so it is part of the state; [fuel] bounds the number of widths. *)
Definition min_len (l : nat) (maxlen : option nat) : nat := match maxlen with None => l | Some m => l `min` m end.
Definition pegasus_try_length (t : topo) (line : liner) (off : bool -> nat -> nat) (lm : list N) (w size : nat)
  (s : list (list nat) * nat) (len : nat) : res (list (list nat) * nat) :=
  let '(emb, maxlen) := s in
  let! mem := clique_cache t lm (check_length off len) w in
  let! sol := extract_solution t line lm w mem in
  match sol with
  | None => Ok s
  | Some tmp =>
    let! r := get_sol (Some tmp) size in
    match r with
    | None => Ok s
    | Some (tlen, tmp) => Ok (if tlen <? maxlen then tmp else emb, len `min` maxlen)
    end
  end.
Fixpoint pegasus_widths (fuel : nat) (t : topo) (line : liner) (off : bool -> nat -> nat) (lm : list N) (size w maxw : nat)
  (emb : list (list nat)) (maxlen : option nat) : res (list (list nat) * option nat) :=
  if maxw <? w then Ok (emb, maxlen) else
  match fuel with
  | 0 => Err OOF
  | S fuel =>
    let '(mn, mx) := length_range off w in
    match mn with
    | None => Ok (emb, maxlen)                              (* [~0 < max_length] is false: [break] *)
    | Some m =>
      if shorter m maxlen then
        let! mem := clique_cache t lm nocheck w in
        let! sol := extract_solution t line lm w mem in
        let! r := get_sol sol size in
        match r with
        | None => pegasus_widths fuel t line off lm size (S w) maxw emb maxlen
        | Some (length, tmp) =>
          let emb := if shorter length maxlen then tmp else emb in
          let maxlen := min_len length maxlen in
          let maxw := maxw `min` (w + 6) in
          let! s := foldM (pegasus_try_length t line off lm w size) (lengths mn (maxlen `max` mx)) (emb, maxlen) in
          pegasus_widths fuel t line off lm size (S w) maxw s.1 (Some s.2)
        end
      else Ok (emb, maxlen)                                  (* [break] *)
    end
  end.
Definition pegasus_find_nice (d : nat) (off : bool -> nat -> nat) (cells : list N * list N) (size : nat) (maxlen : option nat)
  (emb : list (list nat)) : res (bool * list (list nat) * option nat) :=
  let t := pegasus_topo d in
  let! lm := compute_line_masks t cells in
  let! s := pegasus_widths (S (dim_y t)) t (pegasus_line d off) off lm size ((size + 1) / 2) (dim_y t `min` dim_x t) emb maxlen in
  let '(emb, maxlen) := s in
  Ok (size <=? length emb, emb, maxlen).

(** find_clique.hpp 197-213 [find_clique] over the masked topologies, for either [find_clique_nice] *)
Definition frag_find_clique
  (nice : list N * list N -> nat -> option nat -> list (list nat) -> res (bool * list (list nat) * option nat))
  (masks : list (list N * list N)) (size : nat) (emb0 : list (list nat)) : res (bool * list (list nat)) :=
  let! s := foldM (fun '(emb, tmp, maxlen) cells =>
    let! r := nice cells size maxlen tmp in
    let '(found, tmp, maxlen) := r in
    Ok ((if (found : bool) then tmp else emb), tmp, maxlen)) masks (emb0, [], None) in
  let '(emb, _, _) := s in
  Ok (size <=? length emb, emb).
