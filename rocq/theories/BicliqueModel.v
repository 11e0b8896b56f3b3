(** Model of the biclique search.
    Sources: include/busclique/{biclique_cache,find_biclique}.hpp, util.hpp 435-437. *)
From stdpp Require Import base list numbers gmap.
From Verif Require Import Base BusModel.

(** biclique_cache.hpp 48-57: [memrows], [memcols], [memsize(h,w)] *)
Definition bmemrows (t : topo) (h : nat) : nat := dim_y t - h + 1.
Definition bmemcols (t : topo) (w : nat) : nat := dim_x t - w + 1.
Definition bmemsize (t : topo) (h w : nat) : nat := 2 * (bmemrows t h * bmemcols t w).
(** 59-65 [memsize()]; both loops start at 0 *)
Definition bmemtotal (t : topo) : nat :=
  sum_list ((fun h => sum_list ((fun w => bmemsize t h w + 1) <$> seq 0 (S (dim_x t)))) <$> seq 0 (S (dim_y t))).
(** 67-69 [mem_addr] *)
Definition bmem_addr (t : topo) (h w : nat) : nat := grid_index (dim_x t) (h - 1) (w - 1).

(** 72-79 [make_access_table] *)
Definition make_access_table (t : topo) (mem : list nat) : res (list nat) :=
  let! s := foldM (fun s h =>
    foldM (fun '(mem, offset) w =>
      let! mem := vset mem (bmem_addr t h w) offset in
      Ok (mem, offset + bmemsize t h w)) (seq 1 (dim_x t)) s) (seq 1 (dim_y t)) (mem, dim_y t * dim_x t) in
  Ok s.1.

(** 20-38 [yieldcache]: the number of columns and the start of its words; 82-88 [get] *)
Definition yieldcache := (nat * nat)%type.
Definition bget (t : topo) (mem : list nat) (h w : nat) : res yieldcache :=
  let! p := vget mem (bmem_addr t h w) in Ok (bmemcols t w, p).
Definition yc_index (yc : yieldcache) (y x : nat) (u : bool) : nat := yc.2 + (b2n u + 2 * (x + yc.1 * y)).
Definition yc_get (mem : list nat) (yc : yieldcache) (y x : nat) (u : bool) : res nat := vget mem (yc_index yc y x u).
Definition yc_set (mem : list nat) (yc : yieldcache) (y x : nat) (u : bool) (v : nat) : res (list nat) := vset mem (yc_index yc y x u) v.

(** [a] positions along the lines and [b] lines, as a height and a width; a position along the
    line and a line, as a row and a column *)
Definition blines (t : topo) (u : bool) : nat := if u then dim_y t else dim_x t.
Definition blen (t : topo) (u : bool) : nat := if u then dim_x t else dim_y t.
Definition hw (u : bool) (a b : nat) : nat * nat := if u then (b, a) else (a, b).

(** 93-99, 117-123: one line *)
Definition first_lines (t : topo) (lm : list N) (u : bool) (a : nat) (mem : list nat) : res (list nat) :=
  let '(h, w) := hw u a 1 in
  let! next := bget t mem h w in
  foldM (fun mem y0 =>
    foldM (fun mem x0 =>
      let '(p, l) := if u then (x0, y0) else (y0, x0) in
      let! s := get_line_score t lm u l p (p + a - 1) in
      yc_set mem next y0 x0 u s) (seq 0 (S (dim_x t - w))) mem) (seq 0 (S (dim_y t - h))) mem.

(** 103-112, 127-136: [b] lines from [b-1], sliding over the lines.  [score -= ...] below zero
    would wrap; it is [Err UB] here. *)
Definition slide (t : topo) (lm : list N) (u : bool) (a b p : nat) (prev next : yieldcache) (mem : list nat) : res (list nat) :=
  let pos l := if u then (l, p) else (p, l) in
  let! score := yc_get mem prev (pos 0).1 (pos 0).2 u in
  let! s := get_line_score t lm u (b - 1) p (p + a - 1) in
  let score := score + s in
  let! mem := yc_set mem next (pos 0).1 (pos 0).2 u score in
  let! r := foldM (fun '(mem, score) l =>
    let! s0 := get_line_score t lm u (l - 1) p (p + a - 1) in
    if score <? s0 then Err UB else
    let! s1 := get_line_score t lm u (l + b - 1) p (p + a - 1) in
    let score := score - s0 + s1 in
    let! mem := yc_set mem next (pos l).1 (pos l).2 u score in
    Ok (mem, score)) (seq 1 (blines t u - b)) (mem, score) in
  Ok r.1.

(** 91-115 for [u = 0]; 116-138 for [u = 1], where the two dimensions change places *)
Definition bpass (t : topo) (lm : list N) (u : bool) (mem : list nat) : res (list nat) :=
  foldM (fun mem a =>
    let! mem := first_lines t lm u a mem in
    foldM (fun mem b =>
      let! prev := bget t mem (hw u a (b - 1)).1 (hw u a (b - 1)).2 in
      let! next := bget t mem (hw u a b).1 (hw u a b).2 in
      foldM (fun mem p => slide t lm u a b p prev next mem) (seq 0 (S (blen t u - a))) mem)
      (seq 2 (blines t u - 1)) mem) (seq 1 (blen t u)) mem.

(** 141-145 the constructor *)
Definition biclique_cache (t : topo) (lm : list N) : res (list nat) :=
  let! mem := make_access_table t (replicate (bmemtotal t) 0) in
  let! mem := bpass t lm false mem in
  bpass t lm true mem.

(** 150-159 [score] *)
Definition bscore (t : topo) (mem : list nat) (y0 y1 x0 x1 : nat) : res (nat * nat) :=
  let! c := bget t mem (y1 - y0 + 1) (x1 - x0 + 1) in
  let! a := yc_get mem c y0 x0 false in
  let! b := yc_get mem c y0 x0 true in
  Ok (a, b).

(** util.hpp 435-437 [biclique_length] of Chimera *)
Definition chimera_biclique_length (y0 y1 x0 x1 : nat) : nat := (y1 - y0) `max` (x1 - x0) + 1.

(** the [biclique_length] of a topology: [len y0 y1 x0 x1] *)
Definition blength := nat -> nat -> nat -> nat -> nat.

Definition rect := (nat * nat * nat * nat)%type.
(** 181-220: [chainlength] and [biclique_bounds] *)
Definition byields := (list (list nat) * list (list rect))%type.
Definition vget2 {A} (l : list (list A)) (i j : nat) : res A := let! r := vget l i in vget r j.
Definition vset2 {A} (l : list (list A)) (i j : nat) (v : A) : res (list (list A)) :=
  let! r := vget l i in let! r := vset r j v in vset l i r.

(** 201-225 [compute_cache] of [biclique_yield_cache] *)
Definition byield_at (t : topo) (len : blength) (mem : list nat) (h w : nat) (c : yieldcache) (ys : byields) (y x : nat) : res byields :=
  let! s0 := yc_get mem c y x false in
  let! s1 := yc_get mem c y x true in
  if (s0 =? 0) || (s1 =? 0) then Ok ys else
  let maxlen := len y (y + h - 1) x (x + w - 1) in
  let! prevlen := vget2 ys.1 (s0 - 1) (s1 - 1) in
  if (prevlen =? 0) || (maxlen <? prevlen) then
    let! a := vset2 ys.1 (s0 - 1) (s1 - 1) maxlen in
    let! b := vset2 ys.2 (s0 - 1) (s1 - 1) (y, y + h - 1, x, x + w - 1) in
    Ok (a, b)
  else Ok ys.
Definition byield_cache (t : topo) (len : blength) (mem : list nat) : res byields :=
  let rows := dim_x t * shore t in
  let cols := dim_y t * shore t in
  foldM (fun ys h =>
    foldM (fun ys w =>
      let! c := bget t mem h w in
      foldM (fun ys y =>
        foldM (fun ys x => byield_at t len mem h w c ys y x) (seq 0 (bmemcols t w)) ys) (seq 0 (bmemrows t h)) ys)
      (seq 1 (dim_x t)) ys) (seq 1 (dim_y t))
    (replicate rows (replicate cols 0), replicate rows (replicate cols (0, 0, 0, 0))).

(** 227-275: what the iterator visits, in order: the nonzero places, with the rectangle's chains.
    [line] is the topology's [construct_line]. *)
Definition bvisit (t : topo) (line : liner) (lm : list N) (ys : byields) : res (list (nat * nat * nat * list (list nat))) :=
  foldM (fun acc s0 =>
    foldM (fun acc s1 =>
      let! cl := vget2 ys.1 s0 s1 in
      if cl =? 0 then Ok acc else
      let! z := vget2 ys.2 s0 s1 in
      let '(y0, y1, x0, x1) := z in
      let! emb := rect_inflate t line lm y0 y1 x0 x1 [] in
      Ok (acc ++ [(s0 + 1, s1 + 1, cl, emb)])) (seq 0 (dim_y t * shore t)) acc) (seq 0 (dim_x t * shore t)) [].

(** find_biclique.hpp 46-69 [best_bicliques].  The two [unordered_map]s are [gmap]s; the result is
    the second one ([embs] lists it in an unspecified order).  The first, [chainlength], is looked
    up but never written. *)
Definition bcache := (gmap (nat * nat) nat * gmap (nat * nat) (list (list nat)))%type.
Definition bkeep (s : bcache) (z : nat * nat * nat * list (list nat)) : bcache :=
  let '(s0, s1, cl, emb) := z in
  match s.1 !! (s0, s1) with
  | None => (s.1, <[(s0, s1) := emb]> s.2)
  | Some c => if cl <? c then (s.1, <[(s0, s1) := emb]> s.2) else s
  end.
Definition bmask (t : topo) (line : liner) (len : blength) (cells : list N * list N) : res (list (nat * nat * nat * list (list nat))) :=
  let! lm := compute_line_masks t cells in
  let! mem := biclique_cache t lm in
  let! ys := byield_cache t len mem in
  bvisit t line lm ys.
Definition best_bicliques (t : topo) (line : liner) (len : blength) (masks : list (list N * list N)) : res (gmap (nat * nat) (list (list nat))) :=
  let! s := foldM (fun s cells => let! zs := bmask t line len cells in Ok (foldl bkeep s zs)) masks (∅, ∅) in
  Ok s.2.
