(** Model of the busclique library, part 2: the clique dynamic program, its tables, the
    extraction of embeddings, and the searches built on it.
    Sources: include/busclique/{clique_cache,find_clique,small_cliques}.hpp. *)
From stdpp Require Import base list numbers gmap.
From Verif Require Import Base BusModel.

(** util.hpp 36-51 [enum corner]: the four corners, each with a "skip" twin *)
Inductive corner := NW | NE | SW | SE.
Definition corner_bit (c : corner) (skip : bool) : N :=
  match c, skip with
  | NW, false => 1 | NE, false => 2 | SW, false => 4 | SE, false => 8
  | NW, true => 16 | NE, true => 32 | SW, true => 64 | SE, true => 128
  end%N.

(** clique_cache.hpp 21-44 [maxcache] packs the score and the set of corners in one word *)
Definition entry_score (e : N) : N := N.shiftr e 8.
Definition entry_corners (e : N) : N := N.land e 255.
(** clique_cache.hpp 32-39 [setmax] on one word *)
Definition entry_setmax (e : N) (s c : N) : N :=
  if (s =? entry_score e)%N then N.lor e c
  else if (entry_score e <? s)%N then N.lor (N.shiftl s 8) c
  else e.

(** clique_cache.hpp 69-78 [memrows], [memcols]; a [size_t] subtraction that would wrap, and
    the [throw]s, are [Err UB] *)
Definition memrows (t : topo) (width i : nat) : res nat :=
  if i <? width then (if i <=? dim_y t then Ok (dim_y t - i) else Err UB)
  else if i =? width then Ok 1 else Err UB.
Definition memcols (t : topo) (width i : nat) : res nat :=
  if i + 1 <? width then (if width <=? dim_x t + i + 2 then Ok (dim_x t + i + 2 - width) else Err UB)
  else if i + 1 =? width then Ok (dim_x t) else Err UB.
(** clique_cache.hpp 80-82 [memsize(i)] *)
Definition memsize (t : topo) (width i : nat) : res nat :=
  let! r := memrows t width i in let! c := memcols t width i in Ok (r * c).
(** clique_cache.hpp 84-89 [memsize()] *)
Definition memtotal (t : topo) (width : nat) : res nat :=
  foldM (fun s i => let! m := memsize t width i in Ok (s + (m + 1))) (seq 0 width) 0.

(** clique_cache.hpp 99-109: the table of offsets at the front of the memory *)
Definition clique_alloc (t : topo) (width : nat) : res (list N) :=
  let! n := memtotal t width in
  let mem := replicate n 0%N in
  let! mem := vset mem 0 (N.of_nat width) in
  foldM (fun mem i =>
    let! a := vget mem (i - 1) in
    let! m := memsize t width (i - 1) in
    vset mem i (a + N.of_nat m)%N) (seq 1 (width - 1)) mem.

(** clique_cache.hpp 118-121 [get]: (rows, cols, start) of level [i] *)
Definition level (t : topo) (width : nat) (mem : list N) (i : nat) : res (nat * nat * nat) :=
  let! r := memrows t width i in
  let! c := memcols t width i in
  let! o := vget mem i in
  Ok (r, c, N.to_nat o).
(** clique_cache.hpp 25-27, 40-45: [maxcache::index], read access to one word *)
Definition lv_get (mem : list N) (lv : nat * nat * nat) (y x : nat) : res N :=
  let '(r, c, o) := lv in vget mem (o + grid_index c y x).
Definition lv_setmax (mem : list N) (lv : nat * nat * nat) (y x : nat) (s c : N) : res (list N) :=
  let '(r, cols, o) := lv in
  let! e := vget mem (o + grid_index cols y x) in
  vset mem (o + grid_index cols y x) (entry_setmax e s c).

(** clique_cache.hpp 174-195: one corner of one rectangle.  [prev = None] is the [zerocache] *)
Definition extend_corner (t : topo) (lm : list N) (check : nat -> nat -> nat -> nat -> nat -> nat -> bool)
  (prev : option (nat * nat * nat)) (next : nat * nat * nat) (y0 y1 x0 x1 : nat) (mem : list N) (c : corner)
  : res (list N) :=
  let next_x := match c with NW | SW => x0 + 1 | _ => x0 end in
  let prev_y := match c with NW | NE => y0 + 1 | _ => y0 end in
  let yc := match c with SW | SE => y1 | _ => y0 end in
  let xc := match c with NE | SE => x1 | _ => x0 end in
  let! score := match prev with
                | None => Ok 0%N
                | Some lv => let! e := lv_get mem lv prev_y x0 in Ok (entry_score e)
                end in
  if check yc xc y0 y1 x0 x1 then
    let! s := bundle_score t lm yc xc y0 y1 x0 x1 in
    lv_setmax mem next y0 next_x (score + N.of_nat s)%N (corner_bit c false)
  else lv_setmax mem next y0 next_x score (corner_bit c true).

(** clique_cache.hpp 157-172: all positions of an h x w rectangle, the corners in order *)
Definition extend_level (t : topo) (lm : list N) check (width : nat) (prev : option (nat * nat * nat)) (h w : nat)
  (cs : list corner) (mem : list N) : res (list N) :=
  let! next := level t width mem (h - 1) in
  if (dim_y t <? h) || (dim_x t <? w) then Err UB else
  foldM (fun mem y =>
    foldM (fun mem x =>
      foldM (extend_corner t lm check prev next y (y + h - 1) x (x + w - 1)) cs mem)
      (seq 0 (S (dim_x t - w))) mem) (seq 0 (S (dim_y t - h))) mem.

(** clique_cache.hpp 139-155 [compute_cache]; [get(h-2)] with h = 1 would wrap: [Err UB] *)
Definition compute_cache (t : topo) (lm : list N) check (width : nat) (mem : list N) : res (list N) :=
  let! mem := extend_level t lm check width None 1 width [SW; SE] mem in
  let! mem := foldM (fun mem i =>
    let! prev := level t width mem (i - 1) in
    extend_level t lm check width (Some prev) (i + 1) (width - i) [NE; NW; SW; SE] mem)
    (seq 1 (width - 2)) mem in
  if width <? 2 then Err UB else
  let! prev := level t width mem (width - 2) in
  extend_level t lm check width (Some prev) width 1 [NE; SE] mem.

(** clique_cache.hpp 95-110, the constructor *)
Definition clique_cache (t : topo) (lm : list N) check (width : nat) : res (list N) :=
  let! mem := clique_alloc t width in compute_cache t lm check width mem.
Definition nocheck (_ _ _ _ _ _ : nat) : bool := true.

(** clique_cache.hpp 197-213 [inflate_first_ell]; [h] and [w] are one less than the sides.
    [x--] at 0 is [Err UB].  The first component of the result is the corner bit [c0]. *)
Definition inflate_first_ell (t : topo) (line : liner) (lm : list N) (emb : list (list nat)) (y x h w : nat) (c : N)
  : res (N * list (list nat) * nat * nat) :=
  let! b := first_bit c in
  let c0 := N.shiftl 1 (N.of_nat b) in
  let west := fun k : nat -> res (N * list (list nat) * nat * nat) => match x with 0 => Err UB | S x => k x end in
  match b with
  | 0 (* NW *) => west (fun x => let! emb := ell_inflate t line lm y x y (y + h) x (x + w) emb in Ok (c0, emb, y + 1, x))
  | 2 (* SW *) => west (fun x => let! emb := ell_inflate t line lm (y + h) x y (y + h) x (x + w) emb in Ok (c0, emb, y, x))
  | 1 (* NE *) => let! emb := ell_inflate t line lm y (x + w) y (y + h) x (x + w) emb in Ok (c0, emb, y + 1, x)
  | 3 (* SE *) => let! emb := ell_inflate t line lm (y + h) (x + w) y (y + h) x (x + w) emb in Ok (c0, emb, y, x)
  | 4 (* NWskip *) => west (fun x => Ok (c0, emb, y + 1, x))
  | 6 (* SWskip *) => west (fun x => Ok (c0, emb, y, x))
  | 5 (* NEskip *) => Ok (c0, emb, y + 1, x)
  | _ (* SEskip *) => Ok (c0, emb, y, x)
  end.

(** clique_cache.hpp 219-230: the first best entry of the last level *)
Definition best_entry (mem : list N) (lv : nat * nat * nat) : res (N * nat * nat) :=
  let '(r, c, o) := lv in
  foldM (fun b y =>
    foldM (fun '(bs, by_, bx) x =>
      let! e := lv_get mem lv y x in
      Ok (if (bs <? entry_score e)%N then (entry_score e, y, x) else (bs, by_, bx))) (seq 0 c) b)
    (seq 0 r) (0%N, 0, 0).

(** clique_cache.hpp 215-237 [extract_solution]: [None] is the [false] return *)
Definition extract_solution (t : topo) (line : liner) (lm : list N) (width : nat) (mem : list N)
  : res (option (list (list nat))) :=
  if width =? 0 then Err UB else
  let! lv := level t width mem (width - 1) in
  let! b := best_entry mem lv in
  let '(bs, by_, bx) := b in
  if (bs =? 0)%N then Ok None else
  let! e := lv_get mem lv by_ bx in
  let! s := foldM (fun '(emb, by_, bx, bc) i =>
    let! r := inflate_first_ell t line lm emb by_ bx (i + 1) (width - 2 - i) bc in
    let '(_, emb, by_, bx) := r in
    let! lv := level t width mem i in
    let! e := lv_get mem lv by_ bx in
    Ok (emb, by_, bx, entry_corners e)) (rev (seq 0 (width - 1))) ([], by_, bx, entry_corners e) in
  let '(emb, by_, bx, bc) := s in
  let! r := inflate_first_ell t line lm emb by_ bx 0 (width - 1) bc in
  Ok (Some r.1.1.2).

(** clique_cache.hpp 377-382 [emb_max_length] *)
Definition emb_max_length (emb : list (list nat)) : nat := foldl (fun m c => m `max` length c) 0 emb.

(** clique_cache.hpp 350-396: the yield cache is the vector of sizes (by chain length) together
    with the best embedding of each length; [process_cliques] *)
Definition yields := (list nat * list (list (list nat)))%type.
Definition process_cliques (t : topo) (line : liner) (lm : list N) (width : nat) (mem : list N) (ys : yields) : res yields :=
  let! r := extract_solution t line lm width mem in
  match r with
  | None => Ok ys
  | Some emb =>
    let len := emb_max_length emb in
    let! old := vget ys.1 len in
    if old <? length emb then
      let! a := vset ys.1 len (length emb) in
      let! b := vset ys.2 len emb in
      Ok (a, b)
    else Ok ys
  end.

(** clique_cache.hpp 398-413 [compute_cache_width_1]; the inner [return] leaves both loops *)
Definition width_1 (t : topo) (line : liner) (lm : list N) (ys : yields) : res yields :=
  let! r := foldM (fun s y =>
    foldM (fun '(ys, fin) x =>
      if (fin : bool) then Ok (ys, true)
      else
        let! score := bundle_score t lm y x y y x x in
        let! old := vget ys.1 2 in
        let! ys :=
          (if old <? score then
            let! emb := ell_inflate t line lm y x y y x x [] in
            let! a := vset ys.1 2 score in
            let! b := vset ys.2 2 emb in
            Ok (a, b)
          else Ok ys) in
        Ok (ys, score =? shore t)) (seq 0 (dim_x t)) s) (seq 0 (dim_y t)) (ys, false) in
  Ok r.1.

(** clique_cache.hpp 437-446, 456-459 [compute_cache_width_gt_1], [compute_cache] for Chimera;
    360-368: [length_bound] = 2 + min(dim_y, dim_x) *)
Definition yield_cache (t : topo) (line : liner) (bound : nat) (cells : list N * list N) : res yields :=
  let! lm := compute_line_masks t cells in
  let! ys := width_1 t line lm (replicate bound 0, replicate bound []) in
  foldM (fun ys w =>
    let! mem := clique_cache t lm nocheck w in
    process_cliques t line lm w mem ys) (seq 2 (dim_y t `min` dim_x t - 1)) ys.
Definition chimera_yields (t : topo) (cells : list N * list N) : res yields :=
  yield_cache t (chimera_line t) (2 + dim_y t `min` dim_x t) cells.

(** find_clique.hpp 237-245: keep the bigger embedding for every chain length *)
Fixpoint keep_bigger (embs new : list (list (list nat))) : list (list (list nat)) :=
  match new with
  | [] => embs
  | e :: new =>
    match embs with
    | [] => (if 0 <? length e then e else []) :: keep_bigger [] new
    | old :: embs => (if length old <? length e then e else old) :: keep_bigger embs new
    end
  end.

(** find_clique.hpp 228-247 [best_cliques] over the masked topologies [masks] that [reset] and
    the successive calls of [next] produce *)
Definition best_cliques (t : topo) (masks : list (list N * list N)) (emb_1 : list (list nat))
  : res (list (list (list nat))) :=
  foldM (fun embs cells => let! ys := chimera_yields t cells in Ok (keep_bigger embs ys.2)) masks ([[]; emb_1]).

(** small_cliques.hpp: see [SmallModel]. *)

(** find_clique.hpp 26-41 [get_maxlen], [get_sol]: [None] is [numeric_limits<size_t>::max()].
    [std::sort] by length is a stable insertion sort here (the order of equals is unspecified). *)
Fixpoint insert_len (c : list nat) (l : list (list nat)) : list (list nat) :=
  match l with
  | [] => [c]
  | d :: l' => if length c <=? length d then c :: l else d :: insert_len c l'
  end.
Definition sort_len (l : list (list nat)) : list (list nat) := foldr insert_len [] l.
Definition get_sol (r : option (list (list nat))) (size : nat) : res (option (nat * list (list nat))) :=
  match r with
  | Some emb =>
    if size <=? length emb then
      let emb := sort_len emb in
      if size =? 0 then Err UB
      else let! c := vget emb (size - 1) in Ok (Some (length c, emb))
    else Ok None
  | None => Ok None
  end.

(** find_clique.hpp 44-55 [find_clique_short] *)
Definition find_clique_short (fuel : nat) (t : topo) (cells : list N * list N) (size : nat)
  : res (option (list (list nat))) :=
  foldM (fun r y =>
    foldM (fun r x =>
      match r with
      | Some _ => Ok r
      | None =>
        let! s := cell_score t cells y x in
        if size <=? s then let! emb := cell_inflate fuel t cells y x [] in Ok (Some emb) else Ok None
      end) (seq 0 (dim_x t)) r) (seq 0 (dim_y t)) None.

(** find_clique.hpp 65-92 [find_clique_nice] for Chimera.  [maxlen = None] is the initial
    [max_length]; the result is (found, embedding, max_length). *)
Definition find_clique_nice (fuel : nat) (t : topo) (cells : list N * list N) (size : nat) (maxlen : option nat)
  (emb : list (list nat)) : res (bool * list (list nat) * option nat) :=
  let! short := (if size <=? shore t then find_clique_short fuel t cells size else Ok None) in
  match short with
  | Some e => Ok (true, e, Some 1)
  | None =>
    if decide (maxlen = Some 1) then Ok (false, emb, maxlen) else
    let! lm := compute_line_masks t cells in
    if shore t =? 0 then Err UB else
    if size + shore t =? 0 then Err UB else
    let minw := (size + shore t - 1) / shore t in
    let maxw := dim_y t `min` dim_x t in
    let maxw := match maxlen with None => maxw | Some l => (l - 1) `min` maxw end in
    let! r := foldM (fun r width =>
      match r with
      | Some _ => Ok r
      | None =>
        let! mem := clique_cache t lm nocheck width in
        let! sol := extract_solution t (chimera_line t) lm width mem in
        let! s := get_sol sol size in
        match s with
        | Some (l, e) =>
          if (match maxlen with None => true | Some m => l <? m end) then Ok (Some (l, e)) else Ok None
        | None => Ok None
        end
      end) (seq minw (S maxw - minw)) None in
    match r with
    | Some (l, e) => Ok (true, e, Some l)
    | None => Ok (false, emb, maxlen)
    end
  end.

(** find_clique.hpp 197-213 [find_clique] over the masked topologies *)
Definition find_clique (fuel : nat) (t : topo) (masks : list (list N * list N)) (size : nat) (emb0 : list (list nat))
  : res (bool * list (list nat)) :=
  let! s := foldM (fun '(emb, tmp, maxlen) cells =>
    let! r := find_clique_nice fuel t cells size maxlen tmp in
    let '(found, tmp, maxlen) := r in
    Ok ((if (found : bool) then tmp else emb), tmp, maxlen)) masks (emb0, [], None) in
  let '(emb, _, _) := s in
  Ok (size <=? length emb, emb).
