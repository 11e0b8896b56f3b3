(** Model of include/find_embedding/pathfinder.hpp and of the mutable part of
    include/find_embedding/embedding_problem.hpp. *)
From stdpp Require Import base list numbers gmap.
From Verif Require Import Base ChainModel EmbModel QueueModel.

(** what [LocalInteraction::cancelled] (util.hpp:103-107) does at one call *)
Inductive stop := SGo | STimeout | SCancel.

(** Everything a run reads but does not change: the problem, the oracles for the random
    generator and for clock/interrupts, the weight table as a function of the maximal fill
    and the fill (embedding_problem.hpp:286-297), the parameters (util.hpp:126-145), and the
    initial weight bound computed from them by [reset_mood] (embedding_problem.hpp:253-263).
    [int] parameters are natural numbers here; [fuel] bounds the chain-length loop. *)
Record env := mkEnv {
  pb : problem;
  rnd : nat -> nat;
  stops : nat -> stop;
  wtab : Z -> Z -> Z;
  max_no_improvement : nat;
  tries : nat;
  inner_rounds : nat;
  chainlength_patience : nat;
  wbound0 : Z;
  skip_init : bool;
  has_restrict : bool;
  interactive : bool;
  parallel : bool;
  chain_fuel : nat
}.

(** The search buffers of pathfinder_base (pathfinder.hpp:86-100) *)
Record search := mkSr {
  par : list (list (option nat));   (** parents; -1 is None *)
  vis : list (list Z);              (** visited_list *)
  dist : list (list Z);             (** distances *)
  total : list Z;                   (** total_distance *)
  qw : list Z;                      (** qubit_weight *)
  perm : list (list nat)            (** qubit_permutations *)
}.

(** The "mood" of embedding_problem_base (embedding_problem.hpp:230) *)
Record mood := mkMood {
  embedded : bool; desperate : bool; improved : bool; target : nat; wb : Z
}.

(** The mutable state of a pathfinder.  [vn] is [var_nbrs] (reordered in place), [vos] is
    [var_order_space], [rpos] and [spos] are positions in the oracles. *)
Record st := mkSt {
  vn : list (list nat);
  vos : list nat;
  sr : search;
  md : mood;
  best : emb;
  stats : list Z;
  pushb : Z;
  rpos : nat;
  spos : nat
}.

Definition set_vn s x := mkSt x (vos s) (sr s) (md s) (best s) (stats s) (pushb s) (rpos s) (spos s).
Definition set_vos s x := mkSt (vn s) x (sr s) (md s) (best s) (stats s) (pushb s) (rpos s) (spos s).
Definition set_sr s x := mkSt (vn s) (vos s) x (md s) (best s) (stats s) (pushb s) (rpos s) (spos s).
Definition set_md s x := mkSt (vn s) (vos s) (sr s) x (best s) (stats s) (pushb s) (rpos s) (spos s).
Definition set_best s x y := mkSt (vn s) (vos s) (sr s) (md s) x y (pushb s) (rpos s) (spos s).
Definition set_pushb s x := mkSt (vn s) (vos s) (sr s) (md s) (best s) (stats s) x (rpos s) (spos s).
Definition set_rpos s x := mkSt (vn s) (vos s) (sr s) (md s) (best s) (stats s) (pushb s) x (spos s).
Definition set_spos s x := mkSt (vn s) (vos s) (sr s) (md s) (best s) (stats s) (pushb s) (rpos s) x.

Definition set_wb s x := set_md s (mkMood (embedded (md s)) (desperate (md s)) (improved (md s)) (target (md s)) x).
Definition set_desperate s x := set_md s (mkMood (embedded (md s)) x (improved (md s)) (target (md s)) (wb (md s))).
Definition set_improved s x := set_md s (mkMood (embedded (md s)) (desperate (md s)) x (target (md s)) (wb (md s))).
Definition set_embedded s x := set_md s (mkMood x (desperate (md s)) (improved (md s)) (target (md s)) (wb (md s))).
Definition set_target s x := set_md s (mkMood (embedded (md s)) (desperate (md s)) (improved (md s)) x (wb (md s))).
Definition set_perm (b : search) x := mkSr (par b) (vis b) (dist b) (total b) (qw b) x.
Definition set_total (b : search) x := mkSr (par b) (vis b) (dist b) x (qw b) (perm b).
Definition set_row (b : search) p v d := mkSr p v d (total b) (qw b) (perm b).

(** ** randomness *)

(** [std::shuffle]: some permutation, chosen by the generator (embedding_problem.hpp:347-350) *)
Fixpoint shuf {A} (rnd : nat -> nat) (n pos : nat) (l : list A) : list A :=
  match n with
  | 0 => l
  | S n =>
      let i := rnd pos `mod` length l in
      match l !! i with Some x => x :: shuf rnd n (S pos) (delete i l) | None => l end
  end.
Definition shuffle {A} (rnd : nat -> nat) (pos : nat) (l : list A) : list A * nat :=
  (shuf rnd (length l) pos l, pos + length l).

(** embedding_problem.hpp:343: a draw in [0..m]; [uniform_int_distribution] with an empty
    range is UB *)
Definition randint (e : env) (s : st) (n : nat) : res (nat * st) :=
  match n with
  | 0 => Err UB
  | S m => Ok (rnd e (rpos s) `mod` S m, set_rpos s (S (rpos s)))
  end.

(** ** distances *)

(** [x + y] on [distance_t]; overflow is undefined *)
Definition dadd (x y : Z) : res Z :=
  if decide (x + y <= max_distance)%Z then Ok (x + y)%Z else Err Overflow.

(** embedding_problem.hpp:299-304; the argument is converted to unsigned, so a negative
    fill counts as large *)
Definition weight_of (e : env) (maxwid c : Z) : Z :=
  if decide (c < 0 \/ 64 <= c)%Z then max_distance else wtab e maxwid c.

(** embedding_problem.hpp:48-50 and 89-96 *)
Definition prepare_visited (p : problem) (v0 : list Z) (u v : nat) : res (list Z) :=
  match masks p with
  | None => Ok (replicate (length v0) 0%Z)
  | Some m =>
      let! mu := vget m u in
      let! mv := vget m v in
      if decide (length v0 <= length mu /\ length v0 <= length mv)
      then Ok (zip_with Z.land (take (length v0) mu) (take (length v0) mv))
      else Err UB
  end.

(** embedding_problem.hpp:52-59 and 98-115 (the chunked variants cover the same range) *)
Definition prepare_distances (p : problem) (t : list Z) (u : nat) : res (list Z) :=
  match masks p with
  | None => Ok (replicate (length t) 0%Z)
  | Some m =>
      let! mu := vget m u in
      if decide (length t <= length mu)
      then Ok (map (fun x => (- x * max_distance)%Z) (take (length t) mu))
      else Err UB
  end.

(** embedding.hpp:133-140; [max_element] of an empty range is UB *)
Definition max_weight (p : problem) (em : emb) : res Z :=
  match take (nq p) (eweight em) with
  | [] => Err UB
  | x :: l => Ok (foldl Z.max x l)
  end.

(** pathfinder.hpp:517-529 *)
Definition compute_qubit_weights (e : env) (em : emb) (b : search) : res search :=
  let! mw := max_weight (pb e) em in
  let! q' := foldM (fun acc q => let! w := vget (eweight em) q in vset acc q (weight_of e mw w))
                   (seq 0 (nq (pb e))) (qw b) in
  Ok (mkSr (par b) (vis b) (dist b) (total b) q' (perm b)).

(** The working data of one search: parents, visited marks and the queue *)
Record work := mkW { wpar : list (option nat); wvis : list Z; wpq : pqueue }.

(** pathfinder.hpp:463-474: the neighbours [p] of a qubit [q] of a fixed chain.
    [emb_tag] selects embedded_tag (true) or default_tag (false). *)
Definition init_fixed_step (em : emb) (qwt : list Z) (pm : list nat) (emb_tag : bool) (q : nat)
    (k : work) (p : nat) : res work :=
  let! s := vget (wvis k) p in
  if decide (s <> 0%Z) then Ok k else
  let! (go, d) :=
    (if emb_tag then let! w := vget (eweight em) p in Ok (bool_decide (w = 0%Z), 1%Z)
     else let! d := vget qwt p in Ok (true, d)) in
  if (go : bool) then
    let! t := vget pm p in
    let! pq := q_emplace (wpq k) (mkNode p t d) in
    let! pr := vset (wpar k) p (Some q) in
    let! vs := vset (wvis k) p 1%Z in
    Ok (mkW pr vs pq)
  else Ok k.

(** pathfinder.hpp:449-483 *)
Definition dijkstra_init (pb : problem) (em : emb) (qwt : list Z) (pm : list nat) (emb_tag : bool)
    (v : nat) (k : work) : res work :=
  let! c := vget (chains em) v in
  if fixedb pb v then
    foldM (fun k q =>
             let! pr := vset (wpar k) q None in
             let! nb := vget (qnb pb) q in
             foldM (init_fixed_step em qwt pm emb_tag q) nb (mkW pr (wvis k) (wpq k)))
          (cqubits c) k
  else
    foldM (fun k q =>
             let! t := vget pm q in
             let! pq := q_emplace (wpq k) (mkNode q t 0%Z) in
             let! pr := vset (wpar k) q None in
             let! vs := vset (wvis k) q 1%Z in
             Ok (mkW pr vs pq))
          (cqubits c) k.

(** pathfinder.hpp:503-511: relax one neighbour [p] of the popped node [z] *)
Definition relax (em : emb) (wbd : Z) (qwt : list Z) (pm : list nat) (z : pnode)
    (k : work * list Z) (p : nat) : res (work * list Z) :=
  let '(k, d) := k in
  let! s := vget (wvis k) p in
  if decide (s <> 0%Z) then Ok (k, d) else
  let! vs := vset (wvis k) p 1%Z in
  let! w := vget (eweight em) p in
  if decide (wbd <= w)%Z then
    let! d := vset d p max_distance in
    Ok (mkW (wpar k) vs (wpq k), d)
  else
    let! pr := vset (wpar k) p (Some (pnode_id z)) in
    let! t := vget pm p in
    let! c := vget qwt p in
    let! nd := dadd (pdist z) c in
    let! pq := q_emplace (wpq k) (mkNode p t nd) in
    Ok (mkW pr vs pq, d).

(** pathfinder.hpp:498-513 *)
Fixpoint dijkstra_loop (fuel : nat) (pb : problem) (em : emb) (wbd : Z) (qwt : list Z) (pm : list nat)
    (k : work) (d : list Z) : res (work * list Z) :=
  if q_empty (wpq k) then Ok (k, d) else
  match fuel with
  | 0 => Err OOF
  | S fuel =>
      let! z := q_top (wpq k) in
      let! pq := q_pop (wpq k) in
      let! d := vset d (pnode_id z) (pdist z) in
      let! nb := vget (qnb pb) (pnode_id z) in
      let! (k, d) := foldM (relax em wbd qwt pm z) nb (mkW (wpar k) (wvis k) pq, d) in
      dijkstra_loop fuel pb em wbd qwt pm k d
  end.

(** pathfinder.hpp:489-514 *)
Definition compute_distances_from_chain (pb : problem) (em : emb) (wbd : Z) (v : nat) (b : search) : res search :=
  let! pv := vget (par b) v in
  let! vv := vget (vis b) v in
  let! dv := vget (dist b) v in
  let! pm := vget (perm b) v in
  let! k := dijkstra_init pb em (qw b) pm false v (mkW pv vv (q_new (nq pb))) in
  let! (k, dv) := dijkstra_loop (S (nq pb)) pb em wbd (qw b) pm k dv in
  let! par' := vset (par b) v (wpar k) in
  let! vis' := vset (vis b) v (wvis k) in
  let! dist' := vset (dist b) v dv in
  Ok (set_row b par' vis' dist').

(** pathfinder.hpp:307-318 *)
Definition accumulate_at_chain (pb : problem) (em : emb) (wbd : Z) (v : nat) (b : search) : res search :=
  if fixedb pb v then Ok b else
  let! c := vget (chains em) v in
  let! t := foldM (fun t q =>
      let! w := vget (qw b) q in
      let! tq := vget t q in
      let! ew := vget (eweight em) q in
      if decide (tq <> max_distance /\ reservedb pb q = false /\ w <> max_distance /\ (ew < wbd)%Z /\ (0 < w)%Z)
      then let! x := dadd tq w in vset t q x
      else vset t q max_distance) (cqubits c) (total b) in
  Ok (set_total b t).

(** pathfinder.hpp:322-333 over the whole range of qubits *)
Definition accumulate_dist (pb : problem) (em : emb) (wbd : Z) (v : nat) (b : search) : res search :=
  let! dv := vget (dist b) v in
  let! vv := vget (vis b) v in
  let! t := foldM (fun t q =>
      let! s := vget vv q in
      let! tq := vget t q in
      let! dq := vget dv q in
      let! ew := vget (eweight em) q in
      if decide (s = 1%Z /\ tq <> max_distance /\ reservedb pb q = false /\ dq <> max_distance /\ (ew < wbd)%Z)
      then let! x := dadd tq dq in vset t q x
      else vset t q max_distance) (seq 0 (nq pb)) (total b) in
  Ok (set_total b t).

(** [prepare_visited(visited_list[v], u, v)] *)
Definition prep_vis (pb : problem) (u v : nat) (b : search) : res search :=
  let! vv := vget (vis b) v in
  let! vv := prepare_visited pb vv u v in
  let! vis' := vset (vis b) v vv in
  Ok (mkSr (par b) vis' (dist b) (total b) (qw b) (perm b)).

(** pathfinder.hpp:722-745 *)
Definition prepare_serial (e : env) (nbrs : list nat) (wbd : Z) (em : emb) (u : nat) (b : search) : res search :=
  let! t := prepare_distances (pb e) (total b) u in
  let! b := compute_qubit_weights e em (set_total b t) in
  let! (b, n) := foldM (fun '(b, n) v =>
      let! sz := chainsize em v in
      if decide (sz = 0) then Ok (b, n) else
      let! b := prep_vis (pb e) u v b in
      let! b := compute_distances_from_chain (pb e) em wbd v b in
      let! b := accumulate_at_chain (pb e) em wbd v b in
      let! b := accumulate_dist (pb e) em wbd v b in
      Ok (b, S n)) nbrs (b, 0) in
  if decide (n = 0) then
    let! t := foldM (fun t q =>
        let! w := vget (eweight em) q in
        if decide (wbd <= w)%Z then vset t q max_distance
        else let! x := vget (qw b) q in let! y := vget t q in vset t q (Z.max x y))
      (rev (seq 0 (nq (pb e)))) (total b) in
    Ok (set_total b t)
  else Ok b.

(** pathfinder.hpp:826-857, with the worker threads run one after the other; every other
    schedule gives the same result, see C21 *)
Definition prepare_parallel (e : env) (nbrs : list nat) (wbd : Z) (em : emb) (u : nat) (b : search) : res search :=
  let! b := compute_qubit_weights e em b in
  let! t := prepare_distances (pb e) (total b) u in
  let b := set_total b t in
  let! (b, n) := foldM (fun '(b, n) v =>
      let! sz := chainsize em v in
      if decide (sz = 0) then Ok (b, n) else
      let! b := prep_vis (pb e) u v b in
      let! b := compute_distances_from_chain (pb e) em wbd v b in
      Ok (b, S n)) nbrs (b, 0) in
  let! b := foldM (fun b v => accumulate_at_chain (pb e) em wbd v b) nbrs b in
  let! b := foldM (fun b v =>
      let! sz := chainsize em v in
      if decide (sz = 0) then Ok b else accumulate_dist (pb e) em wbd v b) nbrs b in
  if decide (n = 0) then
    let! t := foldM (fun t q =>
        let! w := vget (eweight em) q in
        if decide (wbd <= w)%Z then vset t q max_distance else Ok t)
      (seq 0 (nq (pb e))) (total b) in
    Ok (set_total b t)
  else Ok b.

Definition prepare_root (e : env) (nbrs : list nat) (wbd : Z) (em : emb) (u : nat) (b : search) : res search :=
  if parallel e then prepare_parallel e nbrs wbd em u b else prepare_serial e nbrs wbd em u b.

(** util.hpp:239-254 *)
Definition collect_minima (l : list Z) : res (list nat) :=
  match l with
  | [] => Err UB
  | x0 :: _ =>
      Ok (foldl (fun '(low, out) '(i, y) =>
             if decide (y = low) then (low, out ++ [i])
             else if decide (y < low)%Z then (y, [i]) else (low, out)) (x0, []) (imap pair l)).2
  end.

(** ** variable neighbours and orders *)

(** embedding_problem.hpp:317-325 *)
Definition nbrs_rndswap (e : env) (s : st) (u : nat) : res (list nat * st) :=
  let! l := vget (vn s) u in
  if decide (2 < length l) then
    let! (i, s) := randint e s (length l - 1) in
    match l !! i, l !! S i with
    | Some a, Some b => let l' := <[S i := a]> (<[i := b]> l) in
                        let! vn' := vset (vn s) u l' in Ok (l', set_vn s vn')
    | _, _ => Err UB
    end
  else if decide (length l = 2) then
    let! (i, s) := randint e s 2 in
    if decide (i = 0) then Ok (l, s)
    else match l with
         | [a; b] => let! vn' := vset (vn s) u [b; a] in Ok ([b; a], set_vn s vn')
         | _ => Err UB
         end
  else Ok (l, s).

(** embedding_problem.hpp:310-313 *)
Definition nbrs_shuffle (e : env) (s : st) (u : nat) : res (list nat * st) :=
  let! l := vget (vn s) u in
  let '(l', pos) := shuffle (rnd e) (rpos s) l in
  let! vn' := vset (vn s) u l' in
  Ok (l', set_rpos (set_vn s vn') pos).

Inductive varorder := VO_SHUFFLE | VO_DFS | VO_BFS | VO_PFS | VO_RPFS | VO_KEEP.

(** embedding_problem.hpp:405-410: unvisited neighbours are marked and appended *)
Definition dfs_push (x : nat) (st : list nat * list Z) (y : nat) : res (list nat * list Z) :=
  let '(new, visited) := st in
  let! s := vget visited y in
  if decide (s = 0%Z) then let! visited := vset visited y 1%Z in Ok (new ++ [y], visited)
  else Ok (new, visited).
(** embedding_problem.hpp:398-415; [front] is the position of the next node to expand *)
Fixpoint dfs_loop (fuel : nat) (rnd : nat -> nat) (nb : list (list nat)) (front : nat)
    (comp : list nat) (visited : list Z) (pos : nat) : res (list nat * list Z * nat) :=
  if decide (length comp <= front) then Ok (comp, visited, pos) else
  match fuel with
  | 0 => Err OOF
  | S fuel =>
      let! x := vget comp front in
      let! l := vget nb x in
      let! (new, visited) := foldM (dfs_push x) l ([], visited) in
      let '(new, pos) := shuffle rnd pos new in
      dfs_loop fuel rnd nb (S front) (comp ++ new) visited pos
  end.
Definition dfs_component (rnd : nat -> nat) (nb : list (list nat)) (x : nat)
    (comp : list nat) (visited : list Z) (pos : nat) : res (list nat * list Z * nat) :=
  let! visited' := vset visited x 1%Z in
  dfs_loop (S (length nb)) rnd nb (length comp) (comp ++ [x]) visited' pos.

(** embedding_problem.hpp:430-436: push an unvisited neighbour with the number of its
    visited neighbours as (negated) priority *)
Definition pfs_push (nb : list (list nat)) (shuffled : list nat) (visited : list Z)
    (pq : list pnode) (y : nat) : res (list pnode) :=
  let! s := vget visited y in
  if decide (s = 0%Z) then
    let! l := vget nb y in
    let! d := foldM (fun d w => let! x := vget visited w in Ok (d - x)%Z) l 0%Z in
    let! t := vget shuffled y in
    Ok (pq ++ [mkNode y t d])
  else Ok pq.
(** embedding_problem.hpp:418-438 *)
Fixpoint pfs_loop (fuel : nat) (better : pnode -> pnode -> bool) (nb : list (list nat)) (shuffled : list nat)
    (pq : list pnode) (comp : list nat) (visited : list Z) : res (list nat * list Z) :=
  match spq_pop better pq with
  | None => Ok (comp, visited)
  | Some (z, pq) =>
      match fuel with
      | 0 => Err OOF
      | S fuel =>
          let! s := vget visited (pnode_id z) in
          if decide (s <> 0%Z) then pfs_loop fuel better nb shuffled pq comp visited else
          let! visited := vset visited (pnode_id z) 1%Z in
          let! l := vget nb (pnode_id z) in
          let! pq := foldM (pfs_push nb shuffled visited) l pq in
          pfs_loop fuel better nb shuffled pq (comp ++ [pnode_id z]) visited
      end
  end.
(** number of entries of the neighbour lists *)
Definition num_arcs (nb : list (list nat)) : nat := foldr (fun l n => length l + n) 0 nb.
Definition pfs_component better (nb : list (list nat)) (shuffled : list nat) (x : nat)
    (comp : list nat) (visited : list Z) : res (list nat * list Z) :=
  let! t := vget shuffled x in
  pfs_loop (S (S (num_arcs nb))) better nb shuffled [mkNode x t 0%Z] comp visited.

(** embedding_problem.hpp:441-461 *)
Definition bfs_push (shuffled : list nat) (d : Z) (st : list pnode * list Z) (y : nat) : res (list pnode * list Z) :=
  let '(pq, visited) := st in
  let! s := vget visited y in
  if decide (s = 0%Z) then
    let! t := vget shuffled y in
    let! visited := vset visited y 1%Z in
    Ok (pq ++ [mkNode y t (d + 1)%Z], visited)
  else Ok (pq, visited).
Fixpoint bfs_loop (fuel : nat) (nb : list (list nat)) (shuffled : list nat)
    (pq : list pnode) (comp : list nat) (visited : list Z) : res (list nat * list Z) :=
  match spq_pop min_better pq with
  | None => Ok (comp, visited)
  | Some (z, pq) =>
      match fuel with
      | 0 => Err OOF
      | S fuel =>
          let! l := vget nb (pnode_id z) in
          let! (pq, visited) := foldM (bfs_push shuffled (pdist z)) l (pq, visited) in
          bfs_loop fuel nb shuffled pq (comp ++ [pnode_id z]) visited
      end
  end.
Definition bfs_component (nb : list (list nat)) (shuffled : list nat) (x : nat)
    (comp : list nat) (visited : list Z) : res (list nat * list Z) :=
  let! t := vget shuffled x in
  let! visited := vset visited x 1%Z in
  bfs_loop (S (S (length nb))) nb shuffled [mkNode x t 0%Z] comp visited.

(** embedding_problem.hpp:359-395 *)
Definition var_order (e : env) (s : st) (o : varorder) : res (list nat * st) :=
  match o with
  | VO_KEEP => Ok (vos s, s)
  | _ =>
      let '(sh, pos) := shuffle (rnd e) (rpos s) (rev (seq 0 (nv (pb e)))) in
      let s := set_rpos s pos in
      match o with
      | VO_SHUFFLE => Ok (sh, set_vos s sh)
      | _ =>
          let visited := replicate (nv (pb e)) 0%Z ++ replicate (nf (pb e)) 1%Z in
          let! (comp, _, pos) := foldM (fun '(comp, visited, pos) v =>
              let! x := vget visited v in
              if decide (x <> 0%Z) then Ok (comp, visited, pos) else
              match o with
              | VO_DFS => dfs_component (rnd e) (vn s) v comp visited pos
              | VO_BFS => let! (c, vs) := bfs_component (vn s) sh v comp visited in Ok (c, vs, pos)
              | VO_RPFS => let! (c, vs) := pfs_component max_better (vn s) sh v comp visited in Ok (c, vs, pos)
              | _ => let! (c, vs) := pfs_component min_better (vn s) sh v comp visited in Ok (c, vs, pos)
              end) sh ([], visited, rpos s) in
          Ok (comp, set_rpos (set_vos s comp) pos)
      end
  end.

(** ** placing chains *)

(** pathfinder.hpp:353-357: swap two rows of the permutation table; equal indices are fine *)
Definition swap_perm (b : search) (u v : nat) : res search :=
  let! pu := vget (perm b) u in
  let! pv := vget (perm b) v in
  let! p := vset (perm b) u pv in
  let! p := vset p v pu in
  Ok (set_perm b p).

(** pathfinder.hpp:347-371 *)
Definition find_chain3 (e : env) (s : st) (em : emb) (u tgt : nat) : res (bool * st * emb) :=
  let! (nbrs, s) := nbrs_rndswap e s u in
  let! s := (if decide (0 < length nbrs) then
      let! (i, s) := randint e s (length nbrs) in
      let! v := vget nbrs i in
      let! b := swap_perm (sr s) u v in
      Ok (set_sr s b)
    else Ok s) in
  let! b := prepare_root e nbrs (wb (md s)) em u (sr s) in
  let s := set_sr s b in
  let! mins := collect_minima (total b) in
  let! (i, s) := randint e s (length mins) in
  let! q0 := vget mins i in
  let! t := vget (total b) q0 in
  if decide (t = max_distance) then Ok (false, s, em) else
  let! em := construct_chain_steiner (vn s) em u q0 (par b) (dist b) (vis b) in
  let! em := flip_back (pb e) (vn s) em u tgt in
  Ok (true, s, em).

(** pathfinder.hpp:423-433: scan the neighbours of a popped qubit *)
Definition short_relax (em : emb) (pm : list nat) (q : nat) (d : Z) (k : work) (p : nat) : res work :=
  let! s := vget (wvis k) p in
  if decide (s <> 0%Z) then Ok k else
  let! vs := vset (wvis k) p 1%Z in
  let! w := vget (eweight em) p in
  if decide (w = 0%Z) then
    let! pr := vset (wpar k) p (Some q) in
    let! t := vget pm p in
    let! pq := q_emplace (wpq k) (mkNode p t d) in
    Ok (mkW pr vs pq)
  else Ok (mkW (wpar k) vs (wpq k)).

(** state of find_short_chain: embedding, parents, distances, visited marks, counts,
    best size so far and the queues *)
Record short := mkShort {
  sh_em : emb; sh_par : list (list (option nat)); sh_dist : list (list Z); sh_vis : list (list Z);
  sh_counts : list Z; sh_best : option nat; sh_pq : list pqueue
}.

(** pathfinder.hpp:410-420: try the popped qubit [q] as a root.  [true] is [goto finish]. *)
Definition short_try (vn : list (list nat)) (u degree stopcheck q : nat) (s : short) : res (bool * short) :=
  let! w := vget (eweight (sh_em s)) q in
  let! counts := (if decide (w = 0%Z) then vadd (sh_counts s) q 1 else Ok (sh_counts s)) in
  let s := mkShort (sh_em s) (sh_par s) (sh_dist s) (sh_vis s) counts (sh_best s) (sh_pq s) in
  let! cq := vget counts q in
  if decide (cq = Z.of_nat degree) then
    let! em := construct_chain_steiner vn (sh_em s) u q (sh_par s) (sh_dist s) (sh_vis s) in
    let! cs := chainsize em u in
    if (match sh_best s with None => true | Some b => bool_decide (cs < b) end) then
      if decide (cs < stopcheck)
      then Ok (true, mkShort em (sh_par s) (sh_dist s) (sh_vis s) counts (Some cs) (sh_pq s))
      else let! (_, em) := freeze_out em u in
           Ok (false, mkShort em (sh_par s) (sh_dist s) (sh_vis s) counts (Some cs) (sh_pq s))
    else let! em := tear_out vn em u in
         Ok (false, mkShort em (sh_par s) (sh_dist s) (sh_vis s) counts (sh_best s) (sh_pq s))
  else Ok (false, s).

(** pathfinder.hpp:402-434: the [while] loop for neighbour [v], the [vi]-th one *)
Fixpoint short_while (fuel : nat) (pb : problem) (vn : list (list nat)) (perm : list (list nat))
    (u degree stopcheck : nat) (D : Z) (vi v : nat) (s : short) : res (bool * short) :=
  let! pq := vget (sh_pq s) vi in
  if q_empty pq then Ok (false, s) else
  let! z := q_top pq in
  if decide (D < pdist z)%Z then Ok (false, s) else
  match fuel with
  | 0 => Err OOF
  | S fuel =>
      let q := pnode_id z in
      let! dv := vget (sh_dist s) v in
      let! dv := vset dv q (pdist z) in
      let! ds := vset (sh_dist s) v dv in
      let! pq := q_pop pq in
      let! pqs := vset (sh_pq s) vi pq in
      let! (fin, s) := short_try vn u degree stopcheck q
          (mkShort (sh_em s) (sh_par s) ds (sh_vis s) (sh_counts s) (sh_best s) pqs) in
      if (fin : bool) then Ok (true, s) else
      let! pv := vget (sh_par s) v in
      let! vv := vget (sh_vis s) v in
      let! pm := vget perm v in
      let! pq := vget (sh_pq s) vi in
      let! vv := vset vv q 1%Z in
      let! nb := vget (qnb pb) q in
      let! k := foldM (short_relax (sh_em s) pm q (pdist z + 1)%Z) nb (mkW pv vv pq) in
      let! par' := vset (sh_par s) v (wpar k) in
      let! vis' := vset (sh_vis s) v (wvis k) in
      let! pqs := vset (sh_pq s) vi (wpq k) in
      short_while fuel pb vn perm u degree stopcheck D vi v
        (mkShort (sh_em s) par' (sh_dist s) vis' (sh_counts s) (sh_best s) pqs)
  end.

(** pathfinder.hpp:394-435: one value of [D] *)
Definition short_level (pb : problem) (vn : list (list nat)) (perm : list (list nat)) (nbrs : list nat)
    (u degree stopcheck : nat) (D : nat) (s : short) : res (bool * short) :=
  foldM (fun '(fin, s) '(vi, v) =>
           if (fin : bool) then Ok (true, s)
           else short_while (S (nq pb)) pb vn perm u degree stopcheck (Z.of_nat D) vi v s)
        (imap pair nbrs) (false, s).

(** pathfinder.hpp:388-392: start the search from neighbour [v] *)
Definition short_init_one (e : env) (em : emb) (u : nat) (st : search * list pqueue) (v : nat)
  : res (search * list pqueue) :=
  let '(b, pqs) := st in
  let! b := prep_vis (pb e) u v b in
  let! pv := vget (par b) v in
  let! vv := vget (vis b) v in
  let! pm := vget (perm b) v in
  let! k := dijkstra_init (pb e) em (qw b) pm true v (mkW pv vv (q_new (nq (pb e)))) in
  let! par' := vset (par b) v (wpar k) in
  let! vis' := vset (vis b) v (wvis k) in
  Ok (set_row b par' vis' (dist b), pqs ++ [wpq k]).

(** pathfinder.hpp:378-440 *)
Definition find_short_chain (e : env) (s : st) (em : emb) (u tgt : nat) : res (st * emb) :=
  let! (last_size, em) := freeze_out em u in
  let counts := replicate (nq (pb e)) 0%Z in
  let! l0 := vget (vn s) u in
  let degree := length l0 in
  let stopcheck := Nat.max last_size tgt in
  let! (nbrs, s) := nbrs_shuffle e s u in
  let! (b, pqs) := foldM (short_init_one e em u) nbrs (set_total (sr s) counts, []) in
  let! (fin, h) := foldM (fun '(fin, h) D =>
        if (fin : bool) then Ok (true, h)
        else short_level (pb e) (vn s) (perm b) nbrs u degree stopcheck D h)
      (seq 0 (S last_size)) (false, mkShort em (par b) (dist b) (vis b) counts None pqs) in
  let s := set_sr s (mkSr (sh_par h) (sh_vis h) (sh_dist h) (sh_counts h) (qw b) (perm b)) in
  let! em := (if (fin : bool) then Ok (sh_em h) else thaw_back (sh_em h) u) in
  let! em := flip_back (pb e) (vn s) em u tgt in
  Ok (s, em).

(** pathfinder.hpp:193-202 *)
Definition find_chain2 (e : env) (s : st) (em : emb) (u : nat) : res (bool * st * emb) :=
  let! em := (if embedded (md s) || desperate (md s) then steal_all (pb e) (vn s) em u else Ok em) in
  if embedded (md s) then
    let! (s, em) := find_short_chain e s em u (target (md s)) in Ok (true, s, em)
  else
    let! em := tear_out (vn s) em u in
    find_chain3 e s em u (target (md s)).

(** ** improvement *)

(** pathfinder.hpp:172-178: compare histograms of equal length from the top *)
Fixpoint hist_less (i : nat) (new old : list Z) : res bool :=
  match i with
  | 0 => Ok false
  | S i =>
      let! x := vget new i in
      let! y := vget old i in
      if decide (x = y) then hist_less i new old else Ok (bool_decide (x < y)%Z)
  end.

(** pathfinder.hpp:142-186 *)
Definition check_improvement (e : env) (s : st) (em : emb) : res (bool * st) :=
  let! (emb_now, tmp) := statistics (pb e) em in
  let better := emb_now && negb (embedded (md s)) in
  let s := if (better : bool) then set_embedded s true else s in
  if (negb emb_now && embedded (md s)) then Ok (false, s) else
  let! minorstat := match last tmp with Some x => Ok x | None => Err UB end in
  let major := (Z.of_nat (length (stats s)) - Z.of_nat (length tmp))%Z in
  let minor := match last (stats s) with None => 0%Z | Some x => (x - minorstat)%Z end in
  let better := better || bool_decide (0 < major)%Z || bool_decide (length (stats s) = 0) in
  let s := if better && embedded (md s) then set_target s (length tmp - 1) else s in
  let better := better || (bool_decide (major = 0%Z) && bool_decide (0 < minor)%Z) in
  let! better := (if negb better && bool_decide (major = 0%Z) && bool_decide (minor = 0%Z)
                  then hist_less (length tmp) tmp (stats s) else Ok better) in
  if (better : bool) then
    let! b := emb_assign (best s) em in
    Ok (true, set_best s b tmp)
  else Ok (false, s).

(** Return value of a pass: -1, -2, or 0/1 *)
Inductive pres := PFail | PStop | PRes (b : bool).

(** pathfinder.hpp:208-221 *)
Definition check_stops (e : env) (s : st) (b : bool) : res (pres * st) :=
  let s' := set_spos s (S (spos s)) in
  match stops e (spos s) with
  | SGo => Ok (PRes b, s')
  | STimeout => Ok (PStop, s')
  | SCancel => if interactive e then Ok (PStop, s') else Err Cancelled
  end.

(** pathfinder.hpp:227-237; [None] is the [return -1] inside the loop *)
Definition initialization_pass (e : env) (s : st) (em : emb) : res (pres * st * emb) :=
  let! (order, s) := var_order e s (if has_restrict e then VO_DFS else VO_PFS) in
  let! (go, s, em) := foldM (fun '(go, s, em) u =>
      if negb (go : bool) then Ok (go, s, em) else
      let! sz := chainsize em u in
      let! keep := (if decide (sz = 0) then Ok false else linked_at (vn s) em u) in
      if (keep : bool) then Ok (true, s, em)
      else find_chain2 e s em u) order (true, s, em) in
  if (go : bool) then let! (r, s) := check_stops e s true in Ok (r, s, em)
  else Ok (PFail, s, em).

(** loop control of the improvement passes *)
Inductive ctl := CGo | CFail | CBreak.

(** pathfinder.hpp:240-250 *)
Definition improve_overfill_pass (e : env) (s : st) (em : emb) : res (pres * st * emb) :=
  let! (order, s) := var_order e s VO_PFS in
  let! (c, imp, s, em) := foldM (fun '(c, imp, s, em) u =>
      match c with
      | CGo =>
          let! (ok, s, em) := find_chain2 e s em u in
          if negb (ok : bool) then Ok (CFail, imp, s, em) else
          let! (b, s) := check_improvement e s em in
          Ok (if embedded (md s) then CBreak else CGo, (imp : bool) || b, s, em)
      | _ => Ok (c, imp, s, em)
      end) order (CGo, false, s, em) in
  match c with
  | CFail => Ok (PFail, s, em)
  | _ => let! (r, s) := check_stops e s imp in Ok (r, s, em)
  end.

(** pathfinder.hpp:262-263: [maxfill] *)
Definition max_fill_of (em : emb) (u : nat) : res Z :=
  let! c := vget (chains em) u in
  foldM (fun m q => let! w := vget (eweight em) q in Ok (Z.max m w)) (cqubits c) 0%Z.

(** pathfinder.hpp:258-283: one variable of the pushdown pass *)
Definition pushdown_one (e : env) (oldbound : Z) (s : st) (em : emb) (u : nat) : res (bool * st * emb) :=
  if decide (pushb s < Z.of_nat (nv (pb e)))%Z then
    let! em := steal_all (pb e) (vn s) em u in
    let! mf := max_fill_of em u in
    let s := set_wb s (Z.max 0 mf) in
    let! (_, em) := freeze_out em u in
    let! (ok, s, em) := find_chain3 e s em u 0 in
    if (ok : bool) then Ok (true, s, em) else
    let s := set_pushb s (pushb s + 3)%Z in
    let! em := thaw_back em u in
    let! em := flip_back (pb e) (vn s) em u 0 in
    Ok (true, s, em)
  else
    let s := set_wb s oldbound in
    let! em := steal_all (pb e) (vn s) em u in
    let! em := tear_out (vn s) em u in
    find_chain3 e s em u 0.

(** pathfinder.hpp:254-288.  [inner_rounds] is positive here: the caller's loop runs. *)
Definition pushdown_overfill_pass (e : env) (s : st) (em : emb) : res (pres * st * emb) :=
  let oldbound := wb (md s) in
  let! (order, s) := var_order e s VO_SHUFFLE in
  let! (c, imp, s, em) := foldM (fun '(c, imp, s, em) u =>
      match c with
      | CGo =>
          let! (ok, s, em) := pushdown_one e oldbound s em u in
          if negb (ok : bool) then Ok (CFail, imp, s, em) else
          let! (b, s) := check_improvement e s em in
          Ok (if embedded (md s) then CBreak else CGo, (imp : bool) || b, s, em)
      | _ => Ok (c, imp, s, em)
      end) order (CGo, false, s, em) in
  match c with
  | CFail => Ok (PFail, s, em)
  | _ =>
      let s := set_wb s oldbound in
      let s := if negb imp then set_pushb s (pushb s + Z.of_nat (nv (pb e)) * 2 / Z.of_nat (inner_rounds e))%Z else s in
      let! (r, s) := check_stops e s imp in Ok (r, s, em)
  end.

(** pathfinder.hpp:292-303.  [qubit_permutations[0]] of an empty table is UB. *)
Definition improve_chainlength_pass (e : env) (s : st) (em : emb) : res (pres * st * emb) :=
  let! p0 := vget (perm (sr s)) 0 in
  let '(p0, pos) := shuffle (rnd e) (rpos s) p0 in
  let s := set_rpos (set_sr s (set_perm (sr s) (replicate (length (perm (sr s))) p0))) pos in
  let! (order, s) := var_order e s (if improved (md s) then VO_KEEP else VO_PFS) in
  let! (go, imp, s, em) := foldM (fun '(go, imp, s, em) u =>
      if negb (go : bool) then Ok (go, imp, s, em) else
      let! (ok, s, em) := find_chain2 e s em u in
      if negb (ok : bool) then Ok (false, imp, s, em) else
      let! (b, s) := check_improvement e s em in
      Ok (true, (imp : bool) || b, s, em)) order (true, false, s, em) in
  if (go : bool) then let! (r, s) := check_stops e s imp in Ok (r, s, em)
  else Ok (PFail, s, em).

(** [best_stats.back()], evaluated for the log messages at pathfinder.hpp:622 and 690; UB on an
    empty vector *)
Definition stats_back (s : st) : res Z := match last (stats s) with Some x => Ok x | None => Err UB end.

(** pathfinder.hpp:620-655: the rounds of one trial.  [rp] and [ip] are the patience
    counters after the loop-head tests; returns the final improvement patience. *)
Fixpoint rounds (e : env) (rp : nat) (last_trial : bool) (ip : nat) (s : st) (em : emb) : res (nat * st * emb) :=
  match rp with
  | 0 => Ok (ip, s, em)
  | S rp =>
      if decide (ip = 0) then Ok (ip, s, em)
      else if embedded (md s) then Ok (ip, s, em)
      else
        let! _ := stats_back s in
        let s := set_desperate s (bool_decide (ip <= 1) || last_trial || bool_decide (rp = 0)) in
        let! (r, s, em) := (if decide (pushb s < Z.of_nat (nv (pb e)))%Z
            then pushdown_overfill_pass e s em
            else improve_overfill_pass e (set_pushb s (pushb s - 1)%Z) em) in
        match r with
        | PStop => rounds e rp last_trial 0 s em
        | PFail => let! em := emb_assign em (best s) in
                   rounds e rp last_trial (ip - 1) (set_improved s false) em
        | PRes false => rounds e rp last_trial (ip - 1) (set_improved s false) em
        | PRes true => rounds e rp last_trial (max_no_improvement e) (set_improved (set_pushb s 0%Z) true) em
        end
  end.

(** pathfinder.hpp:614-675: the trials; [init] is [initEmbedding] *)
Fixpoint trials (e : env) (init : emb) (tp : nat) (s : st) (em : emb) : res (st * emb) :=
  match tp with
  | 0 => Ok (s, em)
  | S tp =>
      if embedded (md s) then Ok (s, em) else
      let s := set_pushb s 0%Z in
      let! (ip, s, em) := rounds e (inner_rounds e) (bool_decide (tp = 0)) (max_no_improvement e) s em in
      if decide (tp <> 0 /\ embedded (md s) = false /\ ip = 0) then
        let s := set_pushb (set_desperate s false) 0%Z in
        let! em := emb_assign em init in
        let! (r, s, em) := initialization_pass e s em in
        match r with
        | PStop => Ok (s, em)   (* trial_patience = 0 *)
        | PFail => let! em := emb_assign em (best s) in trials e init tp s em
        | PRes _ =>
            let! (_, s) := check_improvement e (set_best s (best s) []) em in
            trials e init tp s em
        end
      else trials e init tp s em
  end.

(** pathfinder.hpp:683-702: chain-length improvement; [ip] is the patience *)
Fixpoint chainlen_loop (fuel : nat) (e : env) (ip : nat) (s : st) (em last : emb) : res (st * emb * emb) :=
  if decide (ip = 0) then Ok (s, em, last) else
  match fuel with
  | 0 => Err OOF
  | S fuel =>
      let! last := emb_assign last em in
      let! _ := stats_back s in
      let s := set_desperate s (bool_decide (ip = 1)) in
      let! (r, s, em) := improve_chainlength_pass e s em in
      match r with
      | PFail => let! em := emb_assign em last in chainlen_loop fuel e (ip - 1) s em last
      | PStop => Ok (s, em, last)
      | PRes false => chainlen_loop fuel e (ip - 1) (set_improved s false) em last
      | PRes true => chainlen_loop fuel e (chainlength_patience e) (set_improved s true) em last
      end
  end.

(** embedding_problem.hpp:253-263: [reset_mood] *)
Definition reset_mood (e : env) (s : st) : st := set_md s (mkMood false false false 0 (wbound0 e)).

(** pathfinder.hpp:588-705.  [curr] and [last] are the member embeddings. *)
Definition heuristic_embedding (e : env) (init : emb) (s : st) (curr last : emb) : res (bool * st * emb * emb) :=
  let s := reset_mood e s in
  let! (go, s, curr) := (if skip_init e then
      let! b := linked (pb e) (vn s) init in
      if (b : bool) then let! curr := emb_assign curr init in Ok (true, s, curr) else Err BadInit
    else
      let! curr := emb_assign curr init in
      let! (r, s, curr) := initialization_pass e s curr in
      match r with
      | PStop => Ok (false, s, curr)
      | PFail => Err BadInit
      | PRes _ => Ok (true, s, curr)
      end) in
  if negb (go : bool) then Ok (false, s, curr, last) else
      let s := set_best s (best s) [] in
      let! (_, s) := check_improvement e s curr in
      let s := set_improved s true in
      let! curr := emb_assign curr (best s) in
      let! (s, curr) := trials e init (tries e) s curr in
      if embedded (md s) && bool_decide (chainlength_patience e <> 0) then
        let s := set_wb s 1 in
        let! curr := emb_assign curr (best s) in
        let! (s, curr, last) := chainlen_loop (chain_fuel e) e (chainlength_patience e) s curr last in
        Ok (embedded (md s), s, curr, last)
      else Ok (embedded (md s), s, curr, last).

(** pathfinder.hpp:105-132: the permutation table has [nv + nr] rows, each shuffled from the
    previous one *)
Fixpoint perm_table (rnd : nat -> nat) (n pos : nat) (p : list nat) : list (list nat) * nat :=
  match n with
  | 0 => ([], pos)
  | S n => let '(p', pos) := shuffle rnd pos p in
           let '(t, pos) := perm_table rnd n pos p' in (p' :: t, pos)
  end.

Definition pathfinder_new (e : env) (vn : list (list nat)) : st :=
  let p := pb e in
  let '(t, pos) := perm_table (rnd e) (nv p + nr p) 0 (seq 0 (nq p)) in
  mkSt vn (replicate (nv p) 0)
    (mkSr (replicate (nv p + nf p) (replicate (nq p + nr p) (Some 0)))
          (replicate (nv p + nf p) (replicate (nq p) 0%Z))
          (replicate (nv p + nf p) (replicate (nq p + nr p) 0%Z))
          (replicate (nq p) 0%Z) (replicate (nq p) 0%Z) t)
    (mkMood false false false 0 (wbound0 e)) (emb_new p) [] 0%Z pos 0.

(** pathfinder.hpp:555-566: does the chain of [u] use a qubit twice? *)
Definition overlaps (em : emb) (u : nat) : res bool :=
  let! c := vget (chains em) u in
  foldM (fun b q => let! w := vget (eweight em) q in Ok ((b : bool) || bool_decide (1 < w)%Z)) (cqubits c) false.

(** pathfinder.hpp:544-585, one variable *)
Definition quick_one (e : env) (clb : nat) (local_search : bool) (s : st) (u : nat) : res st :=
  let em := best s in
  let! lastsize := chainsize em u in
  let! (em, lastsize) := (if decide (lastsize = 0) then Ok (em, lastsize)
     else let! em := steal_all (pb e) (vn s) em u in let! n := chainsize em u in Ok (em, n)) in
  let! ls := (if local_search && bool_decide (lastsize <> 0)
              then let! o := overlaps em u in Ok (negb o) else Ok local_search) in
  let! (got, s, em) := (if (ls : bool) then let! (s, em) := find_short_chain e s em u clb in Ok (true, s, em)
     else let! em := (if decide (lastsize = 0) then Ok em else tear_out (vn s) em u) in
          find_chain3 e s em u clb) in
  let! em := (if (got : bool) then
       let! n := chainsize em u in
       if decide (0 < clb /\ clb < n) then
         let! em := steal_all (pb e) (vn s) em u in tear_out (vn s) em u
       else Ok em
     else Ok em) in
  Ok (set_best s em (stats s)).

(** pathfinder.hpp:544-585; negative chain length bounds are not
    modelled, and the effect of [round_beta] is part of [wtab]: two calls with different
    [round_beta] are calls with different [e] *)
Definition quick_pass (e : env) (init : emb) (order : list nat) (clb : nat) (overlap : Z)
    (local_search clear_first : bool) (s : st) : res st :=
  let old := wb (md s) in
  let s := set_wb s (1 + overlap)%Z in
  let! s := (if (clear_first : bool) then let! b := emb_assign (best s) init in Ok (set_best s b (stats s)) else Ok s) in
  let! s := foldM (quick_one e clb local_search) order s in
  Ok (set_wb s old).

(** pathfinder.hpp:532-542 *)
Definition quick_pass_order (e : env) (init : emb) (o : varorder) (clb : nat) (overlap : Z)
    (local_search clear_first : bool) (s : st) : res st :=
  let! (order, s) := var_order e s o in
  match order with [] => Err BadInit | _ => quick_pass e init order clb overlap local_search clear_first s end.
