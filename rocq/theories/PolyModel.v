(** Model of minorminer/utils/polynomialembedder.py.  A Python exception is [Err BadInit].  Qubits are
    tuples (x, y, u, k).  The random numbers are given by functions of the number of draws so far
    ([rnd], [shuf]); the iteration order of sets by [ord].  [random_processor] is not modelled. *)
From stdpp Require Import base list numbers gmap.
From Verif Require Import Base NxModel PyCacheModel.

Notation cq := (nat * nat * bool * nat)%type.
Notation rect := (Z * Z * Z * Z)%type.
#[global] Instance rect_eq_dec : EqDecision rect := _.

(** ** Coordinates *)
(** 1173-1176 [_to_linear] and 1168-1170 [_bulk_to_linear] *)
Definition poly_to_linear (N L : nat) (q : cq) : nat :=
  let '(x, y, u, k) := q in 2 * L * N * x + 2 * L * y + L * (if u then 1 else 0) + k.
(** 1184-1186 [_to_chimera]; the coordinate u is true for 1 *)
Definition poly_to_chimera (N L : nat) (q : nat) : cq :=
  (q / N / L / 2, (q / L / 2) mod N, (q / L) mod 2 =? 1, q mod L).

(** ** class eden_processor *)
(** 134-175: the couplers *)
Record eden := mkEden { ed_M : nat; ed_N : nat; ed_L : nat; ed_edges : list (cq * cq) }.
Definition has_qubit (P : eden) (q : cq) : bool := bool_decide (q ∈ (ed_edges P).*1 \/ q ∈ (ed_edges P).*2).
Definition has_coupler (P : eden) (p q : cq) : bool := bool_decide ((p, q) ∈ ed_edges P \/ (q, p) ∈ ed_edges P).

(** 195-217 [_compute_vline_scores], 219-241 [_compute_hline_scores], for one line (x, k) with the qubits
    [pres 0], [pres 1], ... and the couplers [link y] to the preceding qubit.  The lines do not depend on
    each other, so that the loop over k is outside here.  [laststart] after round [y]: *)
Fixpoint last_start (pres link : nat -> bool) (y : nat) : option nat :=
  if negb (pres y) then None else
  match y with
  | 0 => Some 0
  | S y' =>
    match last_start pres link y' with
    | None => Some y
    | Some s => if link y then Some s else Some y
    end
  end.
(** whether round [y] adds 1 to [block[y1]] *)
Definition adds (pres link : nat -> bool) (y y1 : nat) : bool :=
  if negb (pres y) then false else
  match y with
  | 0 => y1 =? 0
  | S y' =>
    match last_start pres link y' with
    | None => y1 =? y
    | Some s => if link y then (s <=? y1) && (y1 <=? y) else false
    end
  end.
Definition line_score (L : nat) (pres link : nat -> nat -> bool) (y1 y : nat) : nat :=
  length (filter (fun k => adds (pres k) (link k) y y1 = true) (seq 0 L)).
(** 177-184 [vline_score], 186-193 [hline_score]; the dicts have keys for all intervals in range *)
Definition vline_score (P : eden) (x ymin ymax : Z) : res nat :=
  if ((0 <=? x) && (x <? Z.of_nat (ed_M P)) && (0 <=? ymin) && (ymin <=? ymax) && (ymax <? Z.of_nat (ed_N P)))%Z then
    Ok (line_score (ed_L P) (fun k y => has_qubit P (Z.to_nat x, y, true, k))
          (fun k y => has_coupler P (Z.to_nat x, pred y, true, k) (Z.to_nat x, y, true, k)) (Z.to_nat ymin) (Z.to_nat ymax))
  else Err BadInit.
Definition hline_score (P : eden) (y xmin xmax : Z) : res nat :=
  if ((0 <=? y) && (y <? Z.of_nat (ed_N P)) && (0 <=? xmin) && (xmin <=? xmax) && (xmax <? Z.of_nat (ed_M P)))%Z then
    Ok (line_score (ed_L P) (fun k x => has_qubit P (x, Z.to_nat y, false, k))
          (fun k x => has_coupler P (pred x, Z.to_nat y, false, k) (x, Z.to_nat y, false, k)) (Z.to_nat xmin) (Z.to_nat xmax))
  else Err BadInit.

(** 357, 371: the numbers from [a] to [b], both included, in steps of 1 or -1 *)
Definition walk (a b : Z) : list Z :=
  if (a <=? b)%Z then seqZ a (b - a + 1) else reverse (seqZ b (a - b + 1)).
(** 329-344 [_contains_line] *)
Definition contains_line (P : eden) (line : list cq) : bool :=
  forallb (has_qubit P) line && forallb (fun e => has_coupler P e.1 e.2) (zip line (tail line)).
(** 346-359 [maximum_vline_bundle], 361-373 [maximum_hline_bundle] *)
Definition vline_bundle (P : eden) (x0 y0 y1 : Z) : list (list cq) :=
  filter (fun l => contains_line P l = true) ((fun k => (fun y => (Z.to_nat x0, Z.to_nat y, true, k)) <$> walk y1 y0) <$> seq 0 (ed_L P)).
Definition hline_bundle (P : eden) (y0 x0 x1 : Z) : list (list cq) :=
  filter (fun l => contains_line P l = true) ((fun k => (fun x => (Z.to_nat x, Z.to_nat y0, false, k)) <$> walk x0 x1) <$> seq 0 (ed_L P)).

Section random.
  (** a draw, and a shuffle of a list; [random_bundles] *)
  Context (rnd : nat -> nat) (shuf : nat -> list (list cq) -> list (list cq)) (random_bundles : bool).
  (** [randint(1, n)] *)
  Definition randint (g n : nat) : nat * nat := (S (rnd g mod n), S g).
  (** 67-115 [_accumulate_random] *)
  Definition accumulate_random {A} (g count found : nat) (old new : A) : nat * A * nat :=
    let '(r, g) := randint g (count + found) in
    if r <=? found then (count + found, new, g) else (count + found, old, g).

  (** 375-416 [maximum_ell_bundle] *)
  Definition ell_bundle (P : eden) (ell : rect) (g : nat) : list (list cq) * nat :=
    let '(x0, x1, y0, y1) := ell in
    let hlines := hline_bundle P y0 x0 x1 in
    let vlines := vline_bundle P x0 y0 y1 in
    let '(hlines, vlines, g) := if random_bundles then (shuf g hlines, shuf (S g) vlines, S (S g)) else (hlines, vlines, g) in
    (zip_with (fun h v => v ++ h) hlines vlines, g).

  (** 418-436 [_combine_clique_scores] *)
  Definition combine_scores (P : eden) (rscore : option nat) (hbar vbar : Z * Z * Z) : res nat :=
    let '(y0, xmin, xmax) := hbar in
    let '(x0, ymin, ymax) := vbar in
    let rscore := default 0 rscore in
    let! hscore := hline_score P y0 xmin xmax in
    let! vscore := vline_score P x0 ymin ymax in
    Ok (if vscore <? hscore then rscore + vscore else rscore + hscore).

  (** an entry of maxCWR: score, ell, parent, num *)
  Notation entry := (nat * option rect * option rect * nat)%type.
  (** 478-481: the ways to add an ell *)
  Definition steps (P : eden) (R : rect) : list (rect * rect) :=
    let '(xmin, xmax, ymin, ymax) := R in
    X ← [(xmin, xmax, xmin + 1, xmax); (xmax, xmin, xmin, xmax - 1)]%Z;
    Y ← [(ymin - 1, ymax, ymin - 1, ymax); (ymax + 1, ymin, ymin, ymax + 1)]%Z;
    let '(_, _, nymin, nymax) := Y in
    if ((0 <=? nymin) && (nymin <=? nymax) && (nymax <? Z.of_nat (ed_N P)))%Z then [(X, Y)] else [].
  (** 484-499: the loop over the ways *)
  Definition cwr_step (P : eden) (R : rect) (cwr : gmap rect entry) (s : option nat * nat * entry * nat) (XY : rect * rect) :
    res (option nat * nat * entry * nat) :=
    let '(xmin, xmax, ymin, ymax) := R in
    let '(bestscore, count, best, g) := s in
    let '((x0, x1, nxmin, nxmax), (y0, y1, nymin, nymax)) := XY in
    let r := (nxmin, nxmax, nymin, nymax) in
    let '(rscore, nr) := match cwr !! r with Some (rscore, _, _, nr) => (Some rscore, nr) | None => (None, 1) end in
    let! score := combine_scores P rscore (y0, xmin, xmax) (x0, nymin, nymax) in
    let '(bestscore, count) :=
      match bestscore with
      | None => (score, 0)
      | Some b => if b <? score then (score, 0) else (b, count)
      end in
    if score =? bestscore then
      let '(count, best, g) := accumulate_random g count nr best (score, Some (x0, x1, y0, y1), Some r, nr) in
      Ok (Some bestscore, count, best, g)
    else Ok (Some bestscore, count, best, g).
  (** 438-501 [maxCliqueWithRectangle] *)
  Definition max_clique_with_rectangle (P : eden) (R : rect) (cwr : gmap rect entry) (g : nat) : res (option nat * entry * nat) :=
    let! s := foldM (cwr_step P R cwr) (steps P R) (None, 0, (0, None, None, 1), g) in
    let '(bestscore, _, best, g) := s in
    Ok (bestscore, best, g).

  (** 529-535: the rectangles in the order of the loops *)
  Definition rectangles (P : eden) (width : nat) : list rect :=
    w ← seqZ 0 (Z.of_nat width + 2);
    let h := (Z.of_nat width - w - 2)%Z in
    ymin ← seqZ 0 (Z.of_nat (ed_N P) - h);
    xmin ← seqZ 0 (Z.of_nat (ed_M P) - w);
    [(xmin, xmin + w, ymin, ymin + h)%Z].
  (** 536-543: one round; the state is maxCWR, maxscore, count and key *)
  Definition native_step (P : eden) (s : gmap rect entry * option nat * nat * option rect * nat) (R : rect) :
    res (gmap rect entry * option nat * nat * option rect * nat) :=
    let '(cwr, maxscore, count, key, g) := s in
    let! b := max_clique_with_rectangle P R cwr g in
    let '(score, best, g) := b in
    let cwr := <[R := best]> cwr in
    let '(maxscore, count, key) :=
      match maxscore, score with
      | None, _ => (score, 0, None)
      | Some m, Some sc => if m <? sc then (score, 0, None) else (maxscore, count, key)
      | Some m, None => (maxscore, count, key)
      end in
    if bool_decide (maxscore = score) then
      let '(count, key, g) := accumulate_random g count best.2 key (Some R) in
      Ok (cwr, maxscore, count, key, g)
    else Ok (cwr, maxscore, count, key, g).
  (** 545-550: the loop that collects the chains *)
  Fixpoint collect (fuel : nat) (P : eden) (cwr : gmap rect entry) (key : option rect) (clique : list (list cq)) (g : nat) : res (list (list cq) * nat) :=
    match key ≫= (cwr !!.) with
    | None => Ok (clique, g)
    | Some (_, ell, key, _) =>
      match fuel with
      | 0 => Err OOF
      | S fuel =>
        match ell with
        | None => collect fuel P cwr key clique g
        | Some ell => let '(meb, g) := ell_bundle P ell g in collect fuel P cwr key (clique ++ meb) g
        end
      end
    end.
  (** 503-551 [nativeCliqueEmbed] *)
  Definition native_clique_embed (P : eden) (width g : nat) : res (option nat * list (list cq) * nat) :=
    let! s := foldM (native_step P) (rectangles P width) (∅, None, 0, None, g) in
    let '(cwr, maxscore, _, key, g) := s in
    let! c := collect (width + 3) P cwr key [] g in
    Ok (maxscore, c.1, c.2).

  (** 553-587 [largestNativeClique]; comparing None with a number is a TypeError *)
  Definition largest_native_clique (P : eden) (max_chain_length : option nat) (g : nat) : res (option nat * list (list cq) * nat) :=
    foldM (fun s w =>
      let '(bestscore, bigclique, g) := s in
      let! r := native_clique_embed P w g in
      let '(score, clique, g) := r in
      match bestscore, score with
      | None, _ => Ok (score, clique, g)
      | Some b, None => Err BadInit
      | Some b, Some sc => if b <? sc then Ok (score, clique, g) else Ok (bestscore, bigclique, g)
      end) (seq 0 (match max_chain_length with None => S (ed_M P `min` ed_N P) | Some l => l end)) (None, [], g).
  (** 589-613 [tightestNativeClique] *)
  Fixpoint tightest_loop (P : eden) (n : nat) (ws : list nat) (g : nat) : res (option nat * list (list cq) * nat) :=
    match ws with
    | [] => Ok (None, [], g)
    | w :: ws =>
      let! r := native_clique_embed P w g in
      let '(score, clique, g) := r in
      if n <=? length clique then Ok (score, take n clique, g) else tightest_loop P n ws g
    end.
  Definition tightest_native_clique (P : eden) (n g : nat) : res (option nat * list (list cq) * nat) :=
    tightest_loop P n (seq 1 (ed_M P `min` ed_N P)) g.
End random.

(** *** Bicliques *)
(** 271-296 [biclique_size]: the two sums (the cache is left out); [ny] is the number of further rows *)
Fixpoint hscore_sum (P : eden) (xmin xmax ymin : Z) (ny : nat) : res nat :=
  let! h := hline_score P ymin xmin xmax in
  match ny with
  | 0 => Ok h
  | S ny => let! h' := hscore_sum P xmin xmax (ymin + 1)%Z ny in Ok (h + h')
  end.
Fixpoint vscore_sum (P : eden) (xmin ymin ymax : Z) (nx : nat) : res nat :=
  let! v := vline_score P xmin ymin ymax in
  match nx with
  | 0 => Ok v
  | S nx => let! v' := vscore_sum P (xmin + 1)%Z ymin ymax nx in Ok (v + v')
  end.
Definition biclique_size (P : eden) (R : rect) : res (nat * nat) :=
  let '(xmin, xmax, ymin, ymax) := R in
  let! h := hscore_sum P xmin xmax ymin (Z.to_nat (ymax - ymin)) in
  let! v := vscore_sum P xmin ymin ymax (Z.to_nat (xmax - xmin)) in
  Ok (h, v).
(** 298-326 [biclique] *)
Definition biclique (P : eden) (R : rect) : list (list cq) * list (list cq) :=
  let '(xmin, xmax, ymin, ymax) := R in
  (y ← seqZ ymin (ymax + 1 - ymin); hline_bundle P y xmin xmax, x ← seqZ xmin (xmax + 1 - xmin); vline_bundle P x ymin ymax).

(** 243-269 [_compute_biclique_sizes]: the dict [_biclique_size_to_length] *)
Notation size_dict := (list ((nat * nat) * list ((nat * nat) * rect))).
Definition all_rects (P : eden) : list rect :=
  xmax ← seqZ 0 (Z.of_nat (ed_M P)); xmin ← seqZ 0 (xmax + 1); ymax ← seqZ 0 (Z.of_nat (ed_N P)); ymin ← seqZ 0 (ymax + 1);
  [(xmin, xmax, ymin, ymax)].
Definition rect_lengths (R : rect) : nat * nat :=
  let '(xmin, xmax, ymin, ymax) := R in (Z.to_nat (xmax - xmin + 1), Z.to_nat (ymax - ymin + 1)).
Definition size_to_length (P : eden) : res size_dict :=
  foldM (fun d R => let! ab := biclique_size P R in
                    Ok (dstore d ab (dstore (default [] (dlookup d ab)) (rect_lengths R) R))) (all_rects P) [].

(** 658-660 and 733-736 [acceptable_chains] *)
Definition acceptable (max_chain_length imbalance : nat) (ab : nat * nat) : bool :=
  (ab.1 <=? max_chain_length) && (ab.2 <=? max_chain_length) && ((ab.1 - ab.2) + (ab.2 - ab.1) <=? imbalance).
(** [a < b] for pairs *)
Definition pair_lt (a b : nat * nat) : bool := (a.1 <? b.1) || ((a.1 =? b.1) && (a.2 <? b.2)).
Definition sortedpair (k : nat * nat) : nat * nat := (k.1 `min` k.2, k.1 `max` k.2).
Definition largefirst (k : nat * nat) : nat * nat := (k.1 `max` k.2, k.1 `min` k.2).
(** 671-675 and 749-754: the loops for the shortest chains; the state is best_ab, best_r and best_mn *)
Definition shortest (acc : nat * nat -> bool) (mn : nat * nat) (s : (nat * nat) * option (rect * (nat * nat))) (e : (nat * nat) * rect) :
  (nat * nat) * option (rect * (nat * nat)) :=
  let ab := largefirst e.1 in
  if acc ab && pair_lt ab s.1 then (ab, Some (e.2, mn)) else s.
Section order.
  (** the iteration order of a set of sizes *)
  Context (ord : list (nat * nat) -> list (nat * nat)).
  (** 615-679 [largestNativeBiClique]: the sizes of the biclique, and the two sides; [max] of an empty set is
      a ValueError *)
  Definition largest_native_biclique (P : eden) (imbalance max_chain_length : option nat) : res ((nat * nat) * (list (list cq) * list (list cq))) :=
    let! d := size_to_length P in
    let overkill := ed_M P + ed_N P in
    let acc := acceptable (default overkill max_chain_length) (default overkill imbalance) in
    let feasible := ord ((filter (fun e : (nat * nat) * list ((nat * nat) * rect) => existsb acc e.2.*1 = true) d).*1) in
    match feasible with
    | [] => Err BadInit
    | f :: fs =>
      let '(m, n) := foldl (fun b e => if pair_lt (sortedpair b) (sortedpair e) then e else b) f fs in
      let mns := ord (filter (fun mn => mn ∈ feasible) (if m =? n then [(m, n)] else [(m, n); (n, m)])) in
      let best := foldl (fun s mn => foldl (shortest acc mn) s (default [] (dlookup d mn))) ((overkill, overkill), None) mns in
      match best.2 with
      | None => Err BadInit
      | Some (r, _) => let! sz := biclique_size P r in Ok (sortedpair sz, biclique P r)
      end
    end.
  (** 681-764 [tightestNativeBiClique] *)
  Definition tightest_native_biclique (P : eden) (n : nat) (m imbalance max_chain_length : option nat) :
    res (option ((nat * nat) * (list (list cq) * list (list cq)))) :=
    let m := default n m in
    let! d := size_to_length P in
    let overkill := ed_M P + ed_N P + 1 in
    let acc := acceptable (default overkill max_chain_length) (default overkill imbalance) in
    let fits (t : nat * nat) := ((m <=? t.1) && (n <=? t.2)) || ((n <=? t.1) && (m <=? t.2)) in
    let feasible := ord ((filter (fun e : (nat * nat) * list ((nat * nat) * rect) => fits e.1 && existsb acc e.2.*1 = true) d).*1) in
    let best := foldl (fun s mn => foldl (shortest acc mn) s (default [] (dlookup d mn))) ((overkill, overkill), None) feasible in
    match best.2 with
    | None => Ok None
    | Some (r, (best_m, best_n)) =>
      let! sz := biclique_size P r in
      let b := biclique P r in
      Ok (Some (sz, if (m <=? best_m) && (n <=? best_n) then (take n b.2, take m b.1) else (take n b.1, take m b.2)))
    end.
End order.

(** ** class processor (with linear=True) *)
(** 784-815; M, N and L are positive *)
Record proc := mkProc { pr_M : nat; pr_N : nat; pr_L : nat; pr_limit : nat; pr_edges : list (cq * cq) }.
Definition make_proc (M N L limit : nat) (edges : list (nat * nat)) : proc :=
  mkProc M N L limit ((fun e => (poly_to_chimera N L e.1, poly_to_chimera N L e.2)) <$> edges).
(** 833-841 [_subprocessor] *)
Definition subprocessor (p : proc) (D : gset cq) : eden :=
  mkEden (pr_M p) (pr_N p) (pr_L p) (filter (fun e => e.1 ∉ D /\ e.2 ∉ D) (pr_edges p)).
(** 972-990 [_find_evil] *)
Definition find_evil (p : proc) : list (cq * cq) :=
  let P := mkEden (pr_M p) (pr_N p) (pr_L p) (pr_edges p) in
  x ← seq 0 (pr_M p); y ← seq 0 (pr_N p); u ← seq 0 (pr_L p); v ← seq 0 (pr_L p);
  let a := (x, y, false, u) in let b := (x, y, true, v) in
  if has_qubit P a && has_qubit P b && negb (has_coupler P a b) then [(a, b)] else [].
(** 821 [map(set, product( *self._evil))] *)
Fixpoint choices (evil : list (cq * cq)) : list (gset cq) :=
  match evil with
  | [] => [∅]
  | e :: evil => q ← [e.1; e.2]; D ← choices evil; [{[q]} ∪ D]
  end.
(** 822-830: [newmin], or None for [break] *)
Fixpoint keep_minimal (D : gset cq) (l : list (gset cq)) : option (list (gset cq)) :=
  match l with
  | [] => Some []
  | s :: l =>
    if decide (s ⊂ D) then None else
    if decide (D ⊂ s) then keep_minimal D l else (s ::.) <$> keep_minimal D l
  end.
(** 817-831 [_compute_all_deletions] *)
Definition all_deletions (evil : list (cq * cq)) : list (gset cq) :=
  foldl (fun mins D => match keep_minimal D mins with Some l => l ++ [D] | None => mins end) [] (choices evil).
(** 855-869 [_random_subprocessor]: [pick e] is true for the first qubit *)
Definition random_deletion (pick : cq * cq -> bool) (evil : list (cq * cq)) : gset cq :=
  foldl (fun D (e : cq * cq) => if decide (e.1 ∈ D \/ e.2 ∈ D) then D else {[if pick e then e.1 else e.2]} ∪ D) ∅ evil.
(** 843-853 [_compute_deletions] and 871-894 [_random_subprocessors]; the draws are given by [samp] (the list
    [sample] returns) and [picks] *)
Definition subprocessors (samp : nat -> list (gset cq) -> list (gset cq)) (picks : nat -> cq * cq -> bool) (p : proc) : list eden :=
  let evil := find_evil p in
  if 2 ^ length evil <=? pr_limit p then subprocessor p <$> all_deletions evil
  else if 2 ^ length evil <=? 8 * pr_limit p then
    let deletions := all_deletions evil in
    subprocessor p <$> (if pr_limit p <? length deletions then samp (pr_limit p) deletions else deletions)
  else (fun i => subprocessor p (random_deletion (picks i) evil)) <$> seq 0 (pr_limit p).
(** 896-918 [_map_to_processors]; [next] of an empty iterator raises *)
Definition map_to_processors {B} (ps : list eden) (f : eden -> nat -> res (B * nat)) (better : B -> B -> bool) (g : nat) : res (B * nat) :=
  match ps with
  | [] => Err BadInit
  | p :: ps =>
    let! b := f p g in
    foldM (fun (s : B * nat) p => let! x := f p s.2 in Ok (if better s.1 x.1 then x.1 else s.1, x.2)) ps b
  end.
(** 920-936 [_objective_bestscore]: true if the new one is better *)
Definition better_score {S T} (lt : S -> S -> bool) (old new : option S * T) : bool :=
  match old.1, new.1 with
  | None, _ => true
  | Some _, None => false
  | Some o, Some n => lt o n
  end.
(** 938-970 [_objective_qubitcount], for cliques and for pairs of sides *)
Definition measure (chains : list (list cq)) : nat := sum_list (length <$> chains).
Definition fewer_qubits (old new : option nat * list (list cq)) : bool :=
  match old.1, new.1 with
  | None, _ => true
  | Some _, None => false
  | _, _ => match new.2, old.2 with [], _ => false | _, [] => true | n, o => measure n <? measure o end
  end.
Definition fewer_qubits2 (old new : option ((nat * nat) * (list (list cq) * list (list cq)))) : bool :=
  match old, new with
  | None, _ => true
  | Some _, None => false
  | Some (_, o), Some (_, n) => measure n.1 + measure n.2 <? measure o.1 + measure o.2
  end.
(** 1159-1165 [_translate] *)
Definition translate (p : proc) (emb : list (list cq)) : list (list nat) := map (map (poly_to_linear (pr_N p) (pr_L p))) emb.

Section processor.
  Context (rnd : nat -> nat) (shuf : nat -> list (list cq) -> list (list cq)) (random_bundles : bool)
          (ord : list (nat * nat) -> list (nat * nat))
          (samp : nat -> list (gset cq) -> list (gset cq)) (picks : nat -> cq * cq -> bool).
  (** 1045-1069 [nativeCliqueEmbed] *)
  Definition proc_native (p : proc) (width : nat) : res (list (list nat)) :=
    let! r := map_to_processors (subprocessors samp picks p) (fun P g => native_clique_embed rnd shuf random_bundles P width g) (better_score Nat.ltb) 0 in
    Ok (translate p r.1.2).
  (** 1018-1043 [largestNativeClique] *)
  Definition proc_largest (p : proc) (max_chain_length : option nat) : res (list (list nat)) :=
    let! r := map_to_processors (subprocessors samp picks p) (fun P g => largest_native_clique rnd shuf random_bundles P max_chain_length g) (better_score Nat.ltb) 0 in
    Ok (translate p r.1.2).
  (** 992-1016 [tightestNativeClique] *)
  Definition proc_tightest (p : proc) (n : nat) : res (list (list nat)) :=
    let! r := map_to_processors (subprocessors samp picks p) (fun P g => tightest_native_clique rnd shuf random_bundles P n g) fewer_qubits 0 in
    Ok (translate p r.1.2).
  (** 1071-1105 [largestNativeBiClique] *)
  Definition proc_largest_biclique (p : proc) (imbalance max_chain_length : option nat) : res (list (list nat) * list (list nat)) :=
    let! r := map_to_processors (subprocessors samp picks p)
      (fun P g => let! b := largest_native_biclique ord P imbalance max_chain_length in Ok ((Some b.1, b.2), g)) (better_score pair_lt) 0 in
    Ok (translate p r.1.2.1, translate p r.1.2.2).
  (** 1107-1148 [tightestNativeBiClique] *)
  Definition proc_tightest_biclique (p : proc) (n : nat) (m imbalance max_chain_length : option nat) : res (option (list (list nat) * list (list nat))) :=
    let! r := map_to_processors (subprocessors samp picks p)
      (fun P g => let! b := tightest_native_biclique ord P n m imbalance max_chain_length in Ok (b, g)) fewer_qubits2 0 in
    Ok ((fun b => (translate p b.2.1, translate p b.2.2)) <$> r.1).
End processor.
