(** The clique and biclique caches of minorminer/busclique.pyx, kept in memory: how they are built
    from the lists of embeddings that the C++ code returns, how they answer requests, how they are
    merged, exported and imported.  Not modelled here: the coordinate labels ([relabel] and
    [delabel] are the identity, as [_trivial_relabeler] 764-766), gzip and json, and the files
    (DiskModel.v).  A Python dict is a [gmap] where only its contents matter and a list of pairs
    where its order matters; a failed [dict] or [list] lookup, or [max] of an empty one, is
    [Err BadInit] (the Python exception). *)
From stdpp Require Import base list list_numbers numbers gmap.
From Verif Require Import Base.

Notation pchain := (list nat).
Notation pemb := (list (list nat)).

(** busclique.pyx 46-64 [_num_nodes]: a number or an iterable of labels *)
Inductive labels := Count (n : nat) | Names (l : list nat).
Definition num_nodes (nn : labels) (offset : nat) : nat * list nat :=
  match nn with
  | Count n => (n, seq offset n)
  | Names l => (length l, l)
  end.

(** 678-702: the dict with the entries raw, size and length *)
Record ccache := mkCC { cc_raw : list pemb; cc_size : gmap nat nat; cc_length : gmap nat nat }.
Definition cc_blank : ccache := mkCC [] ∅ ∅.

(** 699-701: the loop for i from maxsize down to 0 *)
Fixpoint fill_sizes (i len : nat) (m : gmap nat nat) : gmap nat nat :=
  let v := default len (m !! i) in
  let m := <[i := v]> m in
  if negb (v =? len) then m else
  match i with 0 => m | S j => fill_sizes j len m end.
(** 695-701: one embedding; the state is the cache and maxsize *)
Definition add_emb (s : ccache * nat) (le : nat * pemb) : ccache * nat :=
  let '(c, maxsize) := s in
  let '(len, emb) := le in
  let maxsize := length emb `max` maxsize in
  (mkCC (cc_raw c ++ [emb]) (fill_sizes maxsize len (cc_size c)) (<[len := len]> (cc_length c)), maxsize).
(** 678-702 [_make_clique_cache] *)
Definition make_clique_cache (embs : list pemb) : ccache :=
  (foldl add_emb (cc_blank, 0) (imap (fun i e => (i, e)) embs)).1.

Definition py_get {A} (o : option A) : res A := match o with Some x => Ok x | None => Err BadInit end.
(** [max(d)] of a dict: its largest key *)
Definition max_key {A} (m : gmap nat A) : res nat :=
  match map_to_list m with
  | [] => Err BadInit
  | l => Ok (max_list (l.*1))
  end.

(** 555-579 [find_clique_embedding]; the dict is given as its list of pairs (the labels are
    distinct) *)
Definition find_clique_embedding (c : ccache) (nn : labels) : res (list (nat * pchain)) :=
  let '(num, nodes) := num_nodes nn 0 in
  match cc_size c !! num with
  | None => Ok []
  | Some key => let! emb := py_get (cc_raw c !! key) in Ok (zip nodes emb)
  end.
Definition enumerated (e : pemb) : list (nat * pchain) := imap (fun i c => (i, c)) e.
(** 512-528 [largest_clique] *)
Definition largest_clique (c : ccache) : res (list (nat * pchain)) :=
  match map_to_list (cc_size c) with
  | [] => Ok []
  | _ => let! k := max_key (cc_size c) in
         let! key := py_get (cc_size c !! k) in
         let! emb := py_get (cc_raw c !! key) in
         Ok (enumerated emb)
  end.
(** 530-553 [largest_clique_by_chainlength] *)
Definition largest_clique_by_chainlength (c : ccache) (chainlength : nat) : res (list (nat * pchain)) :=
  let! m := match map_to_list (cc_length c) with [] => Ok 0 | _ => max_key (cc_length c) end in
  if (0 <? chainlength) && (chainlength <=? m) then
    let! key := py_get (cc_length c !! chainlength) in
    let! emb := py_get (cc_raw c !! key) in
    Ok (enumerated emb)
  else Ok [].

(** Python's [sorted(..., key=len)] is a stable sort: insertion after the chains that are not
    longer *)
Fixpoint ins_len (ch : pchain) (l : pemb) : pemb :=
  match l with
  | [] => [ch]
  | d :: r => if length d <=? length ch then d :: ins_len ch r else ch :: l
  end.
Definition sort_len (e : pemb) : pemb := foldl (fun l ch => ins_len ch l) [] e.

(** 328-344: insert_clique_embedding with direct=True *)
Definition insert_direct (c : ccache) (e : pemb) : res ccache :=
  let emb := sort_len e in
  let key := length (cc_raw c) in
  let raw := cc_raw c ++ [emb] in
  let len := match last emb with Some ch => length ch | None => 0 end in
  let! by_length :=
    match cc_length c !! len with
    | None => Ok (<[len := key]> (cc_length c))
    | Some k => let! old := py_get (raw !! k) in
                Ok (if length old <? length emb then <[len := key]> (cc_length c) else cc_length c)
    end in
  Ok (mkCC raw (<[length emb := key]> (cc_size c)) by_length).

(** [used.setdefault((key, i), len(used))]: [used] as the list of its keys in insertion order, so
    the value of a key is its place *)
Definition use (used : list (nat * bool)) (k : nat * bool) : list (nat * bool) * nat :=
  match list_find (fun x => x = k) used with
  | Some (i, _) => (used, i)
  | None => (used ++ [k], length used)
  end.
(** The quality of the first [i] chains of an embedding: 392-394 minus the length of the chain in
    place [i - 1]; 396-397 a function of the caller *)
Definition quality_of (quality : option (pemb -> Z)) (emb : pemb) (i : nat) : res Z :=
  match i with
  | 0 => Ok 0%Z
  | S j => match quality with
           | None => let! ch := py_get (emb !! j) in Ok (- Z.of_nat (length ch))%Z
           | Some q => Ok (q (take i emb))
           end
  end.
(** 380-404: one size; [false] is the other cache, [true] our own *)
Definition merge_size (quality : option (pemb -> Z)) (other own : ccache)
  (s : list (nat * bool) * gmap nat nat) (i : nat) : res (list (nat * bool) * gmap nat nat) :=
  let! k := match cc_size other !! i, cc_size own !! i with
            | Some key0, None => Ok (key0, false)
            | None, Some key1 => Ok (key1, true)
            | None, None => Err BadInit
            | Some key0, Some key1 =>
                let! e0 := py_get (cc_raw other !! key0) in
                let! e1 := py_get (cc_raw own !! key1) in
                let! qual0 := quality_of quality e0 i in
                let! qual1 := quality_of quality e1 i in
                Ok (if (qual1 <? qual0)%Z then (key0, false) else (key1, true))
            end in
  let '(used, key) := use s.1 k in
  Ok (used, <[i := key]> s.2).
(** 406-423: one chain length *)
Definition merge_length (other own : ccache)
  (s : list (nat * bool) * gmap nat nat) (i : nat) : res (list (nat * bool) * gmap nat nat) :=
  let! k := match cc_length other !! i, cc_length own !! i with
            | Some key0, None => Ok (key0, false)
            | None, Some key1 => Ok (key1, true)
            | None, None => Err BadInit
            | Some key0, Some key1 =>
                let! e0 := py_get (cc_raw other !! key0) in
                let! e1 := py_get (cc_raw own !! key1) in
                Ok (if length e1 <? length e0 then (key0, false) else (key1, true))
            end in
  let '(used, key) := use s.1 k in
  Ok (used, <[i := key]> s.2).
(** [sorted(set(d0).union(d1))] *)
Definition sorted_keys (a b : gmap nat nat) : list nat :=
  filter (fun i => i ∈ (map_to_list a).*1 ++ (map_to_list b).*1) (seq 0 (S (max_list ((map_to_list a).*1 ++ (map_to_list b).*1)))).
(** 352-430 [merge_clique_cache] *)
Definition merge_clique_cache (quality : option (pemb -> Z)) (own other : ccache) : res ccache :=
  let! s := foldM (merge_size quality other own) (sorted_keys (cc_size other) (cc_size own)) ([], ∅) in
  let! l := foldM (merge_length other own) (sorted_keys (cc_length other) (cc_length own)) (s.1, ∅) in
  let! raw := foldM (fun acc k => let! e := py_get (cc_raw (if k.2 : bool then own else other) !! k.1) in Ok (acc ++ [e])) l.1 [] in
  Ok (mkCC raw s.2 l.2).
(** 345-349: insert_clique_embedding with direct=False *)
Definition insert_merge (quality : option (pemb -> Z)) (c : ccache) (e : pemb) : res ccache :=
  let emb := sort_len e in
  let max_length := max_list (length <$> emb) in
  let emb_list := (fun i => filter (fun ch => length ch <= i) emb) <$> seq 0 (S max_length) in
  merge_clique_cache quality c (make_clique_cache emb_list).

(** 235-256 [get_clique_cache], not compressed: sparse=True ... *)
Definition export_sparse (c : ccache) : res (list (nat * pemb)) :=
  foldM (fun acc p => let! e := py_get (cc_raw c !! p.2) in Ok (acc ++ [(p.1, take p.1 e)])) (map_to_list (cc_size c)) [].
(** ... and sparse=False *)
Definition export_dense (c : ccache) : res (list pemb) :=
  let! m := max_key (cc_size c) in
  foldM (fun acc i =>
    match cc_size c !! i with
    | Some k => let! e := py_get (cc_raw c !! k) in Ok (acc ++ [take i e])
    | None => Ok (acc ++ [[]])
    end) (seq 0 m) [].
(** 258-293 [update_clique_cache] of the exported object into the cache [c]; the size of an
    exported pair is not used *)
Definition import_embs (c : ccache) (l : list pemb) : res ccache := foldM insert_direct l c.

(** Bicliques. 724-760: the dict with the entries raw, size and max_side.  [raw] is a list of
    pairs in insertion order; [max_side] has the key None apart. *)
Record bicache := mkBC { bc_raw : list (nat * nat * pemb); bc_size : gmap nat (gmap nat (nat * nat));
                         bc_max : nat; bc_side : gmap nat nat }.
Definition dget {A} (l : list (nat * nat * A)) (k : nat * nat) : option A :=
  snd <$> (list_find (fun x => x.1 = k) l ≫= fun p => Some p.2).
(** assignment to a dict keeps the place of a key that is already there *)
Definition dset {A} (l : list (nat * nat * A)) (k : nat * nat) (v : A) : list (nat * nat * A) :=
  match list_find (fun x => x.1 = k) l with
  | Some (i, _) => <[i := (k, v)]> l
  | None => l ++ [(k, v)]
  end.
Definition len_max (e : pemb) : nat := max_list (length <$> e).
Definition len_min (e : pemb) : nat := match length <$> e with [] => 0 | x :: l => foldl min x l end.
(** 704-722 [_keep_biclique_key]; [chainlength] of a key is computed from the embedding *)
Definition keep_biclique_key (raw : list (nat * nat * pemb)) (key0 key1 : nat * nat) : res bool :=
  if bool_decide (key0 = key1) then Ok true else
  let! e0 := py_get (dget raw key0) in
  let! e1 := py_get (dget raw key1) in
  Ok ((len_max e0 <? len_max e1) || ((len_max e0 =? len_max e1) && (len_min e0 <=? len_min e1))).
(** 744-753: one entry of raw *)
Definition add_key (raw : list (nat * nat * pemb)) (by_size : gmap nat (gmap nat (nat * nat))) (x : nat * nat * pemb)
  : res (gmap nat (gmap nat (nat * nat))) :=
  let key := x.1 in
  let s0 := key.1 `max` key.2 in
  let s1 := key.1 `min` key.2 in
  let row := default ∅ (by_size !! s0) in
  let realkey := default key (row !! s1) in
  let! keep := keep_biclique_key raw realkey key in
  Ok (<[s0 := <[s1 := if keep : bool then realkey else key]> row]> by_size).
(** 724-760 [_make_biclique_cache] *)
Definition make_biclique_cache (embs : list (nat * nat * pemb)) : res bicache :=
  let raw := foldl (fun raw x => match x.2 with [] => raw | _ => dset raw x.1 x.2 end) [] embs in
  let! by_size := foldM (add_key raw) raw ∅ in
  let! mx := max_key by_size in
  let! side := foldM (fun m p => let! k := max_key p.2 in Ok (<[p.1 := k]> m)) (map_to_list by_size) (∅ : gmap nat nat) in
  Ok (mkBC raw by_size mx side).

(** 655-665: the embedding found under [key], handed out *)
Definition hand_out (n m : nat) (NM : list nat) (key : nat * nat) (emb : pemb) : list (nat * pchain) :=
  let emb0 := take key.1 emb in
  let emb1 := drop key.1 emb in
  if (key.1 <=? n) && (key.2 <=? m) then zip NM (take n emb0 ++ emb1) else zip NM (take n emb1 ++ emb0).
(** 652-665: the loop over j; [None]: not found in this row *)
Fixpoint scan_row (c : bicache) (n m : nat) (NM : list nat) (row : gmap nat (nat * nat)) (js : list nat) : res (option (list (nat * pchain))) :=
  match js with
  | [] => Ok None
  | j :: js =>
    match row !! j with
    | None => scan_row c n m NM row js
    | Some key => let! emb := py_get (dget (bc_raw c) key) in Ok (Some (hand_out n m NM key emb))
    end
  end.
(** 648-665: the loop over i *)
Fixpoint scan_rows (c : bicache) (n m : nat) (NM : list nat) (is : list nat) : res (list (nat * pchain)) :=
  match is with
  | [] => Ok []
  | i :: is =>
    let mmax := default 0 (bc_side c !! i) in
    if mmax <? m then scan_rows c n m NM is else
    let! r := scan_row c n m NM (default ∅ (bc_size c !! i)) (seq m (S mmax - m)) in
    match r with
    | Some e => Ok e
    | None => scan_rows c n m NM is
    end
  end.
(** 609-666 [find_biclique_embedding].  640-646: when both sides are empty the answer is an empty
    dict whatever [independent_set] returns, because it is zipped with no labels. *)
Definition find_biclique_embedding (c : bicache) (nn mm : labels) : res (list (nat * pchain)) :=
  let '(n, N) := num_nodes nn 0 in
  let '(m, M) := num_nodes mm n in
  let '(n, N, m, M) := if m <? n then (m, M, n, N) else (n, N, m, M) in
  if m =? 0 then Ok [] else
  scan_rows c n m (N ++ M) (seq n (S (bc_max c) - n)).
(** 581-607 [largest_balanced_biclique]: [max] returns the first of the largest *)
Definition largest_balanced_biclique (c : bicache) : res (list (nat * pchain)) :=
  match bc_raw c with
  | [] => Err BadInit
  | x :: l =>
    let best := foldl (fun b y => if b.1.1 `min` b.1.2 <? y.1.1 `min` y.1.2 then y else b) x l in
    let '(s0, s1, raw_emb) := best in
    let emb0 := sort_len (take s0 raw_emb) in
    let emb1 := sort_len (take s1 (drop s0 raw_emb)) in
    let s_min := s0 `min` s1 in
    Ok (enumerated (take s_min emb0 ++ take s_min emb1))
  end.
