(** Model of include/find_embedding/embedding.hpp (all operations of class [embedding]
    except printing and the debug-only diagnostics). *)
From stdpp Require Import base list numbers gmap.
From Verif Require Import Base ChainModel.

(** util.hpp: [max_distance = numeric_limits<distance_t>::max()], distance_t = long long *)
Definition max_distance : Z := 9223372036854775807.

(** The constant part of an embedding problem: embedding_problem.hpp:210-213 (sizes and
    qubit neighbours) and the domain handler: [None] is domain_handler_universe (43-62),
    [Some masks] is domain_handler_masked (66-118).  The variable neighbours are reordered
    during the run (embedding_problem.hpp:310-325), so they are passed separately. *)
Record problem := mkProblem {
  nv : nat;  (** num_vars *)
  nf : nat;  (** num_fixed *)
  nq : nat;  (** num_qubits *)
  nr : nat;  (** num_reserved *)
  qnb : list (list nat);  (** qubit_nbrs *)
  masks : option (list (list Z))
}.

(** embedding_problem.hpp:131 and 147.  (With no fixed variables every index is below
    [nv], so both handlers are this test.) *)
Definition fixedb (pb : problem) (u : nat) : bool := Nat.leb (nv pb) u.
(** embedding_problem.hpp:133 and 149 *)
Definition reservedb (pb : problem) (q : nat) : bool := Nat.leb (nq pb) q.
(** embedding_problem.hpp:61 and 117 *)
Definition accepts (pb : problem) (u q : nat) : res bool :=
  match masks pb with
  | None => Ok true
  | Some m => let! r := vget m u in let! x := vget r q in Ok (Z.eqb x 0)
  end.

(** embedding.hpp:54-59 *)
Record emb := mkEmb {
  chains : list chain;
  eweight : list Z;
  efrozen : frozen_chain
}.

(** embedding.hpp:63-78 *)
Definition emb_new (pb : problem) : emb :=
  mkEmb (replicate (nv pb + nf pb) empty_chain) (replicate (nq pb + nr pb) 0%Z) empty_frozen.

(** embedding.hpp:127 *)
Definition chainsize (e : emb) (v : nat) : res nat :=
  let! c := vget (chains e) v in Ok (csize c).
(** embedding.hpp:130 *)
Definition eweight_at (e : emb) (q : nat) : res Z := vget (eweight e) q.
(** embedding.hpp:143 *)
Definition has_qubit (e : emb) (v q : nat) : res bool :=
  let! c := vget (chains e) v in Ok (ccount c q).

(** apply a chain operation to the chain of [v], threading the usage counts *)
Definition on_chain (e : emb) (v : nat) (f : chain -> list Z -> res (chain * list Z)) : res emb :=
  let! c := vget (chains e) v in
  let! (c', w') := f c (eweight e) in
  let! cs := vset (chains e) v c' in
  Ok (mkEmb cs w' (efrozen e)).

(** apply an operation on the links of the chain of [v] *)
Definition on_links (e : emb) (v : nat) (f : chain -> res chain) : res emb :=
  let! c := vget (chains e) v in
  let! c' := f c in
  let! cs := vset (chains e) v c' in
  Ok (mkEmb cs (eweight e) (efrozen e)).

(** apply an operation on two distinct chains *)
Definition on_two (e : emb) (u v : nat)
    (f : chain -> chain -> list Z -> res (chain * chain * list Z)) : res emb :=
  let! cu := vget (chains e) u in
  let! cv := vget (chains e) v in
  let! (cu', cv', w') := f cu cv (eweight e) in
  let! cs := vset (chains e) u cu' in
  let! cs := vset cs v cv' in
  Ok (mkEmb cs w' (efrozen e)).

(** embedding.hpp:146-150 and 154-165 *)
Definition set_chain (e : emb) (u : nat) (l : list nat) : res emb :=
  on_chain e u (fun c w => assign_vec c w l).

(** embedding.hpp:117-121: copies the chains element by element (vector copy assignment
    between vectors of equal size, using chain.hpp:103-110); weights follow, the frozen
    chain is not copied. *)
Definition emb_assign (dst src : emb) : res emb :=
  foldM (fun e '(v, c) => on_chain e v (fun c0 w => assign_chain c0 w c))
        (imap pair (chains src)) dst.

(** first element of a list accepted by [f] *)
Fixpoint find_map {A B} (f : A -> option B) (l : list A) : option B :=
  match l with [] => None | x :: l => match f x with Some y => Some y | None => find_map f l end end.

(** embedding.hpp:325-333: scan [q] in the chain of [v] and neighbours [p] of [q] *)
Fixpoint linkup_scan (pb : problem) (cu : chain) (qs : list nat) : res (option (nat * nat)) :=
  match qs with
  | [] => Ok None
  | q :: qs =>
      let! ps := vget (qnb pb) q in
      match find_map (fun p => if ccount cu p then Some (p, q) else None) ps with
      | Some pq => Ok (Some pq)
      | None => linkup_scan pb cu qs
      end
  end.

(** embedding.hpp:321-342 *)
Definition linkup (pb : problem) (e : emb) (u v : nat) : res (bool * emb) :=
  let! cu := vget (chains e) u in
  let! cv := vget (chains e) v in
  match get_link cu v, get_link cv u with
  | Some _, Some _ => Ok (true, e)
  | _, _ =>
      let! scan := linkup_scan pb cu (cqubits cv) in
      let hit := match scan with
        | Some pq => Some pq
        | None => find_map (fun q => if ccount cv q then Some (q, q) else None) (cqubits cu) end in
      match hit with
      | Some (p, q) =>
          let! e := on_links e u (fun c => set_link c v p) in
          let! e := on_links e v (fun c => set_link c u q) in
          Ok (true, e)
      | None => Ok (false, e)
      end
  end.

(** embedding.hpp:103-107: one popped qubit [p] of the depth-first adoption; the stack is
    a list with its top first *)
Definition adopt_step (root p : nat) (st : chain * list nat) (q : nat) : res (chain * list nat) :=
  let '(c, stack) := st in
  if negb (Nat.eqb q root) && ccount c q then
    let! pq := cparent c q in
    if Nat.eqb pq q then let! c' := adopt c p q in Ok (c', q :: stack)
    else Ok (c, stack)
  else Ok (c, stack).

(** embedding.hpp:99-108: depth-first adoption from the root of an initial chain.
    Returns the chain and [hits]. *)
Fixpoint adopt_loop (fuel : nat) (pb : problem) (root : nat) (c : chain) (stack : list nat) (hits : nat)
  : res (chain * nat) :=
  match stack with
  | [] => Ok (c, hits)
  | p :: stack =>
      match fuel with
      | 0 => Err OOF
      | S fuel =>
          let! ps := vget (qnb pb) p in
          let! (c, stack) := foldM (adopt_step root p) ps (c, stack) in
          adopt_loop fuel pb root c stack (S hits)
      end
  end.

(** embedding.hpp:92-112: root, adopt and link one initial chain.  [vC.second[0]] of an
    empty vector is UB. *)
Definition init_one (pb : problem) (vn : list (list nat)) (e : emb) (vC : nat * list nat) : res emb :=
  let '(v, C) := vC in
  let! c := vget (chains e) v in
  let! root := vget C 0 in
  let! c := set_link c v root in
  let! (c, hits) := adopt_loop (S (csize c)) pb root c [root] 0 in
  let! c := if decide (hits = csize c) then Ok c else (let! (_, c) := drop_link c v in Ok c) in
  let! cs := vset (chains e) v c in
  let! nbrs := vget vn v in
  foldM (fun e u => if decide (v < u) then let! (_, e) := linkup pb e v u in Ok e else Ok e)
        nbrs (mkEmb cs (eweight e) (efrozen e)).

(** embedding.hpp:83-114.  A [std::map] is the list of its entries. *)
Definition emb_init (pb : problem) (vn : list (list nat))
    (fixed_chains initial_chains : list (nat * list nat)) : res emb :=
  let! e := foldM (fun e '(v, C) => set_chain e v C) fixed_chains (emb_new pb) in
  let! e := foldM (fun e '(v, C) => if fixedb pb v then Ok e else set_chain e v C) initial_chains e in
  foldM (init_one pb vn) initial_chains e.

(** embedding.hpp:203-213: the nearest qubit of the chain of [u] to start from.
    An unvisited qubit has distance [max_distance], the largest 64-bit value: it is never
    strictly smaller than another distance, and any smaller value replaces it. *)
Definition steiner_pick (dist : list Z) (vis : list Z) (c : chain) (q : nat) : res nat :=
  let! s := vget vis q in
  let! dq := (if decide (s = 0%Z) then Ok max_distance else vget dist q) in
  let! (qv, _) :=
    foldM (fun '(qv, dqv) p =>
             let! r := refcount c p in
             if decide (1 < r)%Z then
               let! s := vget vis p in
               if decide (s = 0%Z) then Ok (qv, dqv) else
               let! dp := vget dist p in
               if decide (dp < dqv)%Z then Ok (p, dp) else Ok (qv, dqv)
             else Ok (qv, dqv))
          (cqubits c) (q, dq) in
  Ok qv.

(** embedding.hpp:198-218 *)
Definition construct_chain_steiner (vn : list (list nat)) (e : emb) (u q : nat)
    (parents : list (list (option nat))) (distances visited : list (list Z)) : res emb :=
  let! e := on_chain e u (fun c w => set_root u c w q) in
  let! nbrs := vget vn u in
  foldM (fun e v =>
           let! sz := chainsize e v in
           if decide (sz = 0) then Ok e else
           let! dist := vget distances v in
           let! vis := vget visited v in
           let! par := vget parents v in
           let! c := vget (chains e) u in
           let! qv := steiner_pick dist vis c q in
           on_two e u v (fun cu cv w => link_path u v cu cv w qv par))
        nbrs e.

(** embedding.hpp:180-188 *)
Definition construct_chain (vn : list (list nat)) (e : emb) (u q : nat)
    (parents : list (list (option nat))) : res emb :=
  let! e := on_chain e u (fun c w => set_root u c w q) in
  let! nbrs := vget vn u in
  foldM (fun e v =>
           let! sz := chainsize e v in
           if decide (sz = 0) then Ok e else
           let! par := vget parents v in
           on_two e u v (fun cu cv w => link_path u v cu cv w q par))
        nbrs e.

(** embedding.hpp:225-229 *)
Definition flip_back (pb : problem) (vn : list (list nat)) (e : emb) (u target : nat) : res emb :=
  let! nbrs := vget vn u in
  foldM (fun e v =>
           let! sz := chainsize e v in
           if decide (sz = 0) then Ok e
           else if fixedb pb v then Ok e
           else on_two e v u (fun cv cu w => steal (accepts pb v) target v u cv cu w))
        nbrs e.

(** embedding.hpp:233-237 *)
Definition tear_out (vn : list (list nat)) (e : emb) (u : nat) : res emb :=
  let! e := on_chain e u clear in
  let! nbrs := vget vn u in
  foldM (fun e v => on_links e v (fun c => let! (_, c) := drop_link c u in Ok c)) nbrs e.

(** embedding.hpp:245-249 *)
Definition freeze_out (e : emb) (u : nat) : res (nat * emb) :=
  let! (n, k, cs, w) := freeze (chains e) (eweight e) u in
  Ok (n, mkEmb cs w k).

(** embedding.hpp:256-259.  [keep.data.swap(data)] leaves the frozen chain with the (empty)
    data of the chain; its links stay in place but are cleared by the next freeze. *)
Definition thaw_back (e : emb) (u : nat) : res emb :=
  let! c := vget (chains e) u in
  let! (cs, w) := thaw (chains e) (eweight e) u (efrozen e) in
  Ok (mkEmb cs w (mkFrozen (cdata c) (flinks (efrozen e)) (fback (efrozen e)))).

(** embedding.hpp:262-270 *)
Definition steal_all (pb : problem) (vn : list (list nat)) (e : emb) (u : nat) : res emb :=
  let! nbrs := vget vn u in
  foldM (fun e v =>
           if fixedb pb v then Ok e else
           let! cu := vget (chains e) u in
           let! cv := vget (chains e) v in
           match get_link cu v, get_link cv u with
           | Some _, Some _ => on_two e u v (fun cu cv w => steal (accepts pb u) 0 u v cu cv w)
           | _, _ => Ok e
           end)
        nbrs e.

(** embedding.hpp:278-300; loops run from the top index down *)
Definition statistics (pb : problem) (e : emb) : res (bool * list Z) :=
  let! (W, stats) :=
    foldM (fun '(W, stats) q =>
             let! w := vget (eweight e) q in
             let W := Z.max W w in
             if decide (1 < w)%Z then let! stats := vadd stats (Z.to_nat (w - 2)) 1 in Ok (W, stats)
             else Ok (W, stats))
          (rev (seq 0 (nq pb))) (0%Z, replicate (nv pb + nf pb) 0%Z) in
  if decide (1 < W)%Z then Ok (false, take (Z.to_nat (W - 1)) stats)
  else
    let! (W, stats) :=
      foldM (fun '(W, stats) v =>
               let! w := chainsize e v in
               let! stats := vadd stats w 1 in
               Ok (Nat.max W w, stats))
            (rev (seq 0 (nv pb))) (0, replicate (nq pb + nr pb + 1) 0%Z) in
    Ok (true, take (W + 1) stats).

(** embedding.hpp:311-316 *)
Definition linked_at (vn : list (list nat)) (e : emb) (u : nat) : res bool :=
  let! c := vget (chains e) u in
  let! nbrs := vget vn u in
  match get_link c u with
  | None => Ok false
  | Some _ => Ok (forallb (fun v => match get_link c v with Some _ => true | None => false end) nbrs)
  end.

(** embedding.hpp:304-308 *)
Definition linked (pb : problem) (vn : list (list nat)) (e : emb) : res bool :=
  foldM (fun b u => if (b : bool) then linked_at vn e u else Ok false) (rev (seq 0 (nv pb))) true.
