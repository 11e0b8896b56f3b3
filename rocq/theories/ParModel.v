(** Model of minorminer/utils/parallel_embeddings.py: several embeddings of one source graph.

    The embedder is any function; it may have a state or draw random numbers, so it is given the number
    of the event (a call of the embedder or a look at the clock, counted from the start) as a further
    argument.  [late n] tells whether the time is up at the look at the clock with number [n]; [shuffled]
    is [shuffle_graph].  Warnings are not modelled. *)
From stdpp Require Import base list numbers.
From Verif Require Import Base NxModel FeasModel.

(** the value for one source node: a target node (1:1), or a tuple of them.  Lists are not modelled:
    they behave like tuples except that [remove_nodes_from] raises for them. *)
Inductive cval (A : Type) := Node (q : A) | Chain (c : list A).
Arguments Node {A}. Arguments Chain {A}.
Definition pyemb (A : Type) : Type := list (A * cval A).

Record world (A : Type) := mkWorld {
  w_embedder : nat -> nxgraph A -> nxgraph A -> pyemb A;
  w_late : nat -> bool;
  w_shuffled : nat -> nxgraph A -> nxgraph A
}.
Arguments mkWorld {A}. Arguments w_embedder {A}. Arguments w_late {A}. Arguments w_shuffled {A}.

Section par.
Context {A : Type} `{!EqDecision A}.

(** [g.remove_nodes_from(qs)]: labels that are not there are ignored *)
Definition nx_remove (g : nxgraph A) (qs : list A) : nxgraph A :=
  mkNx (filter (fun a => a ∉ qs) (nx_nodes g)) (filter (fun e => e.1 ∉ qs /\ e.2 ∉ qs) (nx_edges g)).

(** 250-253, 592-599: what is removed for one embedding.  With [one_to_iterable], iterating over a node
    is taken to raise ([Err UB]; it does if labels are integers); without, a tuple is taken not to be a
    label, so nothing is removed for it. *)
Fixpoint taken (one_to_iterable : bool) (e : pyemb A) : res (list A) :=
  match e with
  | [] => Ok []
  | (_, v) :: e =>
      let! l := match one_to_iterable, v with
                | true, Chain c => Ok c
                | true, Node _ => Err UB
                | false, Node q => Ok [q]
                | false, Chain _ => Ok []
                end in
      let! r := taken one_to_iterable e in Ok (l ++ r)
  end.

(** 233-255: the loop.  [S], [T]: the graphs that are used, [T] the caller's object; [own = None]: [_T] is
    still the caller's object; [many]: [max_num_emb > 1]; [same]: [_T == _S] for the caller's object.
    Returned: the event number, the caller's graph afterwards, the embeddings. *)
Fixpoint multi_loop (w : world A) (k : nat) (S : nxgraph A) (many use_filter one_to_iterable same : bool)
    (i : nat) (T : nxgraph A) (own : option (nxgraph A)) (embs : list (pyemb A)) : res (nat * nxgraph A * list (pyemb A)) :=
  match k with
  | 0 => Ok (i, T, embs)
  | Datatypes.S k =>
      let cur := default T own in
      let! ok := if use_filter then feasibility_filter S cur (same && match own with None => true | Some _ => false end) (negb one_to_iterable) else Ok true in
      if negb ok then Ok (i, T, embs)
      else if w_late w i then Ok (Datatypes.S i, T, embs)
      else
        let e := w_embedder w (Datatypes.S i) S cur in
        let i := i + 2 in
        match e with
        | [] => Ok (i, T, embs)
        | _ =>
            if many : bool then
              let own := match embs with [] => Some T | _ => own end in
              let! gone := taken one_to_iterable e in
              match own with
              | Some g => multi_loop w k S many use_filter one_to_iterable same i T (Some (nx_remove g gone)) (embs ++ [e])
              | None => multi_loop w k S many use_filter one_to_iterable same i (nx_remove T gone) None (embs ++ [e])
              end
            else multi_loop w k S many use_filter one_to_iterable same i T own (embs ++ [e])
        end
  end.

(** 135-256 [find_multiple_embeddings].  [in_time]: the given timeout is positive.  [max_num_emb]: [None]
    for [None] and [Inf]; otherwise after rounding.  [same]: whether [T] and [S] are one object. *)
Definition find_multiple_embeddings (w : world A) (i : nat) (S T : nxgraph A) (max_num_emb : option Z)
    (use_filter one_to_iterable shuffle_all_graphs in_time same : bool) : res (nat * nxgraph A * list (pyemb A)) :=
  if negb in_time then Ok (i, T, [])
  else if length (nx_nodes S) =? 0 then Err UB
  else
    let n := Z.of_nat (length (nx_nodes T) `div` length (nx_nodes S)) in
    let n := match max_num_emb with None => n | Some m => Z.min n m end in
    let '(own, S') := if shuffle_all_graphs then (Some (w_shuffled w i T), w_shuffled w (i + 1) S) else (None, S) in
    multi_loop w (Z.to_nat n) S' (1 <? n)%Z use_filter one_to_iterable same (i + 2) T own [].

(** 282-291 [_is_valid_embedding] *)
Fixpoint tuples (one_to_iterable : bool) (e : pyemb A) : res (list (A * list A)) :=
  match e with
  | [] => Ok []
  | (k, v) :: e =>
      let! l := match one_to_iterable, v with
                | true, Chain c => Ok c
                | true, Node _ => Err UB
                | false, Node q => Ok [q]
                | false, Chain _ => Err UB
                end in
      let! r := tuples one_to_iterable e in Ok ((k, l) :: r)
  end.
Definition valid_embedding (one_to_iterable : bool) (e : pyemb A) (S T : nxgraph A) : res bool :=
  let! d := tuples one_to_iterable e in Ok (is_valid_embedding d S T).
(** 294-298 [_mapped_proposal] *)
Fixpoint mapped_proposal (one_to_iterable : bool) (f : A -> A) (e : pyemb A) : res (pyemb A) :=
  match e with
  | [] => Ok []
  | (k, v) :: e =>
      let! v' := match one_to_iterable, v with
                 | true, Chain c => Ok (Chain (f <$> c))
                 | true, Node _ => Err UB
                 | false, Node q => Ok (Node (f q))
                 | false, Chain _ => Err UB
                 end in
      let! r := mapped_proposal one_to_iterable f e in Ok ((k, v') :: r)
  end.

(** 592-599: nodes of all embeddings found in one sublattice *)
Fixpoint taken_all (one_to_iterable : bool) (l : list (pyemb A)) : res (list A) :=
  match l with
  | [] => Ok []
  | e :: l => let! a := taken one_to_iterable e in let! b := taken_all one_to_iterable l in Ok (a ++ b)
  end.

(** 567-599: the loop over the sublattices [fs].  [reuse]: the tile embedding that is displaced, if any;
    [own], [T] as above.  The call of [find_multiple_embeddings] gets a view of [_T]; it does not pass
    [one_to_iterable] and [shuffle_all_graphs]. *)
Fixpoint sub_loop (w : world A) (fs : list (A -> A)) (S tile : nxgraph A) (max_num_emb : Z) (use_filter one_to_iterable : bool)
    (reuse : option (pyemb A)) (i : nat) (T : nxgraph A) (own : option (nxgraph A)) (embs : list (pyemb A))
  : res (nat * nxgraph A * list (pyemb A)) :=
  match fs with
  | [] => Ok (i, T, embs)
  | f :: fs =>
      if w_late w i then Ok (Datatypes.S i, T, embs)
      else
        let i := Datatypes.S i in
        let cur := default T own in
        let! found :=
          match reuse with
          | Some te =>
              let! p := mapped_proposal one_to_iterable f te in
              let! v := valid_embedding one_to_iterable p S cur in
              Ok (i, if (v : bool) then [p] else [])
          | None =>
              let! r := find_multiple_embeddings w (Datatypes.S i) S (nx_subgraph cur (f <$> nx_nodes tile))
                  (Some (max_num_emb - Z.of_nat (length embs))%Z) use_filter false false (negb (w_late w i)) false in
              Ok (r.1.1, r.2)
          end in
        let embs := embs ++ found.2 in
        if (max_num_emb <=? Z.of_nat (length embs))%Z then Ok (found.1, T, embs)
        else
          let! gone := taken_all one_to_iterable found.2 in
          match own with
          | Some g => sub_loop w fs S tile max_num_emb use_filter one_to_iterable reuse found.1 T (Some (nx_remove g gone)) embs
          | None => sub_loop w fs S tile max_num_emb use_filter one_to_iterable reuse found.1 (nx_remove T gone) None embs
          end
  end.

(** the arguments of [find_sublattice_embeddings] after [S] and [T] *)
Record subargs := mkSub {
  sa_tile : option (nxgraph A); sa_tile_is_S : bool; sa_size : option nat; sa_max : option Z;
  sa_filter : bool; sa_use_tile : option bool; sa_tile_emb : option (pyemb A);
  sa_one_to_iterable : bool; sa_in_time : bool; sa_seed : bool }.

Section sublattice.
Context (generator : family -> nat -> nat -> nxgraph A) (greedy_color : nxgraph A -> A -> nat).
(** the sublattice mappings of dwave.graphs, after shuffling if that is asked for *)
Context (mappings : family -> nxgraph A -> nxgraph A -> list (A -> A)).

(** 324-600.  [T] is the graph that is used with its family, if any, and its tile parameter; casting to a
    family ([T_family]) is not modelled.  [sa_seed]: a seed is given.  [Err Corrupt]: a [ValueError]. *)
Definition find_sublattice_embeddings (w : world A) (fuel : nat) (S : nxgraph A) (T : nxgraph A) (family_tile : option (family * nat)) (a : subargs)
  : res (nat * nxgraph A * list (pyemb A)) :=
  if negb (sa_in_time a) then Ok (0, T, [])
  else match sa_tile a, sa_size a with
  | None, None => find_multiple_embeddings w 0 S T (sa_max a) true false false true false
  | _, _ =>
    match family_tile with
    | None => Err Corrupt
    | Some (fam, t) =>
        let one_to_iterable := sa_one_to_iterable a in
        let own := if match sa_max a with Some 1%Z => negb (sa_seed a) | _ => false end then None else Some T in
        (* 448-500 *)
        let! pre :=
          match sa_tile a with
          | Some tile =>
              if sa_filter a then
                let! b := feasibility_filter S tile (sa_tile_is_S a) (negb one_to_iterable) in
                Ok (if (b : bool) then Some tile else None)
              else Ok (Some tile)
          | None =>
              let size := default 0 (sa_size a) in
              if sa_filter a then
                let! bound := lattice_size_lower_bound generator greedy_color fuel S (Some (T, fam, t)) None None (negb one_to_iterable) in
                match bound with
                | None => Ok None
                | Some b => Ok (if size <? b then None else Some (generator fam t size))
                end
              else Ok (Some (generator fam t size))
          end in
        match pre with
        | None => Ok (0, T, [])
        | Some tile =>
            let is_S := match sa_tile a with Some _ => sa_tile_is_S a | None => false end in
            (* 504-519 *)
            let! tile_ok := match sa_tile_emb a with
                            | None => Ok true
                            | Some te => valid_embedding one_to_iterable te S tile
                            end in
            if negb tile_ok then Err Corrupt
            else
              let given := match sa_tile_emb a with Some _ => true | None => false end in
              let use_tile := default (is_S || given) (sa_use_tile a) in
              let trivial := use_tile && negb given && is_S in
              let tile_emb := if trivial then Some ((fun q => (q, if one_to_iterable then Chain [q] else Node q)) <$> nx_nodes tile) else sa_tile_emb a in
              let use_filter := sa_filter a && negb given && negb trivial in
              (* 521-550 *)
              let! r :=
                if use_filter || (use_tile && match tile_emb with None => true | Some _ => false end) then
                  let! d := find_multiple_embeddings w 1 S tile (Some 1%Z) false false false (negb (w_late w 0)) is_S in
                  match d.2 with
                  | [] => Ok None
                  | te :: _ =>
                      if use_tile then
                        let! qs := taken one_to_iterable te in
                        Ok (Some (d.1.1, Some te, nx_subgraph tile qs))
                      else Ok (Some (d.1.1, tile_emb, tile))
                  end
                else Ok (Some (1, tile_emb, tile)) in
              match r with
              | None => Ok (1, T, [])
              | Some (i, tile_emb, tile) =>
                  if length (nx_nodes S) =? 0 then Err UB
                  else
                    let n := Z.of_nat (length (nx_nodes T) `div` length (nx_nodes S)) in
                    let n := match sa_max a with None => n | Some m => Z.min n m end in
                    sub_loop w (mappings fam tile T) S tile n use_filter one_to_iterable (if use_tile then tile_emb else None) i T own []
              end
        end
    end
  end.
End sublattice.

(** 65-104 [embeddings_to_array] without [as_ndarray]; a missing key raises *)
Definition embeddings_to_array {B} (embs : list (list (A * B))) (node_order : option (list A)) : res (list (list B)) :=
  match node_order, embs with
  | None, [] => Ok []
  | _, _ =>
      let order := match node_order, embs with Some o, _ => o | None, e :: _ => e.*1 | None, [] => [] end in
      let row (e : list (A * B)) := foldM (fun acc v => match dlookup e v with Some x => Ok (acc ++ [x]) | None => Err UB end) order [] in
      foldM (fun acc e => let! r := row e in Ok (acc ++ [r])) embs []
  end.
End par.

(** 107-132 [array_to_embeddings]; the value of a key is an entry or a whole row.  A row that is longer than
    [node_order] raises. *)
Inductive rowval (B : Type) := Entry (x : B) | Row (l : list B).
Arguments Entry {B}. Arguments Row {B}.
Definition array_to_embeddings {A B : Type} (embs : list (list B)) (node_order : list A) : res (list (list (A * rowval B))) :=
  if length embs =? length node_order then Ok [zip node_order (Row <$> embs)]
  else if forallb (fun r : list B => length r <=? length node_order) embs then Ok ((fun r => zip node_order (Entry <$> r)) <$> embs)
  else Err UB.
