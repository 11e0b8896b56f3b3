(** Model of minorminer/utils/chimera.py, pegasus.py and zephyr.py (the functions for cliques and
    bicliques are the same in the three files).  A [ValueError] is [Err BadInit].  Not modelled:
    [TypeError] for parameters of the wrong type, and the construction of the graphs (package
    dwave.graphs). *)
From stdpp Require Import base list numbers.
From Verif Require Import Base NxModel PyCacheModel.

(** chimera_coordinates(m, n, t).chimera_to_linear of the package dwave.graphs *)
Definition chimera_to_linear (n t : nat) (q : nat * nat * nat * nat) : nat :=
  let '(i, j, u, k) := q in ((n * i + j) * 2 + u) * t + k.

(** chimera.py 256-275 [_get_target_graph] without a target graph: the sizes *)
Definition get_target_size (m : Z) (n t : option Z) : res (Z * Z * Z) :=
  if (m <=? 0)%Z then Err BadInit else
  let! n := match n with None => Ok m | Some n => if (n <=? 0)%Z then Err BadInit else Ok n end in
  let! t := match t with None => Ok 4%Z | Some t => if (t <=? 0)%Z then Err BadInit else Ok t end in
  Ok (m, n, t).

(** chimera.py 237-245: the check of the sizes, and the dict comprehension *)
Definition grid_dict (key : nat -> nat -> nat -> list nat) (rows cols aisles m n t : Z) : res (list (list nat * list nat)) :=
  if (m <? rows)%Z || (n <? cols)%Z || (t <? aisles)%Z then Err BadInit else
  Ok (row ← seq 0 (Z.to_nat rows); col ← seq 0 (Z.to_nat cols); aisle ← seq 0 (Z.to_nat aisles);
      [(key row col aisle, [chimera_to_linear (Z.to_nat n) (Z.to_nat t) (row, col, 0, aisle);
                            chimera_to_linear (Z.to_nat n) (Z.to_nat t) (row, col, 1, aisle)])]).
(** chimera.py 183-245 [find_grid_embedding]; a key is a tuple (in one dimension the number itself) *)
Definition find_grid_embedding (dim : list Z) (m : Z) (n t : option Z) : res (list (list nat * list nat)) :=
  let! s := get_target_size m n t in
  let '(m, n, t) := s in
  match dim with
  | [a] => grid_dict (fun row col aisle => [row]) a 1 1 m n t
  | [a; b] => grid_dict (fun row col aisle => [row; col]) a b 1 m n t
  | [a; b; c] => grid_dict (fun row col aisle => [row; col; aisle]) a b c m n t
  | _ => Err BadInit
  end.

(** networkx.utils.decorators.nodes_or_number: a number or an iterable *)
Definition nodes_or_number (k : labels) : list nat := (num_nodes k 0).2.
(** [dict(zip(...))]: a repeated key keeps the last value *)
Definition to_dict (l : list (nat * pchain)) : list (nat * pchain) := foldl (fun d e => dstore d e.1 e.2) [] l.

(** chimera.py 89-96, pegasus.py 64-71, zephyr.py 62-69 [find_clique_embedding], given the cache of the graph *)
Definition util_clique (c : ccache) (k : labels) : res (list (nat * pchain)) :=
  let nodes := nodes_or_number k in
  let! e := find_clique_embedding c (Names nodes) in
  let embedding := to_dict e in
  if length embedding =? length nodes then Ok embedding else Err BadInit.

(** [{x: embedding[xs.index(x) + offset] for x in xs}] *)
Definition util_side (embedding : list (nat * pchain)) (xs : list nat) (offset : nat) : res (list (nat * pchain)) :=
  let! l := foldM (fun d x =>
      let! i := py_get (fst <$> list_find (fun y => y = x) xs) in
      let! C := py_get (dlookup embedding (i + offset)) in
      Ok (dstore d x C)) xs [] in
  Ok l.
(** chimera.py 164-180, pegasus.py 124-140, zephyr.py 118-134 [find_biclique_embedding] *)
Definition util_biclique (c : bicache) (a b : labels) : res (list (nat * pchain) * list (nat * pchain)) :=
  let anodes := nodes_or_number a in
  let bnodes := nodes_or_number b in
  let bnodes := match a, b with Count _, Count _ => (fun x => length anodes + x) <$> bnodes | _, _ => bnodes end in
  if bool_decide (Exists (fun x => x ∈ bnodes) anodes) then Err BadInit else
  let! embedding := find_biclique_embedding c (Count (length anodes)) (Count (length bnodes)) in
  match embedding with
  | [] => Err BadInit
  | _ =>
    let! l := util_side embedding anodes 0 in
    let! r := util_side embedding bnodes (length anodes) in
    Ok (l, r)
  end.
