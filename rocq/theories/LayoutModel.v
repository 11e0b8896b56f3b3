(** Model of minorminer/layout: layout.py (the class Layout), placement.py and __init__.py.  Coordinates
    are rational numbers instead of floating point numbers.  Nodes of the target graph are numbers.
    Sets are [gset]s; the order in which Python iterates over them is given by a function [ord].  An
    exception is [Err BadInit].  Not modelled: p_norm; graph_layout and
    _pack_components are in LayoutGenModel. *)
From Coq Require Import QArith Qabs Qminmax Qround.
From stdpp Require Import base list numbers gmap.
From Verif Require Import Base NxModel PyCacheModel GraphModel ParamModel PathModel PyModel.

Notation point := (list Q).

(** [p == q] for tuples of numbers *)
Fixpoint point_eqb (p q : point) : bool :=
  match p, q with
  | [], [] => true
  | x :: p, y :: q => Qeq_bool x y && point_eqb p q
  | _, _ => false
  end.

(** ** placement.py 360-392 [_get_connected_subgraphs] *)
(** 386-390: the sets with one more node; [G.neighbors(v)] *)
Definition neighbors (G : nxgraph nat) (v : nat) : list nat := filter (fun u => nx_has_edge G v u = true) (nx_nodes G).
Definition grow (G : nxgraph nat) (level : gset (gset nat)) : gset (gset nat) :=
  list_to_set (X ← elements level; v ← elements X; u ← neighbors G v; [X ∪ {[u]}]).
Fixpoint levels (G : nxgraph nat) (i : nat) : gset (gset nat) :=
  match i with
  | 0 => list_to_set ((fun v => {[v]}) <$> nx_nodes G)
  | S i => grow G (levels G i)
  end.
(** the entry [j] of the dict; entries that were not made are empty (defaultdict) *)
Definition connected_subgraphs (G : nxgraph nat) (k j : nat) : gset (gset nat) :=
  if (j =? 1) || ((1 <? j) && (j <=? k `min` length (nx_nodes G))) then levels G (pred j) else ∅.

(** ** placement.py 269-357 [closest] *)
Section closest.
  (** the iteration order of sets, scipy's KDTree.query (distances and indices), and whether an
      OverflowError is raised for the source node at position [i] with the given base *)
  Context (ord : gset (gset nat) -> list (gset nat)) (kd : list point -> point -> nat -> list (Q * nat)) (ovf : nat -> nat -> bool).

  (** np.mean over the rows; the number of coordinates is that of the first row *)
  Definition add_points (p q : point) : point := zip_with Qplus p q.
  Definition mean (ps : list point) : res point :=
    match ps with
    | [] => Err BadInit
    | p :: ps' => Ok ((fun x => x / inject_Z (Z.of_nat (length ps)))%Q <$> foldl add_points p ps')
    end.
  (** 324-331: the position of a subset *)
  Definition subset_position (tl : list (nat * point)) (k : nat) (X : gset nat) : res point :=
    if k =? 1 then
      match elements X with
      | [v] => py_get (dlookup tl v)
      | _ => Err BadInit
      end
    else
      let! ps := foldM (fun ps v => let! p := py_get (dlookup tl v) in Ok (ps ++ [p])) (elements X) [] in
      mean ps.
  (** 316-331 [T_subgraph_layout] *)
  Definition subset_layout (T : nxgraph nat) (tl : list (nat * point)) (lo hi : nat) : res (list (gset nat * point)) :=
    foldM (fun d k => foldM (fun d X => let! p := subset_position tl k X in Ok (dstore d X p))
                            (ord (connected_subgraphs T hi k)) d) (seq lo (S hi - lo)) [].
  (** 335 [T_subset_lookup]: of several subsets at one point the last one is kept *)
  Definition subset_lookup (sl : list (gset nat * point)) (p : point) : option (gset nat) :=
    fst <$> last (filter (fun e => point_eqb e.2 p = true) sl).

  (** 395-407 [_minimize_overlap]: the costs for one base *)
  Definition overlap (counter : gmap nat nat) (v : nat) : nat := default 0 (counter !! v).
  Definition cost (base : nat) (counter : gmap nat nat) (d : Q) (X : gset nat) : Q :=
    d + inject_Z (Z.of_nat (sum_list ((fun v => base ^ overlap counter v) <$> elements X))).
  Definition subset_costs (base : nat) (sl : list (gset nat * point)) (pts : list point) (counter : gmap nat nat)
    (near : list (Q * nat)) : res (list (gset nat * Q)) :=
    foldM (fun subsets (di : Q * nat) =>
      let! p := py_get (pts !! di.2) in
      let! X := py_get (subset_lookup sl p) in
      Ok (dstore subsets X (cost base counter di.1 X))) near [].
  (** [min(subsets, key=subsets.get)] *)
  Definition cheapest (subsets : list (gset nat * Q)) : res (gset nat) :=
    match subsets with
    | [] => Err BadInit
    | e :: l => Ok (fst (foldl (fun b e => if Qle_bool b.2 e.2 then b else e) e l))
    end.
  Definition count_up (counter : gmap nat nat) (X : gset nat) : gmap nat nat :=
    foldl (fun c v => <[v := S (overlap c v)]> c) counter (elements X).
  Fixpoint minimize_overlap (base i : nat) (sl : list (gset nat * point)) (pts : list point) (counter : gmap nat nat)
    (near : list (Q * nat)) : res (gset nat * gmap nat nat) :=
    match base with
    | 0 => Err BadInit
    | S b =>
      if ovf i base then minimize_overlap b i sl pts counter near else
      let! subsets := subset_costs base sl pts counter near in
      let! X := cheapest subsets in
      Ok (X, count_up counter X)
    end.

  (** 313-357.  339-342: without points there is no tree, which is an error as soon as it is queried *)
  Definition closest (S_layout : list (nat * point)) (T : nxgraph nat) (tl : list (nat * point)) (lo hi num_neighbors : nat) :
    res (list (nat * gset nat)) :=
    let! sl := subset_layout T tl lo hi in
    let pts := sl.*2 in
    let! r := foldM (fun s (e : nat * (nat * point)) =>
        let '(counter, placement) := s in
        let '(i, (u, u_pos)) := e in
        if length pts =? 0 then Err BadInit else
        let! (X, counter') := minimize_overlap 10 i sl pts counter (kd pts u_pos num_neighbors) in
        Ok (counter', placement ++ [(u, X)])) (imap pair S_layout) (∅, []) in
    Ok r.2.
End closest.

(** ** layout.py 362-559: the class Layout; a layout is the array [layout_array], one row for each node in
    sorted order.  A layout whose positions become NaN is [Err Corrupt]. *)
Notation rows := (list point).
(** 543-552 the dimension *)
Definition layout_dim (L : rows) : nat := match L with [] => 0 | r :: _ => length r end.
(** 786-790 [_get_center]; 547-550 for the empty layout *)
Definition layout_center (L : rows) : point :=
  match L with
  | [] => []
  | r :: L => zip_with (fun a b => ((a + b) / 2)%Q) (foldl (zip_with Qmin) r L) (foldl (zip_with Qmax) r L)
  end.
(** 554-558: the greatest distance from the centre in one coordinate *)
Definition layout_scale (L : rows) : Q :=
  foldl Qmax 0%Q (r ← L; zip_with (fun x c => Qabs (x - c)%Q) r (layout_center L)).
(** 486-491 and 561-595 [_dimension_layout] *)
Definition set_dim (L : rows) (d : nat) : res rows :=
  if d =? 0 then Ok L else
  if d <? layout_dim L then Err BadInit else
  Ok ((fun r => r ++ replicate (d - layout_dim L) 0%Q) <$> L).
(** 497-505 and 598-624 [_center_layout].  A centre of another dimension is an error; that numpy
    stretches centres with one coordinate is not modelled. *)
Definition set_center (L : rows) (c : point) : res rows :=
  if length c =? 0 then Ok L else
  if length c =? layout_dim L then
    Ok ((fun r => zip_with Qplus (zip_with Qminus r (layout_center L)) c) <$> L)
  else Err BadInit.
(** 511-516 and 627-667 [_scale_layout]; a scale of 0 is ignored, and dividing by a scale of 0 gives NaN
    (ZeroDivisionError for the empty layout) *)
Definition set_scale (L : rows) (s : Q) : res rows :=
  if Qeq_bool s 0 then Ok L else
  if Qeq_bool (layout_scale L) 0 then Err Corrupt else
  Ok ((fun r => zip_with Qplus (zip_with (fun x c => s / layout_scale L * (x - c))%Q r (layout_center L)) (layout_center L)) <$> L).
(** 445-451: the specs given to the constructor; [dim or self._dim], [scale or self._scale] *)
Definition new_layout (L : rows) (dim : option nat) (scale : option Q) (center : option point) : res rows :=
  let! L := set_dim L (match dim with Some (S d) => S d | _ => layout_dim L end) in
  let! L := set_scale L (match scale with Some s => if Qeq_bool s 0 then layout_scale L else s | None => layout_scale L end) in
  set_center L (match center with Some c => c | None => layout_center L end).
(** placement.py 447-462 (class Placement): copies are made, and the layout of the source graph is scaled *)
Definition placement_layouts (LS LT : rows) (scale_ratio : option Q) : res (rows * rows) :=
  let! LS := new_layout LS None None None in
  let! LT := new_layout LT None None None in
  if negb (layout_dim LS =? layout_dim LT) then Err BadInit else
  let! LS :=
    if negb (Qle_bool (layout_scale LS) (layout_scale LT)) then set_scale LS (layout_scale LT)
    else match scale_ratio with
         | Some r => if Qeq_bool r 0 then Ok LS else set_scale LS (r * layout_scale LT)
         | None => Ok LS
         end in
  Ok (LS, LT).

(** ** placement.py 25-267 [intersection] *)
(** 217-233 [_chimera_all_intersection_points]; [u = 1] is [true] *)
Definition chimera_points (t i j : nat) (u : bool) (k : nat) : list (nat * nat) :=
  if u then (fun kk => (j * t + kk, i * t + k)) <$> seq 0 t
  else (fun kk => (j * t + k, i * t + kk)) <$> seq 0 t.
(** 235-251 [_pegasus_all_intersection_points] *)
Definition pegasus_points (offsets : bool -> nat -> nat) (u : bool) (w k z : nat) : list (nat * nat) :=
  if u then (fun kk => (12 * z + offsets u k + kk, 12 * w + k)) <$> seq 0 12
  else (fun kk => (12 * w + k, 12 * z + offsets u k + kk)) <$> seq 0 12.
(** 253-267 [_zephyr_all_intersection_points] *)
Definition zephyr_points (t : nat) (u : bool) (w k j z : nat) : list (nat * nat) :=
  if u then (fun kk => (2 * (t * w + k) + j, (4 * z + 2 * j) * t + kk)) <$> seq 0 (4 * t)
  else (fun kk => ((4 * z + 2 * j) * t + kk, 2 * (t * w + k) + j)) <$> seq 0 (4 * t).

(** The points of a qubit given by its coordinates.  The offsets of a Pegasus graph are those of
    dwave.graphs: even numbers, the same for the lines [2k'] and [2k'+1]. *)
Definition chimera_at (t : nat) (q : nat * nat * bool * nat) : list (nat * nat) := let '(i, j, u, k) := q in chimera_points t i j u k.
Definition pegasus_at (off : bool -> nat -> nat) (q : bool * nat * nat * nat) : list (nat * nat) :=
  let '(u, w, k, z) := q in pegasus_points (fun u k => 2 * off u (k / 2)) u w k z.
Definition zephyr_at (t : nat) (q : bool * nat * nat * nat * nat) : list (nat * nat) := let '(u, w, k, j, z) := q in zephyr_points t u w k j z.

(** [np.round]: to the nearest integer, halves to the even one *)
Definition round_even (x : Q) : Z :=
  let f := Qfloor x in
  match Qcompare (x - inject_Z f) (1 # 2) with
  | Lt => f
  | Gt => f + 1
  | Eq => if Z.even f then f else f + 1
  end%Z.

Section intersection.
  (** a qubit and the points it passes through; the conversions of labels to coordinates (161-213) are
      not modelled *)
  Context {Qb : Type} (points : Qb -> list (nat * nat)).
  (** 112-129: the grid has [t*n] times [t*m] points; a point outside is a KeyError *)
  Definition in_grid (m n t : nat) (p : nat * nat) : bool := (p.1 <? t * n) && (p.2 <? t * m).
  Definition qubits_at (T : list Qb) (p : nat * nat) : list Qb := filter (fun q => p ∈ points q) T.
  (** 116, 131-140 *)
  Definition grid_scale (m n t : nat) : Q := ((inject_Z (Z.of_nat (t * (n `min` m))) - 1) / 2)%Q.
  Definition zoom (m n t : nat) (LS : rows) : res rows :=
    let scale := grid_scale m n t in
    let zoom_scale := (layout_scale LS * inject_Z (Z.of_nat t))%Q in
    let! LS := set_scale LS (if Qle_bool scale zoom_scale then scale else zoom_scale) in
    set_center LS [scale; scale].
  (** 143-145: the grid point of a row *)
  Definition grid_cell (m n t : nat) (r : point) : res (nat * nat) :=
    match r with
    | [x; y] =>
        let x := round_even x in let y := round_even y in
        if (0 <=? x)%Z && (0 <=? y)%Z && in_grid m n t (Z.to_nat x, Z.to_nat y) then Ok (Z.to_nat x, Z.to_nat y) else Err BadInit
    | _ => Err BadInit
    end.
  (** 78-86 with 89-147; [nodes] are the source nodes in sorted order.  The dict is returned in this
      order. *)
  Definition intersection (m n t : nat) (T : list Qb) (nodes : list nat) (LS : rows) : res (list (nat * list Qb)) :=
    if forallb (fun q => forallb (in_grid m n t) (points q)) T then
      let! L := zoom m n t LS in
      foldM (fun pl (e : nat * point) => let! p := grid_cell m n t e.2 in Ok (pl ++ [(e.1, qubits_at T p)])) (zip nodes L) []
    else Err BadInit.
End intersection.

(** ** __init__.py 24-122 [find_embedding]: the placement is passed to minorminer.find_embedding (model:
    PyModel) as initial chains or as suspended chains.  Giving the same argument a second time is a
    TypeError in Python; here the placement replaces it.  The time that is left is not modelled. *)
Inductive hint := InitialChains | SuspendChains.
Definition layout_find_embedding {A} `{!EqDecision A} (pin : A -> nat -> A) (h : hint) (placement : list (A * list A))
  (S T : pygraph A) (p : pyparams A) (o : oracle) : res pyresult :=
  match h with
  | InitialChains => py_find_embedding pin S T (mkPP (py_opts p) (py_fixed p) placement (py_restrict p) (py_suspend p)) o
  | SuspendChains => py_find_embedding pin S T (mkPP (py_opts p) (py_fixed p) (py_initial p) (py_restrict p) ((fun e => (e.1, [e.2])) <$> placement)) o
  end.
(** with the placement [closest] of a graph with nodes [nx_nodes T] *)
Definition closest_embedding pin ord kd ovf (h : hint) (S_layout : list (nat * point)) (T : nxgraph nat) (tl : list (nat * point)) (lo hi num_neighbors : nat)
  (S : pygraph nat) (p : pyparams nat) (o : oracle) : res pyresult :=
  let! pl := closest ord kd ovf S_layout T tl lo hi num_neighbors in
  layout_find_embedding pin h ((fun e => (e.1, elements e.2)) <$> pl) S (mkPG (nx_edges T) (Some (nx_nodes T))) p o.
