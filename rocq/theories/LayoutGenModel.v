(** Model of the layouts that minorminer/layout/layout.py computes: [graph_layout] and [_pack_components].
    Coordinates are rational numbers.  The layouts of dwave.graphs, the layout function given by the user,
    the rotation into the smallest box (scipy's convex hull and trigonometry) and rpack are arbitrary
    functions.  An exception is [Err BadInit]; a layout whose positions become NaN is [Err Corrupt]. *)
From Coq Require Import QArith Qabs Qminmax Qround.
From stdpp Require Import base list numbers.
From Verif Require Import Base LayoutModel.

(** [np.min(.., axis=0)] and [np.max(.., axis=0)] *)
Definition mins (L : rows) : point := match L with [] => [] | r :: L => foldl (zip_with Qmin) r L end.
Definition maxs (L : rows) : point := match L with [] => [] | r :: L => foldl (zip_with Qmax) r L end.

(** layout.py 670-690 [_set_dim_and_center] *)
Definition set_dim_and_center (dim : option nat) (center : option point) : res (nat * point) :=
  let d := match dim, center with Some d, _ => d | None, None => 2 | None, Some c => length c end in
  let c := match center with Some c => c | None => replicate d 0%Q end in
  if length c =? d then Ok (d, c) else Err BadInit.
(** 344-359 [_nx_to_graph_layout] *)
Definition nx_to_graph_layout (center : point) (scale : Q) : res (point * Q) :=
  match center with
  | c0 :: c1 :: rest => Ok ((c0 - scale)%Q :: (c1 + scale)%Q :: rest, (2 * scale)%Q)
  | _ => Err BadInit
  end.

(** 311-319: [A] and [B] are the two factors *)
Definition stretch (d : nat) (corner : point) (x0 y1 A B : Q) (a : point) : point :=
  zip_with Qplus (zip_with Qmult (zip_with Qminus a [x0; y1]) [A; B] ++ replicate (d - 2) 0%Q) corner.
(** 241-327 [graph_layout]; [known]: the family of the graph is one of the three; [m] and [n] are its rows
    and columns; [dwave dim center scale] is the layout made by dwave.graphs, one row for each node *)
Definition graph_layout (known : bool) (m n : nat) (dwave : nat -> point -> Q -> rows)
    (dim : option nat) (center : option point) (scale : option Q) : res rows :=
  if negb known then Err BadInit else
  let! dc := set_dim_and_center dim center in
  let s := match scale with Some s => s | None => (inject_Z (Z.of_nat (n `max` m)) / 2)%Q end in
  let! cs := nx_to_graph_layout dc.2 s in
  let '(d, corner, side) := (dc.1, cs.1, cs.2) in
  let raw := dwave d corner side in
  let arr := (fun r => take 2 (zip_with Qminus r corner)) <$> raw in
  match mins arr, maxs arr with
  | [x0; y0], [x1; y1] =>
    let! L :=
      if Qeq_bool x0 0 && Qeq_bool x1 side && Qeq_bool y0 (- side) && Qeq_bool y1 0 then Ok raw
      else if Qeq_bool (x1 - x0) 0 || Qeq_bool (y1 - y0) 0 then Err Corrupt
      else Ok (stretch d corner x0 y1 (side / (x1 - x0))%Q (side / (y1 - y0))%Q <$> arr) in
    new_layout L None None None
  | _, _ => Err BadInit
  end.

(** 718-723, the end of [_rotate_to_minimize_area]: the points are moved so that their box is centred, and the
    sides of the box are returned *)
Definition fit_box (ps : rows) : res (rows * (Q * Q)) :=
  match mins ps, maxs ps with
  | [x0; y0], [x1; y1] => Ok ((fun p => zip_with Qminus p [((x1 + x0) / 2)%Q; ((y1 + y0) / 2)%Q]) <$> ps, ((x1 - x0)%Q, (y1 - y0)%Q))
  | _, _ => Err BadInit
  end.
Section pack.
  (** the layout of a component (a dict in the order of its keys), the rotation, and rpack *)
  Context (lay : list nat -> list (nat * point)) (turn : rows -> rows) (rpack : list (Z * Z) -> list (Z * Z)).
  (** 749-765; [int(ceil(z)+.001)] is the integer above [z] *)
  Definition place_component (c : list nat) : res (list (nat * point) * (Z * Z)) :=
    match c with
    | [] => Ok ([], (1, 1)%Z)
    | [v] => Ok ([(v, [0; 0]%Q)], (1, 1)%Z)
    | [v; w] => Ok ([(v, [- (1 # 2); 0]%Q); (w, [1 # 2; 0]%Q)], (2, 1)%Z)
    | _ =>
      let cpos := lay c in
      let! r := fit_box (turn cpos.*2) in
      Ok (zip cpos.*1 r.1, (Qceiling r.2.1, Qceiling r.2.2))
    end.
  Fixpoint place_components (cs : list (list nat)) : res (list (list (nat * point) * (Z * Z))) :=
    match cs with
    | [] => Ok []
    | c :: cs => let! b := place_component c in let! bs := place_components cs in Ok (b :: bs)
    end.
  (** 768-772 *)
  Definition shift_box (rp : Z * Z) (b : list (nat * point) * (Z * Z)) : list (nat * point) :=
    (fun vp => (vp.1, zip_with Qplus (zip_with Qplus vp.2 [inject_Z rp.1; inject_Z rp.2]) [(inject_Z b.2.1 / 2)%Q; (inject_Z b.2.2 / 2)%Q])) <$> b.1.
  (** 725-778 [_pack_components] for two dimensions; the components are those of the graph.  rpack raises
      an exception if a side is not positive (_extern/rpack/_core.pyx 121-134).  The rows of the scaled layout are in the order of the
      components here. *)
  Definition pack_components (comps : list (list nat)) (scale : option Q) : res (list (nat * point)) :=
    let! bs := place_components comps in
    if existsb (fun wh => (wh.1 <=? 0)%Z || (wh.2 <=? 0)%Z) bs.*2 then Err BadInit else
    let layout := concat (zip_with shift_box (rpack bs.*2) bs) in
    match scale with
    | None => Ok layout
    | Some s =>
      let L := layout.*2 in
      match L with
      | [] => Err BadInit
      | _ =>
        if Qeq_bool (layout_scale L) 0 then Err Corrupt else
        Ok ((fun vp => (vp.1, zip_with Qplus (zip_with (fun x c => s / layout_scale L * (x - c))%Q vp.2 (layout_center L)) (layout_center L))) <$> layout)
      end
    end.
End pack.
