(** Model of the Python front end of find_embedding: minorminer/_minorminer.pyx (88-307, 322-444,
    682-726) and [labeldict] in minorminer/_minorminer_h.pxi (27-37).  Labels are the elements of a
    type with decidable equality (hashable Python objects); a dict is the list of its items in
    iteration order; exceptions raised by the front end are [Err Corrupt]. *)
From stdpp Require Import base list numbers gmap.
From Verif Require Import Base GraphModel EmbModel QueueModel PathModel ParamModel.

(** A graph as the caller gives it: the edges (edge list, or [E.edges()]), and the nodes when the
    object has an attribute [edges] (713-716) *)
Record pygraph (A : Type) := mkPG { pg_edges : list (A * A); pg_nodes : option (list A) }.
Arguments mkPG {A}. Arguments pg_edges {A}. Arguments pg_nodes {A}.

(** What the caller passes besides the two graphs; [py_opts] are the plain options (its chain maps
    are not used) *)
Record pyparams (A : Type) := mkPP {
  py_opts : params;
  py_fixed : list (A * list A);
  py_initial : list (A * list A);
  py_restrict : list (A * list A);
  py_suspend : list (A * list (list A)) }.
Arguments mkPP {A}. Arguments py_opts {A}. Arguments py_fixed {A}. Arguments py_initial {A}.
Arguments py_restrict {A}. Arguments py_suspend {A}.

Section py.
Context {A : Type} `{!EqDecision A}.
(** 423: the label [("__MINORMINER_INTERNAL_PIN_FOR_SUSPENSION", v, i)] *)
Context (pin : A -> nat -> A).

(** _minorminer_h.pxi 27-37: a dict from labels to indices, kept as the list [_label]; [L[a]] gives
    the index and adds the label if it is missing *)
Definition lidx (L : list A) (a : A) : option nat := fst <$> list_find (fun x => a = x) L.
Definition lget (L : list A) (a : A) : list A * nat :=
  match lidx L a with Some k => (L, k) | None => (L ++ [a], length L) end.

(** 709-726 *)
Definition read_edges (es : list (A * A)) (st : list A * graph) : list A * graph :=
  fold_left (fun st e =>
      let '(L, i) := lget (fst st) (fst e) in
      let '(L, j) := lget L (snd e) in
      (L, gpush (snd st) i j)) es st.
Definition read_graph (G : pygraph A) : list A * graph :=
  let '(L, g) := read_edges (pg_edges G) ([], mkGraph 0 []) in
  match pg_nodes G with
  | None => (L, g)
  | Some ns =>
      let L' := fold_left (fun L a => fst (lget L a)) ns L in
      (L', fold_left (fun g i => gpush g i i) (seq (length L) (length L' - length L)) g)
  end.

(** [std::map::insert]: an existing entry is kept *)
Fixpoint cm_insert (k : nat) (C : list nat) (m : cmap) : cmap :=
  match m with
  | [] => [(k, C)]
  | (k', C') :: m' => if decide (k < k') then (k, C) :: m else if decide (k = k') then m else (k', C') :: cm_insert k C m'
  end.
(** the labels of a chain; an unknown label raises (690-693) *)
Definition chain_of (TL : list A) (C : list A) : res (list nat) :=
  foldM (fun r x => match lidx TL x with Some k => Ok (r ++ [k]) | None => Err Corrupt end) C [].
(** 682-697: empty chains are skipped *)
Definition get_chainmap (SL TL : list A) (C : list (A * list A)) : res cmap :=
  foldM (fun m '(a, ch) =>
      match ch with
      | [] => Ok m
      | _ => let! c := chain_of TL ch in
             match lidx SL a with Some k => Ok (cm_insert k c m) | None => Err Corrupt end
      end) C [].

Record parsed := mkParsed {
  ps_SL : list A; ps_Sg : graph; ps_TL : list A; ps_Tg : graph;
  ps_fixed : cmap; ps_pins : nat }.

(** 421-443: one blob *)
Definition add_blob (v : A) (s : parsed) (ib : nat * list A) : res parsed :=
  let '(i, blob) := ib in
  let z := pin v i in
  if bool_decide (z ∈ ps_SL s) then Err Corrupt else
  if bool_decide (z ∈ ps_TL s) then Err Corrupt else
  let! (TL, Tg) := foldM (fun '(TL, Tg) q =>
      if bool_decide (q ∈ TL) then
        let '(TL, a) := lget TL z in
        let '(TL, b) := lget TL q in
        Ok (TL, gpush Tg a b)
      else Err Corrupt) blob (ps_TL s, ps_Tg s) in
  match blob with
  | [] => Ok s
  | _ =>
      let '(SL, k) := lget (ps_SL s) z in
      let '(TL, t) := lget TL z in
      let F := cm_insert k [t] (ps_fixed s) in
      if bool_decide (v ∈ SL) then
        let '(SL, u) := lget SL v in
        Ok (mkParsed SL (gpush (ps_Sg s) u k) TL Tg F (S (ps_pins s)))
      else Err Corrupt
  end.
Definition add_suspension (s : parsed) (vb : A * list (list A)) : res parsed :=
  foldM (add_blob (fst vb)) (imap pair (snd vb)) s.

(** 402-443; [None]: [EmptySourceGraphError] *)
Definition parse (S T : pygraph A) (p : pyparams A) : res (option (parsed * params)) :=
  let '(SL, Sg) := read_graph S in
  match SL with
  | [] => Ok None
  | _ =>
    let '(TL, Tg) := read_graph T in
    match TL with
    | [] => Err Corrupt
    | _ =>
      let! F := get_chainmap SL TL (py_fixed p) in
      let! ini := get_chainmap SL TL (py_initial p) in
      let! R := get_chainmap SL TL (py_restrict p) in
      let! s := foldM add_suspension (py_suspend p) (mkParsed SL Sg TL Tg F 0) in
      let o := py_opts p in
      Ok (Some (s, mkParams (p_max_no_improvement o) (p_tries o) (p_verbose o) (p_interactive o) (p_inner_rounds o)
        (p_max_fill o) (p_return_overlap o) (p_chainlength_patience o) (p_threads o) (p_skip_init o) (ps_fixed s) ini R))
    end
  end.

(** [labeldict.label]: an index out of range raises *)
Definition label (L : list A) (k : nat) : res A := match L !! k with Some a => Ok a | None => Err Corrupt end.
Definition labels (L : list A) (C : list nat) : res (list A) :=
  foldM (fun r z => let! a := label L z in Ok (r ++ [a])) C [].

(** what the function returns: a dict, or a dict and the success flag *)
Inductive pyresult := PyDict (d : list (A * list A)) | PyPair (d : list (A * list A)) (ok : bool).

(** 286-307 *)
Definition py_find_embedding (S T : pygraph A) (p : pyparams A) (o : oracle) : res pyresult :=
  let! x := parse S T p in
  match x with
  | None => Ok (PyDict [])
  | Some (s, prm) =>
      let! (ok, cs) := find_embedding (ps_Sg s) (ps_Tg s) prm o in
      let cs := default [] cs in
      let! d := foldM (fun d v =>
          let! C := vget cs v in
          let! a := label (ps_SL s) v in
          let! D := labels (ps_TL s) C in
          Ok (d ++ [(a, D)])) (seq 0 (length cs - ps_pins s)) [] in
      Ok (if p_return_overlap prm then PyPair d ok else PyDict d)
  end.
End py.
