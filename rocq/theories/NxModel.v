(** Model of minorminer/utils/diagnostic.py (25-185): the checks of an embedding.  A networkx graph is
    the list of its nodes and the list of its edges, each once.  Labels are the elements of a type with
    decidable equality.  A dict is the list of its items; a set is a list without repeats, in the order
    of insertion (Python leaves the order open, which changes only the order of reports and which
    variable a [ChainOverlapError] names first). *)
From stdpp Require Import base list numbers.
From Verif Require Import Base.

Record nxgraph (A : Type) := mkNx { nx_nodes : list A; nx_edges : list (A * A) }.
Arguments mkNx {A}. Arguments nx_nodes {A}. Arguments nx_edges {A}.

Section nx.
Context {A : Type} `{!EqDecision A}.

(** [d.get(k)] *)
Fixpoint dlookup {B} (d : list (A * B)) (k : A) : option B :=
  match d with
  | [] => None
  | (k', x) :: d => if decide (k' = k) then Some x else dlookup d k
  end.
(** [d[k] = x]: the place of a key that is already there is kept *)
Fixpoint dstore {B} (d : list (A * B)) (k : A) (x : B) : list (A * B) :=
  match d with
  | [] => [(k, x)]
  | (k', x') :: d => if decide (k' = k) then (k, x) :: d else (k', x') :: dstore d k x
  end.
(** [s.add(x)] *)
Definition sadd (s : list A) (x : A) : list A := if decide (x ∈ s) then s else s ++ [x].

(** [g.has_edge(a, b)] *)
Definition nx_has_edge (g : nxgraph A) (a b : A) : bool := bool_decide ((a, b) ∈ nx_edges g \/ (b, a) ∈ nx_edges g).
(** [g.subgraph(s)] *)
Definition nx_subgraph (g : nxgraph A) (s : list A) : nxgraph A :=
  mkNx (filter (fun a => a ∈ s) (nx_nodes g)) (filter (fun e => e.1 ∈ s /\ e.2 ∈ s) (nx_edges g)).
(** [nx.is_connected]: what is reached from the first node is everything.  As many rounds as there are
    nodes; in each round the neighbours of what was reached are added. *)
Definition nx_spread (g : nxgraph A) (seen : list A) : list A :=
  filter (fun y => y ∈ seen \/ Exists (fun x => nx_has_edge g x y = true) seen) (nx_nodes g).
Fixpoint nx_reach (n : nat) (g : nxgraph A) (seen : list A) : list A :=
  match n with 0 => seen | S n => nx_reach n g (nx_spread g seen) end.
Definition nx_is_connected (g : nxgraph A) : bool :=
  match nx_nodes g with
  | [] => false
  | a :: _ => length (nx_reach (length (nx_nodes g)) g [a]) =? length (nx_nodes g)
  end.

(** what is yielded *)
Inductive report :=
  | MissingChainError (x : A)
  | InvalidNodeError (x q : A)
  | DisconnectedChainError (x : A)
  | ChainOverlapError (q x y : A)
  | MissingEdgeError (x y : A).

(** 87-89: [labels], [embedded], [overlaps]; and what was yielded so far *)
Record dstate := mkDiag { dg_labels : list (A * list A); dg_embedded : list A; dg_overlaps : list A; dg_out : list report }.

(** 101-107: one node [q] of the chain of [x] *)
Definition diag_node (T : nxgraph A) (x : A) (st : dstate * bool) (q : A) : dstate * bool :=
  let '(s, all_present) := st in
  if decide (q ∈ nx_nodes T) then
    match dlookup (dg_labels s) q with
    | None => (mkDiag (dstore (dg_labels s) q [x]) (dg_embedded s) (dg_overlaps s) (dg_out s), all_present)
    | Some l =>
        if decide (x ∈ l) then (s, all_present)
        else (mkDiag (dstore (dg_labels s) q (l ++ [x])) (dg_embedded s) (sadd (dg_overlaps s) q) (dg_out s), all_present)
    end
  else (mkDiag (dg_labels s) (dg_embedded s) (dg_overlaps s) (dg_out s ++ [InvalidNodeError x q]), false).
(** 90-112: one source node [x] *)
Definition diag_var (emb : list (A * list A)) (T : nxgraph A) (s : dstate) (x : A) : dstate :=
  match dlookup emb x with
  | None | Some [] => mkDiag (dg_labels s) (dg_embedded s) (dg_overlaps s) (dg_out s ++ [MissingChainError x])
  | Some embx =>
      let '(s, all_present) := foldl (diag_node T x) (s, true) embx in
      if (all_present : bool) then
        mkDiag (dg_labels s) (sadd (dg_embedded s) x) (dg_overlaps s)
          (dg_out s ++ if nx_is_connected (nx_subgraph T embx) then [] else [DisconnectedChainError x])
      else s
  end.
(** 114-118 *)
Definition diag_overlaps (s : dstate) : list report :=
  q ← dg_overlaps s;
  match dlookup (dg_labels s) q with
  | Some (root :: rest) => (fun x => ChainOverlapError q root x) <$> rest
  | _ => []
  end.
(** 120-122: the edges of the graph [yielded] *)
Definition diag_yielded (T : nxgraph A) (s : dstate) : list (A * A) :=
  e ← nx_edges (nx_subgraph T ((dg_labels s).*1));
  x ← default [] (dlookup (dg_labels s) e.1);
  y ← default [] (dlookup (dg_labels s) e.2);
  [(x, y)].
(** 124-128 *)
Definition diag_edges (S T : nxgraph A) (s : dstate) : list report :=
  let yielded := mkNx [] (diag_yielded T s) in
  e ← nx_edges S;
  if decide (e.1 = e.2) then [] else
  if decide (e.1 ∈ dg_embedded s /\ e.2 ∈ dg_embedded s) then
    if nx_has_edge yielded e.1 e.2 then [] else [MissingEdgeError e.1 e.2]
  else [].
(** 25-128 [diagnose_embedding] *)
Definition diagnose_embedding (emb : list (A * list A)) (S T : nxgraph A) : list report :=
  let s := foldl (diag_var emb T) (mkDiag [] [] [] []) (nx_nodes S) in
  dg_out s ++ diag_overlaps s ++ diag_edges S T s.
(** 131-149 [is_valid_embedding] *)
Definition is_valid_embedding (emb : list (A * list A)) (S T : nxgraph A) : bool :=
  match diagnose_embedding emb S T with [] => true | _ => false end.
(** 152-185 [verify_embedding]: the first report whose class is not ignored is raised; [None]: True is
    returned *)
Definition verify_embedding (emb : list (A * list A)) (S T : nxgraph A) (ignored : report -> bool) : option report :=
  List.find (fun r => negb (ignored r)) (diagnose_embedding emb S T).
End nx.
Arguments report : clear implicits.
