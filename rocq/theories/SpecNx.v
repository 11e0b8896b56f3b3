(** What is claimed of the checks of an embedding: defects, in terms of the dict and the two graphs. *)
From stdpp Require Import base list numbers relations.
From Verif Require Import NxModel.

Section spec.
Context {A : Type}.

(** nodes listed once, edges listed once and joining nodes of the graph *)
Record nx_wf (g : nxgraph A) : Prop := {
  nw_nodes : NoDup (nx_nodes g);
  nw_ends : forall a b, (a, b) ∈ nx_edges g -> a ∈ nx_nodes g /\ b ∈ nx_nodes g;
  nw_edges : NoDup (nx_edges g);
  nw_once : forall a b, (a, b) ∈ nx_edges g -> (b, a) ∈ nx_edges g -> a = b
}.
Definition nx_adj (g : nxgraph A) (a b : A) : Prop := (a, b) ∈ nx_edges g \/ (b, a) ∈ nx_edges g.

(** the chain the dict gives to [x] *)
Definition chain_at (emb : list (A * list A)) (x : A) (C : list A) : Prop := (x, C) ∈ emb.
Definition on_chain (emb : list (A * list A)) (x q : A) : Prop := exists C, chain_at emb x C /\ q ∈ C.
Definition joined_in (adj : A -> A -> Prop) (P : A -> Prop) : Prop :=
  forall x y, P x -> P y -> rtc (fun a b => adj a b /\ P a /\ P b) x y.

(** [emb] maps the source nodes to a minor embedding of [S] in [T]; further keys do not matter *)
Record nx_embedding (emb : list (A * list A)) (S T : nxgraph A) : Prop := {
  ne_nonempty : forall x, x ∈ nx_nodes S -> exists q, on_chain emb x q;
  ne_nodes : forall x q, x ∈ nx_nodes S -> on_chain emb x q -> q ∈ nx_nodes T;
  ne_connected : forall x, x ∈ nx_nodes S -> joined_in (nx_adj T) (on_chain emb x);
  ne_disjoint : forall x y q, x ∈ nx_nodes S -> y ∈ nx_nodes S -> on_chain emb x q -> on_chain emb y q -> x = y;
  ne_edges : forall x y, nx_adj S x y -> x <> y -> exists p q, on_chain emb x p /\ on_chain emb y q /\ nx_adj T p q
}.

(** the chain of [x] is there and consists of target nodes *)
Definition placed (emb : list (A * list A)) (T : nxgraph A) (x : A) : Prop :=
  (exists q, on_chain emb x q) /\ forall q, on_chain emb x q -> q ∈ nx_nodes T.

(** what each report means *)
Definition real_defect (emb : list (A * list A)) (S T : nxgraph A) (r : report A) : Prop :=
  match r with
  | MissingChainError x => x ∈ nx_nodes S /\ forall q, ~ on_chain emb x q
  | InvalidNodeError x q => x ∈ nx_nodes S /\ on_chain emb x q /\ q ∉ nx_nodes T
  | DisconnectedChainError x => x ∈ nx_nodes S /\ placed emb T x /\ ~ joined_in (nx_adj T) (on_chain emb x)
  | ChainOverlapError q x y => x ∈ nx_nodes S /\ y ∈ nx_nodes S /\ x <> y /\ q ∈ nx_nodes T /\ on_chain emb x q /\ on_chain emb y q
  | MissingEdgeError x y => (x, y) ∈ nx_edges S /\ x <> y /\ placed emb T x /\ placed emb T y /\
      ~ exists p q, on_chain emb x p /\ on_chain emb y q /\ nx_adj T p q
  end.

(** every source node has a chain of one node *)
Definition one_node_chains (emb : list (A * list A)) (S : nxgraph A) : Prop :=
  forall x, x ∈ nx_nodes S -> exists q, forall p, on_chain emb x p <-> p = q.
(** [S] can be embedded in [T]; with [one_to_one], as a subgraph *)
Definition embeds (one_to_one : bool) (S T : nxgraph A) : Prop :=
  exists emb, NoDup emb.*1 /\ nx_embedding emb S T /\ (one_to_one = true -> one_node_chains emb S).
Definition no_loops (S : nxgraph A) : Prop := forall x, (x, x) ∉ nx_edges S.
Definition bipartite (g : nxgraph A) : Prop := exists side : A -> bool, forall a b, nx_adj g a b -> side a <> side b.
(** the number of nodes at the other ends of edges at [a], where there are no loops *)
Definition degree_at_most (g : nxgraph A) (n : nat) : Prop :=
  forall a l, NoDup l -> (forall b, b ∈ l -> nx_adj g a b) -> length l <= n.
End spec.
