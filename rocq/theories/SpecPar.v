(** What is claimed of several embeddings at once. *)
From stdpp Require Import base list numbers.
From Verif Require Import NxModel SpecNx ParModel.

Section spec.
Context {A : Type}.

(** the chains that a returned dict gives *)
Definition cval_nodes (v : cval A) : list A := match v with Node q => [q] | Chain c => c end.
Definition chains_of (e : pyemb A) : list (A * list A) := (fun kv => (kv.1, cval_nodes kv.2)) <$> e.
(** values are target nodes, or tuples with [one_to_iterable] *)
Definition has_format (one_to_iterable : bool) (e : pyemb A) : Prop :=
  forall k v, (k, v) ∈ e -> match v with Node _ => one_to_iterable = false | Chain _ => one_to_iterable = true end.
(** a dict whose keys are source nodes and that is an embedding of [S] in [T] *)
Record good_emb (one_to_iterable : bool) (S T : nxgraph A) (e : pyemb A) : Prop := {
  ge_format : has_format one_to_iterable e;
  ge_keys : NoDup e.*1;
  ge_source : forall k, k ∈ e.*1 -> k ∈ nx_nodes S;
  ge_embedding : nx_embedding (chains_of e) S T
}.
(** no target node is used by two of the embeddings *)
Definition all_disjoint (embs : list (pyemb A)) : Prop :=
  forall i j e1 e2 x y q, embs !! i = Some e1 -> embs !! j = Some e2 -> i <> j ->
    on_chain (chains_of e1) x q -> on_chain (chains_of e2) y q -> False.
Definition used (embs : list (pyemb A)) (q : A) : Prop := exists e x, e ∈ embs /\ on_chain (chains_of e) x q.

(** the same nodes and edges, in another order *)
Record same_graph (g h : nxgraph A) : Prop := {
  sg_nodes : nx_nodes g ≡ₚ nx_nodes h;
  sg_adj : forall a b, nx_adj g a b <-> nx_adj h a b;
  sg_wf : nx_wf g <-> nx_wf h
}.
Definition honest_shuffle (w : world A) : Prop := forall i g, same_graph g (w_shuffled w i g).
(** every answer of the embedder is empty or an embedding of the graphs it was given *)
Definition honest_embedder (one_to_iterable : bool) (w : world A) : Prop :=
  forall i S T, nx_wf S -> nx_wf T -> w_embedder w i S T = [] \/ good_emb one_to_iterable S T (w_embedder w i S T).
(** the embedder finds an embedding if there is one (for an empty source graph it would be empty) *)
Definition complete_embedder (one_to_one : bool) (w : world A) : Prop :=
  forall i S T, nx_wf S -> nx_wf T -> nx_nodes S <> [] -> embeds one_to_one S T -> w_embedder w i S T <> [].
(** there is an embedding of [S] in the part of [T] that the embeddings do not use *)
Definition embeds_beside (one_to_one : bool) (S T : nxgraph A) (embs : list (pyemb A)) : Prop :=
  exists emb, NoDup emb.*1 /\ nx_embedding emb S T /\ (one_to_one = true -> one_node_chains emb S) /\
    forall x q, x ∈ nx_nodes S -> on_chain emb x q -> ~ used embs q.
End spec.
