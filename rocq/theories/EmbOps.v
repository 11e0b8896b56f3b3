(** Histories of embedding operations: the embeddings that can be produced by any sequence
    of the operations of class [embedding], each called as the pathfinder calls it. *)
From stdpp Require Import base list numbers gmap.
From Verif Require Import Base ChainModel EmbModel SpecEmb.

(** following [parents] from [q] along target edges, one arrives at [goal] without passing
    through it before; in between only qubits below [n] *)
Inductive walk (tgt : nat -> nat -> Prop) (n : nat) (parents : list (option nat)) (goal : nat -> Prop) : nat -> Prop :=
| walk_in q : goal q -> walk tgt n parents goal q
| walk_step q p : ~ goal q -> q < n -> parents !! q = Some (Some p) -> tgt q p ->
    walk tgt n parents goal p -> walk tgt n parents goal q.
(** a usable starting point: a goal qubit marked as a source, or the start of a walk *)
Definition startable tgt n parents (goal : nat -> Prop) (q : nat) : Prop :=
  (goal q /\ parents !! q = Some None) \/ (~ goal q /\ walk tgt n parents goal q).

(** Search data for one neighbour [v] that is usable from the root [q] and from every
    qubit marked as visited with a finite distance. *)
Definition search_data (pb : problem) (e : emb) (q v : nat)
    (parents : list (list (option nat))) (distances visited : list (list Z)) : Prop :=
  exists par dist vis, parents !! v = Some par /\ distances !! v = Some dist /\
    visited !! v = Some vis /\ length vis = nq pb /\ length dist = nq pb + nr pb /\
    (forall d, d ∈ dist -> (d <= max_distance)%Z) /\
    startable (adjq pb) (nq pb) par (in_chain e v) q /\
    (forall p d s, p < nq pb -> vis !! p = Some s -> s <> 0%Z -> dist !! p = Some d -> d <> max_distance ->
       startable (adjq pb) (nq pb) par (in_chain e v) p).

Section hist.
Context (pb : problem) (E : nat -> nat -> Prop).

(** neighbour lists representing the source edges [E], in any order *)
Definition vn_ok (vn : list (list nat)) : Prop := vn_wf pb vn /\ forall u v, nbr vn u v <-> E u v.

(** [u] has no chain and no chain links to it *)
Definition no_chain (e : emb) (u : nat) : Prop :=
  chains e !! u = Some empty_chain /\ forall v, ~ has_link e v u.

(** a construction attempt for [u]: build a chain at some root *)
Definition attempt (vn : list (list nat)) (u : nat) (e e' : emb) : Prop :=
  exists q parents distances visited l,
    vn_ok vn /\ u < nv pb /\ q < nq pb /\ vn !! u = Some l /\ no_chain e u /\
    (forall v, v ∈ l -> (exists x, in_chain e v x) -> search_data pb e q v parents distances visited) /\
    construct_chain_steiner vn e u q parents distances visited = Ok e'.

(** failed attempts between freezing and thawing: build a chain, tear it out again *)
Inductive retried (u : nat) (e : emb) : emb -> Prop :=
| rt_none : retried u e e
| rt_try vn e1 e2 e3 : retried u e e1 -> attempt vn u e1 e2 -> tear_out vn e2 u = Ok e3 -> retried u e e3.

Inductive reach : emb -> Prop :=
| r_new : reach (emb_new pb)
| r_init vn fixed initial e : vn_ok vn -> chain_input pb fixed initial ->
    emb_init pb vn fixed initial = Ok e -> reach e
| r_copy dst src e : reach dst -> reach src -> emb_assign dst src = Ok e -> reach e
| r_steal_all vn u e e' : reach e -> vn_ok vn -> u < nv pb -> steal_all pb vn e u = Ok e' -> reach e'
| r_tear_out vn u e e' : reach e -> vn_ok vn -> u < nv pb -> tear_out vn e u = Ok e' -> reach e'
| r_freeze u e n e' : reach e -> u < nv pb -> freeze_out e u = Ok (n, e') -> reach e'
| r_thaw u e n e1 e2 e3 : reach e -> u < nv pb -> freeze_out e u = Ok (n, e1) -> retried u e1 e2 ->
    thaw_back e2 u = Ok e3 -> reach e3
| r_construct vn u e e' : reach e -> attempt vn u e e' -> reach e'
| r_flip vn u target e e' : reach e -> vn_ok vn -> u < nv pb ->
    (forall v, E u v -> v < nv pb -> (exists q, in_chain e v q) -> has_link e u v) ->
    flip_back pb vn e u target = Ok e' -> reach e'.
End hist.
