(** What is claimed of [lattice_size_lower_bound], and the graphs that are not made in this repository. *)
From stdpp Require Import base list numbers.
From Verif Require Import NxModel SpecNx FeasModel.

(** the parameters that are used *)
Definition uses {A : Type} (T : option (nxgraph A * family * nat)) (topology : option family) (t : option nat) (fam : family) (tt : nat) : Prop :=
  (T = None /\ topology = Some fam /\ tt = default 4 t) \/ (exists g tile, T = Some (g, fam, tile) /\ tt = default tile t).
(** a lattice has no more nodes than its size allows *)
Definition lattice_nodes {A : Type} (gen : family -> nat -> nat -> nxgraph A) (fam : family) (t : nat) : Prop := forall m,
  match fam with
  | Chimera => length (nx_nodes (gen fam t m)) <= 2 * t * (m * m)
  | Pegasus => length (nx_nodes (gen fam t m)) + 32 * m <= 24 * (m * m) + 8
  | Zephyr => length (nx_nodes (gen fam t m)) <= t * (8 * (m * m) + 4 * m)
  end.

(** ** Chimera graphs, as dwave.graphs makes them (not part of this repository): cells in a square, in
    each cell two sides of [t] nodes joined completely; the nodes of the first side are joined to the
    same nodes of the cells above and below, those of the second side to the left and right *)
Definition cnode : Type := nat * nat * nat * nat.
Definition chimera_arc (a b : cnode) : Prop :=
  let '(i, j, u, k) := a in let '(i', j', u', k') := b in
  (i' = i /\ j' = j /\ u = 0 /\ u' = 1) \/ (k' = k /\ u' = u /\ u = 0 /\ i' = S i /\ j' = j) \/ (k' = k /\ u' = u /\ u = 1 /\ i' = i /\ j' = S j).
Global Instance chimera_arc_dec a b : Decision (chimera_arc a b).
Proof. destruct a as [[[i j] u] k], b as [[[i' j'] u'] k']. unfold chimera_arc. apply _. Defined.
Definition chimera_nodes (m t : nat) : list cnode := list_prod (list_prod (list_prod (seq 0 m) (seq 0 m)) [0; 1]) (seq 0 t).
Definition chimera_graph (m t : nat) : nxgraph cnode :=
  mkNx (remove_dups (chimera_nodes m t)) (remove_dups (filter (fun e => chimera_arc e.1 e.2) (list_prod (chimera_nodes m t) (chimera_nodes m t)))).
(** a star with more leaves than the degrees of the lattice allow *)
Definition star_graph (n : nat) : nxgraph cnode := mkNx ((fun k => (0, 0, 0, k)) <$> seq 0 (S n)) ((fun k => ((0, 0, 0, 0), (0, 0, 0, k))) <$> seq 1 n).

(** [a] has at least [d] neighbours; among the nodes of [T] there are as many with [d] neighbours as among
    those of [S] *)
Definition degree_ge {A : Type} (g : nxgraph A) (d : nat) (a : A) : Prop :=
  exists l, NoDup l /\ length l = d /\ forall b, b ∈ l -> nx_adj g a b.
Definition as_many {A : Type} (S T : nxgraph A) (d : nat) : Prop :=
  forall l, NoDup l -> (forall x, x ∈ l -> x ∈ nx_nodes S /\ degree_ge S d x) ->
    exists l', NoDup l' /\ length l' = length l /\ forall q, q ∈ l' -> q ∈ nx_nodes T /\ degree_ge T d q.
