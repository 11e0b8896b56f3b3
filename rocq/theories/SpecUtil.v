(** Independent vocabulary for minorminer/utils: grids, the Chimera lattice without missing parts, and
    minor embeddings given as dicts. *)
From stdpp Require Import base list numbers relations.
From Verif Require Import SpecBus PyCacheModel.

(** the dict [d] is a minor embedding of the graph with the nodes [V] and the edges [adjS] in the graph
    with the nodes [W] and the edges [adjT]; its keys are the nodes of the source *)
Record dict_embedding {X Y : Type} (V : X -> Prop) (adjS : X -> X -> Prop) (W : Y -> Prop) (adjT : Y -> Y -> Prop)
  (d : list (X * list Y)) : Prop := {
  de_once : NoDup d.*1;
  de_keys : forall x, x ∈ d.*1 <-> V x;
  de_chain : forall x C, (x, C) ∈ d -> C <> [] /\ NoDup C /\ (forall q, q ∈ C -> W q);
  de_connected : forall x C p q, (x, C) ∈ d -> p ∈ C -> q ∈ C -> rtc (fun a b => a ∈ C /\ b ∈ C /\ adjT a b) p q;
  de_disjoint : forall x y C D q, (x, C) ∈ d -> (y, D) ∈ d -> q ∈ C -> q ∈ D -> x = y;
  de_edges : forall x y, adjS x y -> x <> y -> exists C D p q, (x, C) ∈ d /\ (y, D) ∈ d /\ p ∈ C /\ q ∈ D /\ adjT p q
}.

(** ** The grid with the side lengths [dim]: points differ by one in one coordinate *)
Definition grid_point (dim : list Z) (p : list nat) : Prop := Forall2 (fun x d => (Z.of_nat x < d)%Z) p dim.
Definition grid_step (p q : list nat) : Prop := exists i x, p !! i = Some x /\ q = <[i := S x]> p.
Definition grid_adj (dim : list Z) (p q : list nat) : Prop :=
  grid_point dim p /\ grid_point dim q /\ (grid_step p q \/ grid_step q p).

(** ** The Chimera lattice with [m] rows, [n] columns and [t] qubits per shore *)
Inductive chimera_coupler (m n t : nat) : nat -> nat -> Prop :=
  | cc_cell y x k l : y < m -> x < n -> k < t -> l < t ->
      chimera_coupler m n t (qubit n t y x false k) (qubit n t y x true l)
  | cc_column y x k : S y < m -> x < n -> k < t ->
      chimera_coupler m n t (qubit n t y x false k) (qubit n t (S y) x false k)
  | cc_row y x k : y < m -> S x < n -> k < t ->
      chimera_coupler m n t (qubit n t y x true k) (qubit n t y (S x) true k).
Definition chimera_adj (m n t : nat) (p q : nat) : Prop := chimera_coupler m n t p q \/ chimera_coupler m n t q p.

(** at most [n] and [t] are left out: a square lattice, four qubits per shore *)
Definition lattice_size (m : Z) (n t : option Z) : Z * Z * Z := (m, default m n, default 4%Z t).
(** between one and three side lengths, none larger than the lattice, whose sides are positive *)
Definition grid_fits (dim : list Z) (m : Z) (n t : option Z) : Prop :=
  let '(m, n, t) := lattice_size m n t in
  (0 < m)%Z /\ (0 < n)%Z /\ (0 < t)%Z /\ 1 <= length dim <= 3 /\
  forall i d s, dim !! i = Some d -> [m; n; t] !! i = Some s -> (d <= s)%Z.

(** ** Requests for cliques and bicliques: a number stands for the labels from 0 on; two numbers for
    successive labels *)
Definition requested (k : labels) : list nat := match k with Count n => seq 0 n | Names l => l end.
Definition requested_second (a b : labels) : list nat :=
  match a, b with Count m, Count n => seq m n | _, _ => requested b end.
(** the dict is an embedding of the complete graph on [l] in the graph ([nodes], [edges]) *)
Definition clique_dict_on (nodes : list nat) (edges : list (nat * nat)) (l : list nat) (d : list (nat * list nat)) : Prop :=
  dict_embedding (fun x => x ∈ l) (fun x y => x ∈ l /\ y ∈ l) (fun q => q ∈ nodes) (has_edge edges) d.
(** the two dicts are an embedding of the complete bipartite graph on [l] and [r] *)
Definition biclique_dicts_on (nodes : list nat) (edges : list (nat * nat)) (l r : list nat) (dl dr : list (nat * list nat)) : Prop :=
  (forall x, x ∈ dl.*1 <-> x ∈ l) /\ (forall x, x ∈ dr.*1 <-> x ∈ r) /\
  dict_embedding (fun x => x ∈ l \/ x ∈ r) (fun x y => (x ∈ l /\ y ∈ r) \/ (x ∈ r /\ y ∈ l)) (fun q => q ∈ nodes) (has_edge edges) (dl ++ dr).
