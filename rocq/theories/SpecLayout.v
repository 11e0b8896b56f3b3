(** Specification for minorminer/layout: positions, placements and the graphs they refer to.  Nothing
    here mentions how placements are computed. *)
From Coq Require Import QArith Qabs.
From stdpp Require Import base list numbers gmap relations.
From Verif Require Import NxModel SpecNx SpecBus SpecFrag SpecUtil.

(** ** Points *)
(** the square of the Euclidean distance *)
Definition sqdist (p q : list Q) : Q := foldr Qplus 0%Q (zip_with (fun x y => (x - y) * (x - y))%Q p q).
Definition nearer (u p q : list Q) : Prop := (sqdist u p < sqdist u q)%Q.
(** [p] is the barycentre of the points [ps]: each coordinate is the average *)
Definition barycentre (ps : list (list Q)) (p : list Q) : Prop :=
  forall i x, p !! i = Some x ->
    Forall (fun q => is_Some (q !! i)) ps /\
    (x * inject_Z (Z.of_nat (length ps)) == foldr Qplus 0 ((fun q => default 0 (q !! i)) <$> ps))%Q.

(** ** Connected sets of nodes of a graph *)
Definition connected_set (G : nxgraph nat) (X : gset nat) : Prop :=
  X <> ∅ /\ (forall v, v ∈ X -> v ∈ nx_nodes G) /\ joined_in (nx_adj G) (fun v => v ∈ X).

(** every node has one position, of [d] coordinates *)
Definition layout_of (G : nxgraph nat) (d : nat) (tl : list (nat * list Q)) : Prop :=
  NoDup tl.*1 /\ (forall v, v ∈ nx_nodes G -> exists p, (v, p) ∈ tl) /\ (forall v p, (v, p) ∈ tl -> length p = d).
(** the barycentre of a set of nodes under a layout *)
Definition centre_of (tl : list (nat * list Q)) (d : nat) (X : gset nat) (p : list Q) : Prop :=
  length p = d /\
  exists ps, length ps = size X /\ barycentre ps p /\ exists l, NoDup l /\ list_to_set l = X /\ Forall2 (fun v q => (v, q) ∈ tl) l ps.

(** ** Nearest neighbours: what scipy's KDTree.query gives for at most as many neighbours as points *)
Definition nearest (pts : list (list Q)) (u : list Q) (k : nat) (r : list (Q * nat)) : Prop :=
  length r = k /\ NoDup r.*2 /\ (forall i, i ∈ r.*2 -> i < length pts) /\
  forall i j p q, i ∈ r.*2 -> j ∉ r.*2 -> pts !! i = Some p -> pts !! j = Some q -> (sqdist u p <= sqdist u q)%Q.

(** ** Placements by distance *)
(** [X] is a choice for a source node at [u]: a connected set of at most [hi] nodes, such that fewer than
    [k] of the connected sets with [lo] to [hi] nodes are nearer *)
Definition near_choice (T : nxgraph nat) (d : nat) (tl : list (nat * list Q)) (lo hi k : nat) (u : list Q) (X : gset nat) : Prop :=
  connected_set T X /\ size X <= hi /\ exists p, centre_of tl d X p /\
    forall Ys, NoDup Ys -> (forall Y, Y ∈ Ys -> connected_set T Y /\ lo <= size Y <= hi /\ forall q, centre_of tl d Y q -> nearer u q p) -> length Ys < k.
(** the distance plus a penalty for each node of [X], which grows with the number of sets in [prev] that
    contain the node *)
Definition uses (prev : list (gset nat)) (v : nat) : nat := length (filter (fun Y => v ∈ Y) prev).
Definition penalized (base : nat) (prev : list (gset nat)) (dist : Q) (X : gset nat) : Q :=
  (dist + inject_Z (Z.of_nat (sum_list ((fun v => (base ^ uses prev v)%nat) <$> elements X))))%Q.
(** among the neighbours that were found, none is cheaper than [X].  [cands] are the sets and their
    centres, [near] the distances and the indices of the neighbours; sets at the same point count as
    one *)
Definition same_point (p q : list Q) : Prop := Forall2 Qeq p q.
Definition least_penalized (prev : list (gset nat)) (cands : list (gset nat * list Q)) (near : list (Q * nat)) (X : gset nat) : Prop :=
  (exists dist i p q, (dist, i) ∈ near /\ cands.*2 !! i = Some p /\ (X, q) ∈ cands /\ same_point q p /\
    forall dist' j p', (dist', j) ∈ near -> cands.*2 !! j = Some p' ->
      exists Y q' dist'' j' p'', (Y, q') ∈ cands /\ same_point q' p' /\ (dist'', j') ∈ near /\ cands.*2 !! j' = Some p'' /\ same_point q' p'' /\
        (penalized 10 prev dist X <= penalized 10 prev dist'' Y)%Q).

(** the sets that [closest] considers, with their centres *)
Definition candidates (T : nxgraph nat) (d : nat) (tl : list (nat * list Q)) (lo hi : nat) (cands : list (gset nat * list Q)) : Prop :=
  NoDup cands.*1 /\ (forall X p, (X, p) ∈ cands -> connected_set T X /\ size X <= hi /\ centre_of tl d X p) /\
  (forall X, connected_set T X -> lo <= size X <= hi -> X ∈ cands.*1).

(** ** The box around a layout *)
(** in coordinate [i] the points of [L] lie between [lo] and [hi], and both are reached *)
Definition extent (L : list (list Q)) (i : nat) (lo hi : Q) : Prop :=
  (exists r, r ∈ L /\ r !! i = Some lo) /\ (exists r, r ∈ L /\ r !! i = Some hi) /\
  forall r x, r ∈ L -> r !! i = Some x -> (lo <= x <= hi)%Q.
Definition rectangular (L : list (list Q)) (d : nat) : Prop := L <> [] /\ forall r, r ∈ L -> length r = d.
Definition box_center (L : list (list Q)) (d : nat) (c : list Q) : Prop :=
  length c = d /\ forall i x, c !! i = Some x -> exists lo hi, extent L i lo hi /\ (x == (lo + hi) / 2)%Q.
(** half of the longest side *)
Definition box_scale (L : list (list Q)) (d : nat) (s : Q) : Prop :=
  (forall i lo hi, i < d -> extent L i lo hi -> ((hi - lo) / 2 <= s)%Q) /\
  exists i lo hi, i < d /\ extent L i lo hi /\ ((hi - lo) / 2 == s)%Q.
(** the points of [L'] are those of [L], moved without turning: in coordinate [i], [x] becomes
    [a * x + b i] *)
Definition moved (L L' : list (list Q)) (a : Q) (b : nat -> Q) : Prop :=
  Forall2 (fun r r' => length r = length r' /\ forall i x x', r !! i = Some x -> r' !! i = Some x' -> (x' == a * x + b i)%Q) L L'.

(** ** Coordinates of qubits and their numbers *)
(** Chimera: (i, j, u, k) *)
Notation chimera_qubit := (nat * nat * bool * nat)%type.
Definition chimera_in (m n t : nat) (q : chimera_qubit) : Prop := let '(i, j, u, k) := q in i < m /\ j < n /\ k < t.
Definition chimera_id (n t : nat) (q : chimera_qubit) : nat := let '(i, j, u, k) := q in qubit n t i j u k.
(** Pegasus: (u, w, k, z) *)
Notation pegasus_qubit := (bool * nat * nat * nat)%type.
Definition pegasus_in (m : nat) (q : pegasus_qubit) : Prop := let '(u, w, k, z) := q in w < m /\ k < 12 /\ z < m - 1.
Definition pegasus_id (m : nat) (q : pegasus_qubit) : nat := let '(u, w, k, z) := q in pegasus_number m u w k z.
(** Zephyr: (u, w, k, j, z) *)
Notation zephyr_qubit := (bool * nat * nat * nat * nat)%type.
Definition zephyr_in (m t : nat) (q : zephyr_qubit) : Prop := let '(u, w, k, j, z) := q in w < 2 * m + 1 /\ k < t /\ j < 2 /\ z < m.
Definition zephyr_id (m t : nat) (q : zephyr_qubit) : nat := let '(u, w, k, j, z) := q in zephyr_number m t u w k j z.

(** ** Intersection points of qubits *)
(** the set [Qs] for a source node whose scaled position is [r]: for a grid point at most 1/2 away in each
    direction, the qubits that pass through it *)
Definition crossing {Qb : Type} (points : Qb -> list (nat * nat)) (T : list Qb) (r : list Q) (a b : nat) (Qs : list Qb) : Prop :=
  (exists x y, r = [x; y] /\ (Qabs (x - inject_Z (Z.of_nat a)) <= 1 # 2)%Q /\ (Qabs (y - inject_Z (Z.of_nat b)) <= 1 # 2)%Q) /\
  forall q, q ∈ Qs <-> q ∈ T /\ (a, b) ∈ points q.
