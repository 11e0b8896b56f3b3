(** Independent vocabulary for Pegasus and Zephyr graphs: numbers of the qubits, and which pairs of qubits
    the lattice couples.  Both lattices are drawn in the plane: a qubit is a segment of a vertical
    ([u = false]) or horizontal ([u = true]) line. *)
From stdpp Require Import base list numbers relations.
From Verif Require Import SpecBus.

Definition bit (u : bool) : nat := if u then 1 else 0.

(** ** Zephyr [m], [t]: coordinates (u, w, k, j, z) as in dwave.graphs.zephyr_graph, [w < 2m+1], [k < t],
    [j < 2], [z < m] *)
Definition zephyr_number (m t : nat) (u : bool) (w k j z : nat) : nat :=
  (((bit u * (2 * m + 1) + w) * t + k) * 2 + j) * m + z.
Definition zephyr_total (m t : nat) : nat := 2 * (2 * m + 1) * t * 2 * m.
(** the two positions on its line at which a qubit crosses the lines of the other direction *)
Definition zephyr_covers (j z pos : nat) : Prop := pos = 2 * z + j \/ pos = 2 * z + j + 1.
Inductive zephyr_coupler (m t : nat) : nat -> nat -> Prop :=
  | zc_external u w k j z : w < 2 * m + 1 -> k < t -> j < 2 -> S z < m ->
      zephyr_coupler m t (zephyr_number m t u w k j z) (zephyr_number m t u w k j (S z))
  | zc_odd u w k z z' : w < 2 * m + 1 -> k < t -> z < m -> z' < m -> z = z' \/ z = S z' ->
      zephyr_coupler m t (zephyr_number m t u w k 0 z) (zephyr_number m t u w k 1 z')
  | zc_internal w k j z w' k' j' z' : w < 2 * m + 1 -> k < t -> j < 2 -> z < m -> w' < 2 * m + 1 -> k' < t -> j' < 2 -> z' < m ->
      zephyr_covers j z w' -> zephyr_covers j' z' w ->
      zephyr_coupler m t (zephyr_number m t false w k j z) (zephyr_number m t true w' k' j' z').

(** ** Pegasus [m]: coordinates (u, w, k, z) as in dwave.graphs.pegasus_graph, [w < m], [k < 12],
    [z < m-1]; [off u (k/2)] is the offset of the lines [k] *)
Definition pegasus_number (m : nat) (u : bool) (w k z : nat) : nat :=
  ((bit u * m + w) * 12 + k) * (m - 1) + z.
Definition pegasus_total (m : nat) : nat := 2 * m * 12 * (m - 1).
(** lines come in pairs; the pair of the lines [(w, k)] is at position [6w + k/2]; a qubit crosses six
    successive positions *)
Definition pegasus_position (w k : nat) : nat := 6 * w + k / 2.
Definition pegasus_covers (off : bool -> nat -> nat) (u : bool) (k z pos : nat) : Prop :=
  6 * z + off u (k / 2) <= pos < 6 * z + off u (k / 2) + 6.
Inductive pegasus_coupler (m : nat) (off : bool -> nat -> nat) : nat -> nat -> Prop :=
  | pc_external u w k z : w < m -> k < 12 -> S z < m - 1 ->
      pegasus_coupler m off (pegasus_number m u w k z) (pegasus_number m u w k (S z))
  | pc_odd u w k z : w < m -> k < 6 -> z < m - 1 ->
      pegasus_coupler m off (pegasus_number m u w (2 * k) z) (pegasus_number m u w (2 * k + 1) z)
  | pc_internal w k z w' k' z' : w < m -> k < 12 -> z < m - 1 -> w' < m -> k' < 12 -> z' < m - 1 ->
      pegasus_covers off false k z (pegasus_position w' k') -> pegasus_covers off true k' z' (pegasus_position w k) ->
      pegasus_coupler m off (pegasus_number m false w k z) (pegasus_number m true w' k' z').

(** a graph with missing qubits and couplers: the numbers are in range, every coupler is one of the
    lattice and joins listed qubits *)
Definition lattice_graph (total : nat) (coupler : nat -> nat -> Prop) (nodes : list nat) (edges : list (nat * nat)) : Prop :=
  (forall q, q ∈ nodes -> q < total) /\
  (forall p q, (p, q) ∈ edges -> p ∈ nodes /\ q ∈ nodes /\ (coupler p q \/ coupler q p)).

(** ** What a grid of lines offers.  A wire is one line of qubits [num 0], ..., [num (n-1)] in a row;
    [covers z pos]: the qubit [num z] crosses the position [pos].  A wire is complete from [z0] to [z1]
    when a present qubit covers each position and successive qubits used are coupled. *)
Definition wire_complete (num : nat -> nat) (covers : nat -> nat -> Prop) (n : nat)
  (nodes : list nat) (edges : list (nat * nat)) (z0 z1 : nat) : Prop :=
  (forall pos, z0 <= pos <= z1 -> exists z, z < n /\ covers z pos /\ num z ∈ nodes) /\
  (forall z pos, S z < n -> z0 <= pos -> S pos <= z1 -> covers z pos -> covers (S z) (S pos) -> has_edge edges (num z) (num (S z))).
(** the number of chains a list of ells gives room for: in each ell, complete vertical wires (there are
    [sh] of them in a column) are matched with complete horizontal wires *)
Definition ells_offer (sh : nat) (wire : bool -> nat -> nat -> nat -> nat -> Prop) (L : list ell) (c : nat) : Prop :=
  exists l, Forall2 (fun e c => exists a b,
      count_of (fun k => k < sh /\ wire false (e_col e) k (e_top e) (e_bot e)) a /\
      count_of (fun k => k < sh /\ wire true (e_row e) k (e_left e) (e_right e)) b /\
      c = a `min` b) L l /\ c = sum_list l.

(** Zephyr: [2t] wires in each of the [2m+1] columns and rows *)
Definition zephyr_wire (m t : nat) (nodes : list nat) (edges : list (nat * nat)) (u : bool) (w k z0 z1 : nat) : Prop :=
  wire_complete (zephyr_number m t u w (k / 2) (k mod 2)) (zephyr_covers (k mod 2)) m nodes edges z0 z1.
(** no coupler between a vertical and a horizontal qubit is missing *)
Definition zephyr_crossed (m t : nat) (nodes : list nat) (edges : list (nat * nat)) : Prop :=
  forall w k j z w' k' j' z', w < 2 * m + 1 -> k < t -> j < 2 -> z < m -> w' < 2 * m + 1 -> k' < t -> j' < 2 -> z' < m ->
    zephyr_covers j z w' -> zephyr_covers j' z' w ->
    zephyr_number m t false w k j z ∈ nodes -> zephyr_number m t true w' k' j' z' ∈ nodes ->
    has_edge edges (zephyr_number m t false w k j z) (zephyr_number m t true w' k' j' z').

(** Pegasus: two wires at each of the [6m] positions of columns and rows *)
Definition pegasus_wire (m : nat) (off : bool -> nat -> nat) (nodes : list nat) (edges : list (nat * nat)) (u : bool) (p i z0 z1 : nat) : Prop :=
  wire_complete (pegasus_number m u (p / 6) (2 * (p mod 6) + i)) (pegasus_covers off u (2 * (p mod 6) + i)) (m - 1) nodes edges z0 z1.
Definition pegasus_crossed (m : nat) (off : bool -> nat -> nat) (nodes : list nat) (edges : list (nat * nat)) : Prop :=
  forall w k z w' k' z', w < m -> k < 12 -> z < m - 1 -> w' < m -> k' < 12 -> z' < m - 1 ->
    pegasus_covers off false k z (pegasus_position w' k') -> pegasus_covers off true k' z' (pegasus_position w k) ->
    pegasus_number m false w k z ∈ nodes -> pegasus_number m true w' k' z' ∈ nodes ->
    has_edge edges (pegasus_number m false w k z) (pegasus_number m true w' k' z').

(** what a rectangle of positions offers: [a] complete vertical and [b] complete horizontal wires *)
Definition wires_offer (sh : nat) (wire : bool -> nat -> nat -> nat -> nat -> Prop) (u : bool) (w0 w1 z0 z1 c : nat) : Prop :=
  exists l : list (nat * nat), NoDup l /\ length l = c /\
    forall w k, (w, k) ∈ l <-> (w0 <= w <= w1 /\ k < sh /\ wire u w k z0 z1).
Definition rectangle_wires (sh : nat) (wire : bool -> nat -> nat -> nat -> nat -> Prop) (y0 y1 x0 x1 a b : nat) : Prop :=
  wires_offer sh wire false x0 x1 y0 y1 a /\ wires_offer sh wire true y0 y1 x0 x1 b.
