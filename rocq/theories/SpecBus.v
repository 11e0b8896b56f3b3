(** Independent vocabulary for the busclique properties: a Chimera graph with missing qubits
    and couplers, its lines, and what a clique or biclique embedding is. *)
From stdpp Require Import base list numbers relations.

(** The Chimera graph with [m] rows and [n] columns of cells and [t] qubits per shore: the qubit
    with index [k] on the vertical ([u = false]) or horizontal ([u = true]) shore of the cell in
    row [y] and column [x] has the number [((y*n + x)*2 + u)*t + k]. *)
Definition qubit (n t : nat) (y x : nat) (u : bool) (k : nat) : nat :=
  ((y * n + x) * 2 + (if u then 1 else 0)) * t + k.

(** number of qubits *)
Definition nqubits (m n t : nat) : nat := m * n * 2 * t.

(** the qubit at position [z] of line [w] in direction [u] (vertical lines are columns, and run
    over the rows; horizontal lines are rows, and run over the columns) *)
Definition line_qubit (n t : nat) (u : bool) (w z k : nat) : nat :=
  if u then qubit n t w z true k else qubit n t z w false k.

(** number of lines, and of positions on a line *)
Definition nlines (m n : nat) (u : bool) : nat := if u then m else n.
Definition npositions (m n : nat) (u : bool) : nat := if u then n else m.

(** a coupler, in either orientation *)
Definition has_edge (edges : list (nat * nat)) (p q : nat) : Prop := (p, q) ∈ edges \/ (q, p) ∈ edges.

(** A graph given by lists of qubits and couplers: numbers in range, couplers between listed
    qubits. *)
Definition good_graph (total : nat) (nodes : list nat) (edges : list (nat * nat)) : Prop :=
  (forall q, q ∈ nodes -> q < total) /\
  (forall p q, (p, q) ∈ edges -> p ∈ nodes /\ q ∈ nodes).

(** every qubit from [z0] to [z1] on a line, and every coupler between successive ones *)
Definition segment_present (n t : nat) (nodes : list nat) (edges : list (nat * nat))
  (u : bool) (w z0 z1 k : nat) : Prop :=
  (forall z, z0 <= z <= z1 -> line_qubit n t u w z k ∈ nodes) /\
  (forall z, z0 <= z < z1 -> has_edge edges (line_qubit n t u w z k) (line_qubit n t u w (S z) k)).

(** connectedness of a chain through the couplers *)
Definition connected (edges : list (nat * nat)) (c : list nat) : Prop :=
  forall p q, p ∈ c -> q ∈ c -> rtc (fun a b => a ∈ c /\ b ∈ c /\ has_edge edges a b) p q.

Definition good_chain (nodes : list nat) (edges : list (nat * nat)) (c : list nat) : Prop :=
  c <> [] /\ NoDup c /\ (forall q, q ∈ c -> q ∈ nodes) /\ connected edges c.

Definition coupled (edges : list (nat * nat)) (c d : list nat) : Prop :=
  exists p q, p ∈ c /\ q ∈ d /\ has_edge edges p q.

(** an embedding of the complete graph on [length emb] variables *)
Definition clique_embedding (nodes : list nat) (edges : list (nat * nat)) (emb : list (list nat)) : Prop :=
  (forall c, c ∈ emb -> good_chain nodes edges c) /\
  (forall i j c d, i <> j -> emb !! i = Some c -> emb !! j = Some d -> c ## d /\ coupled edges c d).

(** an embedding of the complete bipartite graph K_{a,b}: the first [a] chains are one side, the
    next [b] the other *)
Definition biclique_embedding (nodes : list nat) (edges : list (nat * nat)) (a b : nat) (emb : list (list nat)) : Prop :=
  length emb = a + b /\
  (forall c, c ∈ emb -> good_chain nodes edges c) /\
  (forall i j c d, i <> j -> emb !! i = Some c -> emb !! j = Some d -> c ## d) /\
  (forall i j c d, i < a -> a <= j -> emb !! i = Some c -> emb !! j = Some d -> coupled edges c d).

(** the graph that is left when the qubits [R] are removed *)
Definition without (R : list nat) (nodes : list nat) : list nat := filter (fun q => q ∉ R) nodes.
Definition edges_without (R : list nat) (edges : list (nat * nat)) : list (nat * nat) :=
  filter (fun e => e.1 ∉ R /\ e.2 ∉ R) edges.

(** qubits [a] (vertical) and [b] (horizontal) of one cell are both there but not coupled *)
Definition missing_coupler (m n t : nat) (nodes : list nat) (edges : list (nat * nat)) (a b : nat) : Prop :=
  exists y x k l, y < m /\ x < n /\ k < t /\ l < t /\ a = qubit n t y x false k /\ b = qubit n t y x true l /\
    a ∈ nodes /\ b ∈ nodes /\ ~ has_edge edges a b.

(** Bit [k] of byte [i] of a mask.  A node mask and an edge mask hold one byte per cell and
    shore; they show a graph when the node bits are its qubits and the edge bits its couplers to the
    preceding qubit of the same line. *)
Definition bit_at (mem : list N) (i k : nat) : Prop := exists b, mem !! i = Some b /\ N.testbit b (N.of_nat k) = true.
Definition shows (m n t : nat) (nm em : list N) (nodes : list nat) (edges : list (nat * nat)) : Prop :=
  forall y x (u : bool) k, y < m -> x < n ->
    (bit_at nm ((y * n + x) * 2 + (if u then 1 else 0)) k <-> k < t /\ qubit n t y x u k ∈ nodes) /\
    (bit_at em ((y * n + x) * 2 + (if u then 1 else 0)) k <-> k < t /\
       if u then exists x', x = S x' /\ has_edge edges (qubit n t y x' u k) (qubit n t y x u k)
       else exists y', y = S y' /\ has_edge edges (qubit n t y' x u k) (qubit n t y x u k)).

(** An ell: the part of a column between two rows and the part of a row between two columns,
    crossing at one of the four corners of the rectangle. *)
Record ell := mkEll { e_row : nat; e_col : nat; e_top : nat; e_bot : nat; e_left : nat; e_right : nat }.
Definition ell_in (m n : nat) (e : ell) : Prop :=
  (e_row e = e_top e \/ e_row e = e_bot e) /\ (e_col e = e_left e \/ e_col e = e_right e) /\
  e_top e <= e_bot e < m /\ e_left e <= e_right e < n.
(** the next ell of a peeling: the row of the old corner is given up, a column is added for the
    new corner *)
Definition peels (a b : ell) : Prop :=
  ((e_row a = e_top a /\ e_top b = S (e_top a) /\ e_bot b = e_bot a) \/
   (e_row a = e_bot a /\ e_top b = e_top a /\ S (e_bot b) = e_bot a)) /\
  ((S (e_left b) = e_left a /\ e_right b = e_right a /\ e_col b = e_left b) \/
   (e_left b = e_left a /\ e_right b = S (e_right a) /\ e_col b = e_right b)).
(** a peeling of size [w]: from [w] rows and one column to one row and [w] columns *)
Definition peeling (m n w : nat) (L : list ell) : Prop :=
  length L = w /\ (forall e, e ∈ L -> ell_in m n e) /\
  (forall e, L !! 0 = Some e -> e_left e = e_right e /\ S (e_bot e) = e_top e + w) /\
  (forall i a b, L !! i = Some a -> L !! S i = Some b -> peels a b).

(** how many numbers satisfy [P] *)
Definition count_of (P : nat -> Prop) (c : nat) : Prop :=
  exists l, NoDup l /\ length l = c /\ forall k, k ∈ l <-> P k.
(** the number of chains an ell gives room for: complete vertical lines are matched with
    complete horizontal lines *)
Definition ell_capacity (n t : nat) (nodes : list nat) (edges : list (nat * nat)) (e : ell) (c : nat) : Prop :=
  exists a b,
    count_of (fun k => k < t /\ segment_present n t nodes edges false (e_col e) (e_top e) (e_bot e) k) a /\
    count_of (fun k => k < t /\ segment_present n t nodes edges true (e_row e) (e_left e) (e_right e) k) b /\
    c = a `min` b.
Definition capacity (n t : nat) (nodes : list nat) (edges : list (nat * nat)) (L : list ell) (c : nat) : Prop :=
  exists l, Forall2 (ell_capacity n t nodes edges) L l /\ c = sum_list l.

(** a clique of [k] single qubits *)
Definition has_single_clique (nodes : list nat) (edges : list (nat * nat)) (k : nat) : Prop :=
  exists emb, clique_embedding nodes edges emb /\ length emb = k /\ forall ch, ch ∈ emb -> length ch = 1.

(** the number of complete lines in direction [u] among the lines [w0] to [w1], between the
    positions [z0] and [z1]; and both directions for a rectangle of cells *)
Definition lines_through (n t : nat) (nodes : list nat) (edges : list (nat * nat)) (u : bool) (w0 w1 z0 z1 c : nat) : Prop :=
  exists l : list (nat * nat), NoDup l /\ length l = c /\
    forall w k, (w, k) ∈ l <-> (w0 <= w <= w1 /\ k < t /\ segment_present n t nodes edges u w z0 z1 k).
Definition rectangle_offers (n t : nat) (nodes : list nat) (edges : list (nat * nat)) (y0 y1 x0 x1 a b : nat) : Prop :=
  lines_through n t nodes edges false x0 x1 y0 y1 a /\ lines_through n t nodes edges true y0 y1 x0 x1 b.
