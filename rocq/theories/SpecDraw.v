(** Independent vocabulary for the picture of a graph as a Chimera-like grid of fragments. *)
From stdpp Require Import base list numbers relations sorting.
From Verif Require Import SpecBus SpecFrag.

(** [owner u w k pos q]: [q] is the qubit on wire [k] of line [w] in direction [u] that crosses position
    [pos] *)
Definition chimera_owner (n t : nat) (u : bool) (w k pos q : nat) : Prop := q = line_qubit n t u w pos k.
Definition zephyr_owner (m t : nat) (u : bool) (w k pos q : nat) : Prop :=
  exists z, z < m /\ zephyr_covers (k mod 2) z pos /\ q = zephyr_number m t u w (k / 2) (k mod 2) z.
Definition pegasus_owner (m : nat) (off : bool -> nat -> nat) (u : bool) (w k pos q : nat) : Prop :=
  exists z, z < m - 1 /\ pegasus_covers off u (2 * (w mod 6) + k) z pos /\ q = pegasus_number m u (w / 6) (2 * (w mod 6) + k) z.

(** fragment [f] of the grid with [m] rows, [n] columns and [sh] wires per line belongs to qubit [q] *)
Definition fragment (m n sh : nat) (owner : bool -> nat -> nat -> nat -> nat -> Prop) (f q : nat) : Prop :=
  exists u w pos k, w < nlines m n u /\ pos < npositions m n u /\ k < sh /\ f = line_qubit n sh u w pos k /\ owner u w k pos q.

(** The fragments [f] and [g] touch: neighbours on a wire that belong to one qubit or to two coupled
    qubits, or the crossing of a vertical and a horizontal qubit that are coupled. *)
Definition touch (m n sh : nat) (owner : bool -> nat -> nat -> nat -> nat -> Prop) (nodes : list nat) (edges : list (nat * nat)) (f g : nat) : Prop :=
  (exists u w pos k p q, w < nlines m n u /\ S pos < npositions m n u /\ k < sh /\
     f = line_qubit n sh u w pos k /\ g = line_qubit n sh u w (S pos) k /\ owner u w k pos p /\ owner u w k (S pos) q /\
     (p = q /\ p ∈ nodes \/ has_edge edges p q)) \/
  (exists x y k l p q, x < n /\ y < m /\ k < sh /\ l < sh /\
     f = line_qubit n sh false x y k /\ g = line_qubit n sh true y x l /\ owner false x k y p /\ owner true y l x q /\
     has_edge edges p q).

(** The picture [(ns, es)] of a graph: the fragments of its qubits in increasing order, and the pairs that
    touch, each once. *)
Definition pictures (m n sh : nat) (owner : bool -> nat -> nat -> nat -> nat -> Prop) (nodes : list nat) (edges : list (nat * nat))
  (ns : list nat) (es : list (nat * nat)) : Prop :=
  StronglySorted lt ns /\ (forall f, f ∈ ns <-> exists q, q ∈ nodes /\ fragment m n sh owner f q) /\
  NoDup es /\ (forall f g, (f, g) ∈ es -> (g, f) ∉ es) /\
  (forall f g, has_edge es f g <-> touch m n sh owner nodes edges f g \/ touch m n sh owner nodes edges g f).

(** couplers that are not odd: between successive qubits of a line or between the two directions *)
Definition zephyr_straight (m t p q : nat) : Prop :=
  zephyr_coupler m t p q /\ ~ exists u w k z z', w < 2 * m + 1 /\ k < t /\ z < m /\ z' < m /\ p = zephyr_number m t u w k 0 z /\ q = zephyr_number m t u w k 1 z'.
Definition pegasus_straight (m : nat) (off : bool -> nat -> nat) (p q : nat) : Prop :=
  pegasus_coupler m off p q /\ ~ exists u w k z, w < m /\ k < 6 /\ z < m - 1 /\ p = pegasus_number m u w (2 * k) z /\ q = pegasus_number m u w (2 * k + 1) z.
