(** What is claimed of the identifiers. *)
From stdpp Require Import base list numbers.
From Verif Require Import Base SerialModel.
Local Open Scope Z_scope.

Definition byte (x : Z) : Prop := 0 <= x < 256.
Definition word (x : Z) : Prop := 0 <= x < 2 ^ 64.

(** the dimensions belong to the family (util.hpp 212, 462), and the masks have the sizes with
    which the constructor allocates them (topo_cache.hpp 64-66) *)
Definition shaped (sp : spec) (t : stored) : Prop :=
  match sp with
  | Chimera => True
  | Zephyr d k => 0 <= d /\ 0 <= k /\ t_dim_y t = 2 * d + 1 /\ t_dim_x t = 2 * d + 1 /\ t_shore t = 2 * k
  | Pegasus d offs => 0 <= d /\ length offs = 12%nat /\ Forall byte offs
      /\ t_dim_y t = 6 * d /\ t_dim_x t = 6 * d /\ t_shore t = 2
  end.
Record topo_ok (sp : spec) (t : stored) : Prop := {
  to_shaped : shaped sp t;
  to_y : word (t_dim_y t); to_x : word (t_dim_x t); to_shore : word (t_shore t); to_seed : word (t_seed t);
  to_node : Z.of_nat (length (t_nodemask t)) = t_dim_y t * t_dim_x t * 2;
  to_edge : Z.of_nat (length (t_edgemask t)) = t_dim_y t * t_dim_x t * 2;
  to_bad : Z.of_nat (length (t_badmask t)) = t_dim_y t * t_dim_x t * 2 * t_shore t;
  to_bytes : Forall byte (t_nodemask t ++ t_edgemask t ++ t_badmask t) }.

(** two specifications of the same family *)
Definition same_family (a b : spec) : Prop :=
  match a, b with
  | Chimera, Chimera | Zephyr _ _, Zephyr _ _ | Pegasus _ _, Pegasus _ _ => True
  | _, _ => False
  end.
(** everything but the seed is the same *)
Definition same_but_seed (t t' : stored) : Prop :=
  t_dim_y t = t_dim_y t' /\ t_dim_x t = t_dim_x t' /\ t_shore t = t_shore t' /\ t_nodemask t = t_nodemask t'
  /\ t_edgemask t = t_edgemask t' /\ t_badmask t = t_badmask t'.

(** the couplers of the Chimera graph: between the shores of a cell, and between successive qubits
    of a line *)
From Verif Require Import SpecBus.
Definition chimera_coupler (m n t : nat) (p q : nat) : Prop :=
  (exists y x k l, (y < m)%nat /\ (x < n)%nat /\ (k < t)%nat /\ (l < t)%nat /\ p = qubit n t y x false k /\ q = qubit n t y x true l)
  \/ (exists u w z k, (w < nlines m n u)%nat /\ (S z < npositions m n u)%nat /\ (k < t)%nat
        /\ p = line_qubit n t u w z k /\ q = line_qubit n t u w (S z) k).

From Verif Require Import BusModel.
(** the cache of a Chimera topology as it is serialized *)
Definition stored_of (c : tcache) (seed : Z) : stored :=
  mkStored (Z.of_nat (dim_y (tc_topo c))) (Z.of_nat (dim_x (tc_topo c))) (Z.of_nat (shore (tc_topo c))) seed
    (Z.of_N <$> tc_nodemask c) (Z.of_N <$> tc_edgemask c) (Z.of_N <$> tc_badmask c).
