(** Vocabulary of the statements about a whole run of [find_embedding]. *)
From stdpp Require Import base list numbers gmap.
From Verif Require Import Base EmbModel Spec SpecEmb GraphModel SpecGraph QueueModel PathModel ParamModel.

(** [q] is in the chain returned for [v] *)
Definition has_qubit (cs : list (list nat)) (v q : nat) : Prop := exists C, cs !! v = Some C /\ q ∈ C.

(** the variable is fixed by the caller; the qubit belongs to a fixed chain *)
Definition is_fixed (p : params) (v : nat) : Prop := exists C, (v, C) ∈ p_fixed p.
Definition in_fixed (p : params) (q : nat) : Prop := exists v C, (v, C) ∈ p_fixed p /\ q ∈ C.

(** the caller's restrictions let [v] use [q]; a variable without restriction may use every qubit *)
Definition allowed (p : params) (v q : nat) : Prop := forall C, (v, C) ∈ p_restrict p -> q ∈ C.
(** A chain of [u] is sought in one area per neighbour [v], what [u] or [v] may use.  These areas
    agree.  So it is without restrictions, when no two adjacent variables are both restricted, and
    when all variables are restricted to the same qubits. *)
Definition even_restriction (vg qg : graph) (p : params) : Prop :=
  forall u v v' q, q < gn qg -> ~ is_fixed p u -> ~ in_fixed p q -> edge vg u v -> edge vg u v' ->
    allowed p u q \/ allowed p v q -> allowed p u q \/ allowed p v' q.

(** Inputs covered by the run-level theorems.  Everything here is about the caller's data, except
    for [gi_wt] (values of the weight table, any rounding), [gi_sort] (what std::sort promises)
    and [gi_fuel] (the model's bound on the chain-length loop, which the real loop does not have). *)
Record good_input (vg qg : graph) (p : params) (o : oracle) : Prop := {
  gi_vg : graph_wf vg;
  gi_qg : graph_wf qg;
  gi_v0 : 0 < gn vg;
  gi_q0 : 0 < gn qg;
  gi_size : (Z.of_nat (gn qg) < 2147483648)%Z;
  gi_sort : sorts_by_size (o_sort o);
  gi_wt : forall margin m c, (0 <= c < 64)%Z -> (0 <= o_wtab o margin m c <= max_distance)%Z;
  gi_rnd : NoDup (p_restrict p).*1;
  gi_restrict : even_restriction vg qg p;
  gi_fnd : NoDup (p_fixed p).*1;
  gi_ind : NoDup (p_initial p).*1;
  gi_fixed : forall v C, (v, C) ∈ p_fixed p -> v < gn vg /\ C <> [] /\ NoDup C /\ forall q, q ∈ C -> q < gn qg;
  gi_fdisj : forall v C v' C' q, (v, C) ∈ p_fixed p -> (v', C') ∈ p_fixed p -> q ∈ C -> q ∈ C' -> v = v';
  gi_initial : forall v C, (v, C) ∈ p_initial p -> C <> [] /\ NoDup C /\ ~ is_fixed p v /\ forall q, q ∈ C -> ~ in_fixed p q;
  gi_loops : p_fixed p = [] \/ forall x, x < gn qg -> exists y, edge qg x y;
  gi_fuel : (Z.of_nat (p_chainlength_patience p) * ((Z.of_nat (gn vg) + 1) ^ Z.of_nat (S (gn qg)) + 1) <= Z.of_nat (o_fuel o))%Z
}.

(** Inputs for which no distance can overflow: at most 64 free variables, sizes whose product fits
    in 32 bits, and a weight table that keeps within the margin it was computed for *)
Record safe_input (vg qg : graph) (p : params) (o : oracle) : Prop := {
  si_free : forall fv, NoDup fv -> (forall v, v ∈ fv -> v < gn vg /\ ~ is_fixed p v) -> length fv <= 64;
  si_product : (Z.of_nat (gn vg) * Z.of_nat (gn qg) < 4294967296)%Z;
  si_table : forall margin m c, (0 < margin < 4294967296)%Z -> (0 <= c <= m)%Z -> (m < 64)%Z ->
     (o_wtab o margin m c * margin <= max_distance)%Z
}.

(** chains that may overlap but are otherwise complete: nonempty, connected, and every two
    adjacent variables, not both fixed, touch or overlap *)
Record overlapping_embedding (vg qg : graph) (p : params) (cs : list (list nat)) : Prop := {
  oe_len : length cs = gn vg;
  oe_nodup : forall v C, cs !! v = Some C -> NoDup C /\ C <> [] /\ forall q, q ∈ C -> q < gn qg;
  oe_connected : forall v, v < gn vg -> ~ is_fixed p v -> connected_in (edge qg) (has_qubit cs v);
  oe_edges : forall u v, edge vg u v -> u <> v -> ~ (is_fixed p u /\ is_fixed p v) -> touching (edge qg) (has_qubit cs) u v;
  oe_fixed : forall v C, (v, C) ∈ p_fixed p -> forall q, has_qubit cs v q <-> q ∈ C;
  oe_free : forall v q, ~ is_fixed p v -> has_qubit cs v q -> ~ in_fixed p q
}.
Definition disjoint_chains (cs : list (list nat)) : Prop :=
  forall u v q, has_qubit cs u q -> has_qubit cs v q -> u = v.

(** the main component [cp 0] of the target leaves no room: every qubit is fixed or isolated *)
Definition no_room (qg : graph) (cp : comps) (p : params) : Prop :=
  forall q j, located cp q 0 j -> in_fixed p q \/ forall y, ~ edge qg q y.
(** [ProblemCannotBeEmbedded...] is justified: no room, or a product of sizes over 32 bits *)
Definition too_small (vg qg : graph) (cp : comps) (p : params) : Prop :=
  no_room qg cp p \/ (4294967296 <= Z.of_nat (gn vg) * Z.of_nat (gn qg))%Z.

(** exceptions a run may raise *)
Definition documented (p : params) (x : err) : Prop :=
  x = Overflow \/ (x = Cancelled /\ p_interactive p = false) \/ x = BadInit \/ x = Corrupt \/ x = TooSmall.

(** what a run hands back: the success flag and, unless it is withheld, one chain per variable *)
Definition outcome (vg qg : graph) (p : params) (r : bool * option (list (list nat))) : Prop :=
  match r.2 with
  | None => r.1 = false /\ p_return_overlap p = false
  | Some cs =>
      (p_return_overlap p = true \/ r.1 = true) /\
      ((overlapping_embedding vg qg p cs /\ (r.1 = true <-> disjoint_chains cs)) \/
       (r.1 = false /\ p_skip_init p = false /\ cs = replicate (gn vg) []))
  end.

(** the starting chain of a variable: its fixed chain or its initial chain *)
Definition starting (p : params) (v q : nat) : Prop := exists C, (v, C) ∈ p_fixed p ++ p_initial p /\ q ∈ C.

(** the starting chains are complete: nonempty, connected, and adjacent variables, not both
    fixed, touch or overlap *)
Record good_start (vg qg : graph) (p : params) : Prop := {
  gs_nonempty : forall v, v < gn vg -> exists q, starting p v q;
  gs_connected : forall v, v < gn vg -> ~ is_fixed p v -> connected_in (edge qg) (starting p v);
  gs_edges : forall u v, edge vg u v -> u <> v -> ~ (is_fixed p u /\ is_fixed p v) -> touching (edge qg) (starting p) u v
}.
(** the starting chains as a list *)
Definition start_chains (vg : graph) (p : params) (cs : list (list nat)) : Prop :=
  length cs = gn vg /\ forall v C, cs !! v = Some C -> NoDup C /\ forall q, q ∈ C <-> starting p v q.
(** the variables that are not fixed, each listed once *)
Definition free_vars (vg : graph) (p : params) (fv : list nat) : Prop :=
  NoDup fv /\ forall v, v ∈ fv <-> v < gn vg /\ ~ is_fixed p v.
(** length of the chain of [v] *)
Definition chain_len (cs : list (list nat)) (v : nat) : nat := match cs !! v with Some C => length C | None => 0 end.

(** acceptable chain parameters: variables exist, qubits lie in the main component *)
Definition valid_chains (vg : graph) (cp : comps) (p : params) : Prop :=
  p_verbose p < 4 /\
  forall v C, (v, C) ∈ p_fixed p ++ p_initial p ++ p_restrict p ->
    v < gn vg /\ forall q, q ∈ C -> exists j, located cp q 0 j.

(** a run with [skip_initialization] keeps or improves a valid start *)
Definition kept_or_improved (vg qg : graph) (p : params) (r : bool * option (list (list nat))) : Prop :=
  forall cs0 fv, start_chains vg p cs0 -> free_vars vg p fv -> disjoint_chains cs0 ->
    r.1 = true /\ exists cs, r.2 = Some cs /\
      ((forall v q, has_qubit cs v q <-> has_qubit cs0 v q) \/
       (exists h h0, histogram (chain_len cs) fv h /\ histogram (chain_len cs0) fv h0 /\ hist_lt h h0)).

(** where a free variable's chain may end up: on qubits it or one of its neighbours may use, or of
    its initial chain *)
Definition may_occupy (vg : graph) (p : params) (v q : nat) : Prop :=
  allowed p v q \/ (exists w, edge vg v w /\ allowed p w q) \/ (exists C, (v, C) ∈ p_initial p /\ q ∈ C).
Definition confined (vg : graph) (p : params) (r : bool * option (list (list nat))) : Prop :=
  forall cs v q, r.2 = Some cs -> ~ is_fixed p v -> has_qubit cs v q -> may_occupy vg p v q.
