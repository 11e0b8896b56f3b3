(** Vocabulary of the statements about a miner object that is called repeatedly. *)
From stdpp Require Import base list numbers gmap.
From Verif Require Import Base EmbModel Spec SpecEmb GraphModel SpecGraph QueueModel PathModel ParamModel SpecTop MinerModel.

(** the parameters with other initial chains *)
Definition start_with (p : params) (ic : cmap) : params :=
  mkParams (p_max_no_improvement p) (p_tries p) (p_verbose p) (p_interactive p) (p_inner_rounds p) (p_max_fill p)
    (p_return_overlap p) (p_chainlength_patience p) (p_threads p) (p_skip_init p) (p_fixed p) ic (p_restrict p).

(** initial chains covered by the theorems: nonempty, without repetition, for free variables,
    away from fixed chains *)
Definition good_chains (p : params) (ic : cmap) : Prop :=
  NoDup ic.*1 /\ forall v C, (v, C) ∈ ic -> C <> [] /\ NoDup C /\ ~ is_fixed p v /\ forall q, q ∈ C -> ~ in_fixed p q.

(** values of a weight table, any rounding *)
Definition good_table (wt : Z -> Z -> Z) : Prop := forall m c, (0 <= c < 64)%Z -> (0 <= wt m c <= max_distance)%Z.

(** the fixed variables have the largest labels (in particular: there are none) *)
Definition fixed_last (vg : graph) (p : params) : Prop :=
  forall v w, is_fixed p v -> w < gn vg -> ~ is_fixed p w -> w < v.

(** calls covered by the theorems; local searches are treated separately *)
Definition good_call (vg : graph) (p : params) (c : call) : Prop :=
  match c with
  | CFind => True
  | CInit ic => good_chains p ic
  | CQuick _ _ _ ls _ wt => ls = false /\ good_table wt /\ fixed_last vg p
  | CStrategy _ _ _ ls _ wt => ls = false /\ good_table wt
  end.

(** the initial chains in force after some calls *)
Fixpoint starts_after (ic : cmap) (cs : list call) : cmap :=
  match cs with [] => ic | CInit ic' :: cs => starts_after ic' cs | _ :: cs => starts_after ic cs end.

(** number of chains that use a qubit *)
Definition users_of (cs : list (list nat)) (q : nat) : nat := length (List.filter (fun C => bool_decide (q ∈ C)) cs).
Definition has_chain (cs : list (list nat)) (v : nat) : Prop := exists q, has_qubit cs v q.

(** chains [cs] left by a quick pass over the variables in [vs], started from the chains [cs0];
    no qubit gets more than [bound] users, unless it had more before *)
Record pass_result (vg qg : graph) (p : params) (vs : nat -> Prop) (bound : Z) (cs0 cs : list (list nat)) : Prop := {
  pr_len : length cs = gn vg;
  pr_nodup : forall v C, cs !! v = Some C -> NoDup C /\ forall q, q ∈ C -> q < gn qg;
  pr_fixed : forall v C, (v, C) ∈ p_fixed p -> forall q, has_qubit cs v q <-> q ∈ C;
  pr_free : forall v q, ~ is_fixed p v -> has_qubit cs v q -> ~ in_fixed p q;
  pr_connected : forall v, vs v -> ~ is_fixed p v -> connected_in (edge qg) (has_qubit cs v);
  pr_edges : forall u v, vs u -> ~ is_fixed p u -> edge vg u v -> u <> v -> has_chain cs u -> has_chain cs v ->
     touching (edge qg) (has_qubit cs) u v;
  pr_others : forall v, ~ (vs v /\ ~ is_fixed p v) -> has_chain cs v <-> has_chain cs0 v;
  pr_users : p_fixed p = [] -> forall q, (Z.of_nat (users_of cs q) <= Z.max (Z.of_nat (users_of cs0 q)) bound)%Z
}.

(** chains that a pass starts from: the initial chains, or those stored in the object *)
Definition pass_start (vg : graph) (p : params) (ic : cmap) (m : miner) (clear : bool) (cs0 : list (list nat)) : Prop :=
  if clear || negb (mi_quick m) then start_chains vg (start_with p ic) cs0 else miner_chains m = Ok cs0.

(** [find_embedding] on an object: chains are an embedding, with the success flag telling whether
    they are disjoint; or the run stopped before finding anything and hands back what the object
    held before *)
Definition found (vg qg : graph) (p : params) (m : miner) (ok : bool) (cs : option (list (list nat))) : Prop :=
  match cs with
  | None => ok = false /\ p_return_overlap p = false
  | Some cs =>
      (p_return_overlap p = true \/ ok = true) /\
      ((overlapping_embedding vg qg p cs /\ (ok = true <-> disjoint_chains cs)) \/
       (ok = false /\ p_skip_init p = false /\ miner_chains m = Ok cs))
  end.

Definition answer_ok (vg qg : graph) (p : params) (ic : cmap) (m : miner) (c : call) (a : answer) : Prop :=
  match c, a with
  | CFind, AFound ok cs => found vg qg p m ok cs
  | CInit _, ADone => True
  | CQuick vs _ ov _ clear _, APass cs =>
      exists cs0, pass_start vg p ic m clear cs0 /\ pass_result vg qg p (fun v => v ∈ vs) (1 + ov) cs0 cs
  | CStrategy o _ ov _ clear _, APass cs =>
      exists cs0, pass_start vg p ic m clear cs0 /\
        exists vs, (o <> VO_KEEP -> forall v, vs v <-> v < gn vg /\ ~ is_fixed p v) /\ pass_result vg qg p vs (1 + ov) cs0 cs
  | _, _ => False
  end.

(** some quick pass was made before *)
Definition is_quick (c : call) : bool := match c with CQuick _ _ _ _ _ _ | CStrategy _ _ _ _ _ _ => true | _ => false end.

(** an object after some calls, with the answers *)
Definition reached (vg qg : graph) (p : params) (o : oracle) (cs : list call) (m : miner) (l : list answer) : Prop :=
  exists m0, miner_new vg qg p o = Ok m0 /\ mrun p m0 cs = Ok (m, l).
