(** Property theorems about graphs, components and parameter processing: C15-C18. *)
From stdpp Require Import base list numbers gmap relations sorting.
From Verif Require Import Base EmbModel SpecEmb QueueModel PathModel GraphModel SpecGraph GraphProofs GraphProofs2 ParamModel
  ParamProofs3 SpecTop P_run.

(** C15: [S], [K], [M] tell the sources, sinks and masked nodes, [R] is the relabelling. *)
Theorem C15_neighbour_lists_exact : forall g sources sinks mask relabel S K M R,
  graph_wf g ->
  (forall x, x < gn g -> sources x = Ok (S x) /\ sinks x = Ok (K x) /\ mask x = Ok (M x) /\ relabel x = Ok (R x) /\ R x < gn g) ->
  exists nb, get_neighbors g sources sinks mask relabel = Ok nb /\ length nb = gn g /\
    (forall i l, nb !! i = Some l -> increasing l) /\
    forall i j, (exists l, nb !! i = Some l /\ j ∈ l) <->
      i <> j /\ exists x y, R x = i /\ R y = j /\ S y = false /\ K x = false /\
        (((x, y) ∈ ge g /\ M x = true) \/ ((y, x) ∈ ge g /\ M y = true)).
Proof. exact get_neighbors_spec. Qed.
Print Assumptions C15_neighbour_lists_exact.
Theorem C15_neighbour_lists_symmetric : forall g mask relabel M R, graph_wf g ->
  (forall x, x < gn g -> mask x = Ok (M x) /\ relabel x = Ok (R x) /\ R x < gn g) ->
  exists nb, get_neighbors g (fun _ => Ok false) (fun _ => Ok false) mask relabel = Ok nb /\
    forall i j, (exists l, nb !! i = Some l /\ j ∈ l) <-> (exists l, nb !! j = Some l /\ i ∈ l).
Proof. exact neighbors_symmetric. Qed.
Print Assumptions C15_neighbour_lists_symmetric.

(** C16: see [decomposition] in SpecGraph.v. *)
Theorem C16_components_are_connected_components : forall srt g reserve R,
  graph_wf g -> sorts_by_size srt -> (forall x, x < gn g -> reserve x = Ok (R x)) ->
  exists cp, components srt g reserve = Ok cp /\ decomposition g R cp.
Proof. exact components_ok. Qed.
Print Assumptions C16_components_are_connected_components.

(** C17: into a component and back, back and into, and the relabelling of the variables. *)
Theorem C17_into_then_from : forall g R cp c nodes, decomposition g R cp -> c < length (cnodes cp) ->
  exists o, into_component cp c nodes = Ok o /\
    (o = None <-> exists x, x ∈ nodes /\ forall j, ~ located cp x c j) /\
    (forall D, o = Some D -> from_component cp c D = Ok nodes).
Proof. exact into_from. Qed.
Print Assumptions C17_into_then_from.
Theorem C17_from_then_into : forall g R cp c l D,
  decomposition g R cp -> cnodes cp !! c = Some l -> (forall j, j ∈ D -> j < length l) ->
  exists nodes, from_component cp c D = Ok nodes /\ into_component cp c nodes = Ok (Some D).
Proof. exact from_into. Qed.
Print Assumptions C17_from_then_into.
Theorem C17_variables_relabelled_bijectively : forall n (vf : list bool), length vf = n ->
  let free := List.filter (fun v => negb (default true (vf !! v))) (seq 0 n) in
  let fixed := List.filter (fun v => default true (vf !! v)) (seq 0 n) in
  exists sc, filter_fixed n (length fixed) vf = Ok (free ++ fixed) /\ inverse_perm (free ++ fixed) = Ok sc /\
    length sc = n /\ free ++ fixed ≡ₚ seq 0 n /\
    forall i x, sc !! x = Some i <-> (free ++ fixed) !! i = Some x.
Proof. exact relabel_variables. Qed.
Print Assumptions C17_variables_relabelled_bijectively.

(** C18: validation, for fixed chains in range of the graphs.  Missing: fixed chains out of
    range, for which the claim is false, see below. *)
Theorem C18_corrupt_iff_invalid_partial : forall vg qg p srt,
  graph_wf vg -> graph_wf qg -> 0 < gn qg -> sorts_by_size srt ->
  NoDup (p_fixed p).*1 -> NoDup (p_initial p).*1 -> NoDup (p_restrict p).*1 ->
  (forall v C, (v, C) ∈ p_fixed p -> v < gn vg /\ forall q, q ∈ C -> q < gn qg) ->
  exists cp R, decomposition qg R cp /\
    (process vg qg p srt = Err Corrupt <-> ~ valid_chains vg cp p) /\
    (process vg qg p srt <> Err Corrupt -> exists pp, process vg qg p srt = Ok pp) /\
    (~ valid_chains vg cp p -> forall o, o_sort o = srt -> find_embedding vg qg p o = Err Corrupt).
Proof. exact validation. Qed.
Print Assumptions C18_corrupt_iff_invalid_partial.
(** A fixed chain on a qubit that does not exist is used as an index before it is validated. *)
Theorem C18_fixed_chain_out_of_range_refuted : exists vg qg p o,
  graph_wf vg /\ graph_wf qg /\ sorts_by_size (o_sort o) /\
  (exists v C q, (v, C) ∈ p_fixed p /\ q ∈ C /\ gn qg <= q) /\
  find_embedding vg qg p o = Err UB.
Proof.
  exists run_vg, run_qg, (run_p false [(0, [4])] []), run_o.
  split; [apply (run_good false [] []); set_solver|]. split; [apply (run_good false [] []); set_solver|].
  split; [apply run_sort_ok|]. split; [|by vm_compute].
  exists 0, [4], 4. split; [set_solver|]. split; [set_solver|simpl; lia].
Qed.
Print Assumptions C18_fixed_chain_out_of_range_refuted.

(** ** Non-vacuity: two components, one reserved node *)
Definition gr_ex : graph := mkGraph 5 [(4, 2); (0, 2); (2, 0); (3, 3); (1, 3)].
Example gr_wf : graph_wf gr_ex.
Proof.
  assert (F : Forall (fun '(a, b) => a < 5 /\ b < 5) (ge gr_ex)) by (repeat constructor).
  intros a b H. rewrite Forall_forall in F. by apply (F (a, b)).
Qed.
Example gr_neighbors : get_neighbors gr_ex (fun _ => Ok false) (fun x => Ok (bool_decide (x = 4))) (fun _ => Ok true) (fun x => Ok x)
  = Ok [[2]; [3]; [0; 4]; [1]; []].
Proof. by vm_compute. Qed.
Example gr_components : exists cp, components run_sort gr_ex (fun x => Ok (bool_decide (x = 0))) = Ok cp /\
  cnodes cp = [[4; 2; 0]; [3; 1]] /\ creserved cp = [1; 0] /\
  into_component cp 0 [0; 4] = Ok (Some [2; 0]) /\ into_component cp 0 [0; 1] = Ok None.
Proof. eexists. split; [vm_compute; reflexivity|]. by vm_compute. Qed.
Example gr_variables : filter_fixed 4 2 [false; true; false; true] = Ok [0; 2; 1; 3] /\ inverse_perm [0; 2; 1; 3] = Ok [0; 2; 1; 3].
Proof. by vm_compute. Qed.
