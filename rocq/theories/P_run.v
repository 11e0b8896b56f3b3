(** Property theorems about whole runs of [find_embedding]: C01-C06, C18, C32. *)
From stdpp Require Import base list numbers gmap sorting.
From Verif Require Import Base ChainModel EmbModel Spec SpecEmb EmbOps QueueModel PathModel GraphModel SpecGraph ParamModel
  SpecTop TopProofs2 TopProofs3 SpecImprove ImproveProofs P_emb.

(** C01: a run without fixed chains that reports success hands back a minor embedding.  Chains may
    be restricted if the search areas agree ([even_restriction] in [good_input]). *)
Theorem C01_success_is_a_minor_embedding : forall vg qg p o cs,
  good_input vg qg p o -> p_fixed p = [] -> find_embedding vg qg p o = Ok (true, cs) ->
  exists l, cs = Some l /\ length l = gn vg /\ (forall v q, has_qubit l v q -> q < gn qg) /\
    minor_embedding (gn vg) (edge vg) (edge qg) (has_qubit l).
Proof. exact success_minor. Qed.
Print Assumptions C01_success_is_a_minor_embedding.

(** C02: with fixed chains. *)
Theorem C02_fixed_chains_honoured : forall vg qg p o cs,
  good_input vg qg p o -> find_embedding vg qg p o = Ok (true, cs) ->
  exists l, cs = Some l /\
    (forall v C, (v, C) ∈ p_fixed p -> forall q, has_qubit l v q <-> q ∈ C) /\
    (forall v C u q, (v, C) ∈ p_fixed p -> q ∈ C -> has_qubit l u q -> u = v) /\
    (forall v, v < gn vg -> ~ is_fixed p v -> (exists q, has_qubit l v q) /\ connected_in (edge qg) (has_qubit l v)) /\
    disjoint_chains l /\
    (forall u v, edge vg u v -> u <> v -> ~ (is_fixed p u /\ is_fixed p v) ->
       exists a b, has_qubit l u a /\ has_qubit l v b /\ edge qg a b).
Proof. exact success_fixed. Qed.
Print Assumptions C02_fixed_chains_honoured.

(** C03: no undefined behaviour ([UB]: index out of range, missing map entry, unsigned wrap) and
    no inner loop running past its bound ([OOF]); every error is a documented exception. *)
Theorem C03_no_undefined_behaviour : forall vg qg p o, good_input vg qg p o ->
  match find_embedding vg qg p o with
  | Ok _ => True | Err x => x <> UB /\ x <> OOF /\ documented p x end.
Proof. exact run_safe. Qed.
Print Assumptions C03_no_undefined_behaviour.

(** C04: what is handed back, with and without [return_overlap]. *)
Theorem C04_overlapping_results_linked : forall vg qg p o r,
  good_input vg qg p o -> find_embedding vg qg p o = Ok r -> outcome vg qg p r.
Proof. intros vg qg p o r G H. exact (proj1 (run_ok vg qg p o r G H)). Qed.
Print Assumptions C04_overlapping_results_linked.

(** C05: one offer to a state that already holds an embedding without overlaps, and any later
    state. *)
Theorem C05_candidate_taken_iff_better : forall e E s em,
  pb_wf (pb e) -> offered e E s -> embedded (md s) = true -> reach (pb e) E em ->
  no_overlap (pb e) (best s) /\
  exists b s', check_improvement e s em = Ok (b, s') /\ embedded (md s') = true /\ no_overlap (pb e) (best s') /\
    (b = false -> best s' = best s) /\
    (b = true -> chains (best s') = chains em) /\
    (b = true <-> no_overlap (pb e) em /\ shorter (pb e) em (best s)) /\
    (forall v, v < nv (pb e) -> exists w, w < nv (pb e) /\ chain_size (best s') v <= chain_size (best s) w).
Proof. intros e E s em PW. exact (improve_embedded e E PW s em). Qed.
Print Assumptions C05_candidate_taken_iff_better.
Theorem C05_best_never_worse : forall e E s s',
  pb_wf (pb e) -> later e E s s' -> offered e E s -> embedded (md s) = true ->
  embedded (md s') = true /\ no_overlap (pb e) (best s') /\
  (chains (best s') = chains (best s) \/ shorter (pb e) (best s') (best s)) /\
  (forall v, v < nv (pb e) -> exists w, w < nv (pb e) /\ chain_size (best s') v <= chain_size (best s) w).
Proof. intros e E s s' PW. exact (later_embedded e E PW s s'). Qed.
Print Assumptions C05_best_never_worse.

(** C06: [skip_initialization]. *)
Theorem C06_valid_start_kept_or_improved : forall vg qg p o r,
  good_input vg qg p o -> p_skip_init p = true -> find_embedding vg qg p o = Ok r ->
  good_start vg qg p /\ kept_or_improved vg qg p r.
Proof. intros vg qg p o r G S H. exact (proj2 (run_ok vg qg p o r G H) S). Qed.
Print Assumptions C06_valid_start_kept_or_improved.
Theorem C06_bad_init_only_for_bad_start : forall vg qg p o,
  good_input vg qg p o -> p_skip_init p = true -> good_start vg qg p -> find_embedding vg qg p o <> Err BadInit.
Proof. exact bad_init_start. Qed.
Print Assumptions C06_bad_init_only_for_bad_start.
Theorem C06_bad_start_refused : forall vg qg p o,
  good_input vg qg p o -> p_skip_init p = true -> ~ good_start vg qg p ->
  exists cp R, decomposition qg R cp /\
    (find_embedding vg qg p o = Err BadInit \/
     (find_embedding vg qg p o = Err TooSmall /\ too_small vg qg cp p) \/
     (find_embedding vg qg p o = Err Corrupt /\ ~ valid_chains vg cp p)).
Proof. exact bad_start. Qed.
Print Assumptions C06_bad_start_refused.

(** C49: a problem is refused as too small only if it is, or if its sizes overflow 32 bits. *)
Theorem C49_refused_only_without_room : forall vg qg p o,
  good_input vg qg p o -> find_embedding vg qg p o = Err TooSmall ->
  exists cp R, decomposition qg R cp /\ too_small vg qg cp p.
Proof. exact too_small_ok. Qed.
Print Assumptions C49_refused_only_without_room.

(** C18: for chains on distinct qubits of the target graph. *)
Theorem C18_corrupt_iff_outside_partial : forall vg qg p o, good_input vg qg p o ->
  exists cp R, decomposition qg R cp /\ (find_embedding vg qg p o = Err Corrupt <-> ~ valid_chains vg cp p).
Proof. exact corrupt_iff. Qed.
Print Assumptions C18_corrupt_iff_outside_partial.

(** C32: the bound of the chain-length loop in [good_input] is never reached, and raising the
    bound of a loop that did not reach it changes nothing. *)
Theorem C32_chainlength_loop_terminates : forall vg qg p o, good_input vg qg p o -> find_embedding vg qg p o <> Err OOF.
Proof. exact run_no_oof. Qed.
Print Assumptions C32_chainlength_loop_terminates.
Theorem C32_bound_irrelevant : forall fuel e ip s em last r, chainlen_loop fuel e ip s em last = r -> r <> Err OOF ->
  forall k, chainlen_loop (fuel + k) e ip s em last = r.
Proof. exact chainlen_mono. Qed.
Print Assumptions C32_bound_irrelevant.

(** ** Non-vacuity: a triangle in a cycle of four qubits. *)
Definition len_ge (a b : list nat) : Prop := length b <= length a.
Global Instance len_ge_dec : RelDecision len_ge := fun a b => decide (length b <= length a).
Definition run_sort (l : list (list nat)) : list (list nat) := merge_sort len_ge l.
Definition run_vg : graph := mkGraph 3 [(0, 1); (1, 2); (0, 2)].
Definition run_qg : graph := mkGraph 4 [(0, 1); (1, 2); (2, 3); (3, 0)].
Definition run_p (skip : bool) (fixed initial : list (nat * list nat)) : params :=
  mkParams 10 10 0 true 10 100 true 2 1 skip fixed initial [].
Definition run_o : oracle := mkOracle (fun n => n * 7 + n / 3) (fun _ => SGo) (fun _ _ c => (c + 1)%Z) run_sort 2050.

Lemma run_sort_ok : sorts_by_size run_sort.
Proof.
  intros l. split; [apply merge_sort_Permutation|].
  assert (T : Transitive len_ge) by (intros a b c; unfold len_ge; lia).
  assert (T' : Total len_ge) by (intros a b; unfold len_ge; lia).
  apply (StronglySorted_merge_sort len_ge).
Qed.
Lemma run_good skip fixed initial :
  (fixed, initial) ∈ [([], []); ([(0, [0; 1])], []); ([], [(0, [0; 1]); (1, [2]); (2, [3])]); ([], [(0, [0; 2]); (1, [1]); (2, [3])]); ([], [(3, [0])])] ->
  good_input run_vg run_qg (run_p skip fixed initial) run_o.
Proof.
  intros H.
  assert (HF : (fixed = [] /\ forall v C, (v, C) ∈ initial -> (v, C) ∈ [(0, [0; 1]); (1, [2]); (2, [3]); (0, [0; 2]); (1, [1]); (3, [0])]) \/
     (fixed = [(0, [0; 1])] /\ initial = [])).
  { rewrite !elem_of_cons, elem_of_nil in H. destruct H as [[= -> ->]|[[= -> ->]|[[= -> ->]|[[= -> ->]|[[= -> ->]|[]]]]]]; auto;
      left; (split; [done|]); intros v C; rewrite !elem_of_cons, elem_of_nil; naive_solver. }
  assert (HN : NoDup fixed.*1 /\ NoDup initial.*1).
  { rewrite !elem_of_cons, elem_of_nil in H. destruct H as [[= -> ->]|[[= -> ->]|[[= -> ->]|[[= -> ->]|[[= -> ->]|[]]]]]];
      split; apply (bool_decide_unpack _); done. }
  assert (HS : forall v C, (v, C) ∈ fixed -> v = 0 /\ C = [0; 1]).
  { intros v C Hv. destruct HF as [[-> _]|[-> _]]; [by apply elem_of_nil in Hv|]. by apply elem_of_list_singleton in Hv as [= -> ->]. }
  clear H. assert (W : forall g n, gn g = n -> Forall (fun '(a, b) => a < n /\ b < n) (ge g) -> graph_wf g).
  { intros g n <- F a b Hab. rewrite Forall_forall in F. by apply (F (a, b)). }
  split.
  - apply (W _ 3); [done|]. repeat constructor.
  - apply (W _ 4); [done|]. repeat constructor.
  - simpl. lia.
  - simpl. lia.
  - simpl. lia.
  - apply run_sort_ok.
  - intros m w c Hc. simpl. unfold max_distance. lia.
  - constructor.
  - by apply TopProofs.unrestricted_even.
  - apply HN.
  - apply HN.
  - intros v C [-> ->]%HS. split; [simpl; lia|]. split; [done|]. split; [by apply (bool_decide_unpack _)|].
    intros q. rewrite !elem_of_cons, elem_of_nil. simpl. lia.
  - intros v C v' C' q [-> _]%HS [-> _]%HS. done.
  - simpl. intros v C Hv. destruct HF as [[-> HI]|[_ ->]]; [|by apply elem_of_nil in Hv]. apply HI in Hv.
    assert (K : C <> [] /\ NoDup C).
    { rewrite !elem_of_cons, elem_of_nil in Hv.
      destruct Hv as [[= -> ->]|[[= -> ->]|[[= -> ->]|[[= -> ->]|[[= -> ->]|[[= -> ->]|[]]]]]]]; (split; [done|]); by apply (bool_decide_unpack _). }
    split; [apply K|]. split; [apply K|].
    split; [intros [D HD]; by apply elem_of_nil in HD|]. intros q _ (w & D & HD & _). by apply elem_of_nil in HD.
  - right. intros x Hx. simpl in Hx.
    destruct x as [|[|[|[|x]]]]; [exists 1|exists 2|exists 3|exists 0|lia]; left; simpl; set_solver.
  - apply (bool_decide_unpack _). vm_compute. done.
Qed.

(** success without fixed chains, with a fixed chain, and from a valid start; refusal of a
    disconnected start and of a variable out of range *)
Example run_fixed : exists l, find_embedding run_vg run_qg (run_p false [(0, [0; 1])] []) run_o = Ok (true, Some l).
Proof. eexists. vm_compute. reflexivity. Qed.
Example run_start : exists l, find_embedding run_vg run_qg (run_p true [] [(0, [0; 1]); (1, [2]); (2, [3])]) run_o = Ok (true, Some l).
Proof. eexists. vm_compute. reflexivity. Qed.
Example run_bad : find_embedding run_vg run_qg (run_p true [] [(0, [0; 2]); (1, [1]); (2, [3])]) run_o = Err BadInit /\
  find_embedding run_vg run_qg (run_p false [] [(3, [0])]) run_o = Err Corrupt.
Proof. split; vm_compute; reflexivity. Qed.
Example run_free : exists l, find_embedding run_vg run_qg (run_p false [] []) run_o = Ok (true, Some l).
Proof. eexists. vm_compute. reflexivity. Qed.

(** an overlapping result: a triangle has no embedding in a path of two qubits *)
Example run_overlap : exists l, find_embedding run_vg (mkGraph 2 [(0, 1)]) (run_p false [] []) run_o = Ok (false, Some l) /\ ~ disjoint_chains l.
Proof.
  eexists. split; [vm_compute; reflexivity|]. intros D.
  assert (0 = 2); [|done]. apply (D 0 2 1); eexists; (split; [reflexivity|]); set_solver.
Qed.

(** C49: a single qubit without self-loop *)
Example run_too_small : good_input (mkGraph 1 []) (mkGraph 1 []) (run_p false [] []) run_o /\
  find_embedding (mkGraph 1 []) (mkGraph 1 []) (run_p false [] []) run_o = Err TooSmall.
Proof.
  split; [|vm_compute; reflexivity]. split; simpl; try lia; try (by left); try (by apply NoDup_nil_2); try (intros ? ?; set_solver).
  - apply run_sort_ok.
  - intros m w c Hc. unfold max_distance. lia.
  - by apply TopProofs.unrestricted_even.
Qed.

(** C05: chains of length two, then of length one *)
Definition imp_env : env := mkEnv ex_pb (fun n => n) (fun _ => SGo) (fun _ c => (c + 1)%Z) 10 10 10 2 3 false false true false 100.
Definition imp_s0 : st := pathfinder_new imp_env ex_vn.
Definition imp_em (i : list (nat * list nat)) : emb := match emb_init ex_pb ex_vn [] i with Ok e => e | Err _ => emb_new ex_pb end.
Definition imp_long := imp_em [(0, [0; 1]); (1, [3; 2])].
Definition imp_short := imp_em [(0, [1]); (1, [2])].
Definition imp_s1 : st := match check_improvement imp_env imp_s0 imp_long with Ok (_, s) => s | Err _ => imp_s0 end.
Lemma imp_reach i : i ∈ [[(0, [0; 1]); (1, [3; 2])]; [(0, [1]); (1, [2])]] -> emb_init ex_pb ex_vn [] i = Ok (imp_em i) -> reach ex_pb ex_E (imp_em i).
Proof.
  intros Hi H. eapply (r_init ex_pb ex_E ex_vn [] i); [apply ex_vn_ok| |exact H].
  split; try done.
  - apply NoDup_nil_2.
  - rewrite !elem_of_cons, elem_of_nil in Hi. destruct Hi as [->|[->|[]]]; by apply (bool_decide_unpack _).
  - intros v C X. by apply elem_of_nil in X.
  - simpl. intros v X. lia.
  - intros v C X. assert (K : (v, C) ∈ [(0, [0; 1]); (1, [3; 2]); (0, [1]); (1, [2])]).
    { rewrite !elem_of_cons, elem_of_nil in Hi. destruct Hi as [->|[->|[]]]; rewrite !elem_of_cons, elem_of_nil in *; naive_solver. }
    rewrite !elem_of_cons, elem_of_nil in K.
    destruct K as [[= -> ->]|[[= -> ->]|[[= -> ->]|[[= -> ->]|[]]]]]; simpl;
      (split; [lia|split; [done|split; [intros q Hq; rewrite !elem_of_cons, elem_of_nil in Hq; lia|by apply (bool_decide_unpack _)]]]).
Qed.
Example imp_offers : offered imp_env ex_E imp_s1 /\ embedded (md imp_s1) = true /\ reach ex_pb ex_E imp_short /\
  exists s', check_improvement imp_env imp_s1 imp_short = Ok (true, s').
Proof.
  split; [|split; [by vm_compute|split; [|eexists; vm_compute; reflexivity]]].
  - eapply (of_offer imp_env ex_E imp_s0 imp_long true); [by apply of_start| |vm_compute; reflexivity].
    apply imp_reach; [set_solver|vm_compute; reflexivity].
  - apply imp_reach; [set_solver|vm_compute; reflexivity].
Qed.
