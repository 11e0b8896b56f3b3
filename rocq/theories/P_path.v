(** Property theorems about searches, queues, orders and the choice of a root: C11-C14, C21, C29. *)
From stdpp Require Import base list numbers gmap sorting.
From Verif Require Import Base ChainModel EmbModel Spec SpecEmb EmbOps QueueModel QueueMem SpecQueue QueueMemProofs PathModel SpecPath
  Wp PathProofs PathProofs2 OrderProofs GraphModel SpecGraph ParamModel SpecTop TopProofs2 P_emb P_run.
Local Open Scope Z_scope.

(** C11: any sequence of insertions and removals that inserts at most the capacity and never
    removes from an empty queue succeeds on the node storage of the code, and behaves like a bag
    from which minimal elements are removed. *)
Theorem C11_queue_behaves : forall n ops,
  (pushes ops <= n)%nat -> pops_ok 0 ops ->
  exists q out bag, mq_run n ops = Ok (q, out) /\ behaves ops [] out bag /\ (mq_empty q = true <-> bag = []).
Proof. exact queue_behaves. Qed.
Print Assumptions C11_queue_behaves.
Theorem C11_drain_is_sorted : forall n l, (length l <= n)%nat ->
  exists q out, mq_run n (map QPush l ++ replicate (length l) QPop) = Ok (q, out) /\
    out ≡ₚ l /\ Sorted before out /\ mq_empty q = true.
Proof. exact queue_drain. Qed.
Print Assumptions C11_drain_is_sorted.
(** one insertion more than the capacity writes past the storage *)
Theorem C11_capacity_is_sharp : forall n ops x, pushes ops = n -> pops_ok 0 ops -> mq_run n (ops ++ [QPush x]) = Err UB.
Proof. exact queue_overfull. Qed.
Print Assumptions C11_capacity_is_sharp.

(** C12: the search from the chain of [v] for a chain of [u], with or without restrictions.  The other rows of the buffers are left alone. *)
Theorem C12_search_is_exact : forall pb em bound u v b,
  pb_wf pb -> placed_ok pb em -> buffers_ok pb b -> costs_ok pb (qw b) -> (u < nv pb + nf pb)%nat -> (v < nv pb + nf pb)%nat ->
  match (let! b := prep_vis pb u v b in compute_distances_from_chain pb em bound v b) with
  | Err x => x = Overflow
  | Ok b' =>
      (qw b' = qw b /\ perm b' = perm b /\ total b' = total b /\
       forall v', v' <> v -> par b' !! v' = par b !! v' /\ vis b' !! v' = vis b !! v' /\ dist b' !! v' = dist b !! v') /\
      exists marks dists parents, vis b' !! v = Some marks /\ dist b' !! v = Some dists /\ par b' !! v = Some parents /\
        search_exact pb em bound (wt (qw b)) u v marks dists parents
  end.
Proof. exact search_any. Qed.
Print Assumptions C12_search_is_exact.
(** it cannot overflow when no path can cost more than infinity *)
Theorem C12_search_succeeds : forall pb em bound u v b M,
  pb_wf pb -> placed_ok pb em -> buffers_ok pb b -> costs_ok pb (qw b) -> (u < nv pb + nf pb)%nat -> (v < nv pb + nf pb)%nat ->
  0 <= M -> (forall q, (q < nq pb)%nat -> wt (qw b) q <= M) -> Z.of_nat (nq pb) * M <= max_distance ->
  exists b', (let! b := prep_vis pb u v b in compute_distances_from_chain pb em bound v b) = Ok b'.
Proof. exact search_ok. Qed.
Print Assumptions C12_search_succeeds.

(** C13: one attempt to place a chain for [u].  With restrictions, provided the searches for a chain
    all have the same area. *)
Theorem C13_root_is_optimal : forall e E s em u tgt,
  pb_wf (pb e) -> even_areas (pb e) E -> (0 < nq (pb e))%nat -> table_ok e ->
  vn_ok (pb e) E (vn s) -> buffers_ok (pb e) (sr s) -> reach (pb e) E em -> placed_ok (pb e) em ->
  no_chain em u -> (u < nv (pb e))%nat ->
  match find_chain3 e s em u tgt with
  | Err x => x = Overflow
  | Ok (b, s', em') =>
      length (total (sr s')) = nq (pb e) /\
      (exists l, vn s' !! u = Some l /\ (forall v, v ∈ l <-> E u v) /\
        (embedded_of em l <> [] -> exists w, tabulated e em w /\ totals_exact (pb e) em (wb (md s)) w u l (total (sr s'))) /\
        (embedded_of em l = [] -> exists w, tabulated e em w /\ forall q t, total (sr s') !! q = Some t -> t = max_distance <->
           ~ may_use (pb e) u q \/ wb (md s) <= wt (eweight em) q \/ (parallel e = false /\ w q = max_distance))) /\
      (b = true <-> exists q t, total (sr s') !! q = Some t /\ t < max_distance) /\
      (b = false -> em' = em) /\
      (b = true -> exists r t, root_of em' u r /\ total (sr s') !! r = Some t /\ t < max_distance /\
         forall q y, total (sr s') !! q = Some y -> t <= y) /\
      (forall r t, total (sr s') !! r = Some t -> t < max_distance -> (forall q y, total (sr s') !! q = Some y -> t <= y) ->
         exists f em2, (forall n, n <> pred (rpos s') -> f n = rnd e n) /\
           find_chain3 (with_rnd e f) s em u tgt = Ok (true, s', em2) /\ root_of em2 u r)
  end.
Proof. exact root_choice. Qed.
Print Assumptions C13_root_is_optimal.

(** C14: every order but [VO_KEEP] lists each free variable exactly once. *)
Theorem C14_orders_are_permutations : forall e s o E, vn_ok (pb e) E (vn s) -> o <> VO_KEEP ->
  exists order s', var_order e s o = Ok (order, s') /\ order ≡ₚ seq 0 (nv (pb e)).
Proof. exact orders_permute. Qed.
Print Assumptions C14_orders_are_permutations.

(** C21, with the worker threads run one after the other (the interleavings are in [P_conc]): the
    two preparations leave identical buffers when some neighbour has a chain. *)
Theorem C21_threaded_equals_serial : forall e em bound u l b b1 b2,
  pb_wf (pb e) -> placed_ok (pb e) em -> (0 < nq (pb e))%nat -> table_ok e -> (u < nv (pb e) + nf (pb e))%nat ->
  NoDup l -> (forall v, v ∈ l -> (v < nv (pb e) + nf (pb e))%nat) -> buffers_ok (pb e) b ->
  embedded_of em l <> [] ->
  prepare_root (with_parallel e false) l bound em u b = Ok b1 ->
  prepare_root (with_parallel e true) l bound em u b = Ok b2 -> b1 = b2.
Proof. intros e em bound u l b b1 b2 H1 H2 H3 H4. exact (serial_parallel e H1 em bound H2 H3 H4 u l b b1 b2). Qed.
Print Assumptions C21_threaded_equals_serial.
Theorem C21_both_succeed : forall e em bound u l b,
  pb_wf (pb e) -> placed_ok (pb e) em -> (0 < nq (pb e))%nat -> table_ok e -> (u < nv (pb e) + nf (pb e))%nat ->
  NoDup l -> (forall v, v ∈ l -> (v < nv (pb e) + nf (pb e))%nat) -> buffers_ok (pb e) b ->
  embedded_of em l <> [] -> sums_fit e em l ->
  exists b', prepare_root (with_parallel e false) l bound em u b = Ok b' /\ prepare_root (with_parallel e true) l bound em u b = Ok b'.
Proof. intros e em bound u l b H1 H2 H3 H4. exact (serial_parallel_safe e H1 em bound H2 H3 H4 u l b). Qed.
Print Assumptions C21_both_succeed.

(** C29, for at most 64 free variables: no run overflows a distance. *)
Theorem C29_no_overflow_partial : forall vg qg p o, good_input vg qg p o -> safe_input vg qg p o ->
  find_embedding vg qg p o <> Err Overflow.
Proof. exact safe_no_overflow. Qed.
Print Assumptions C29_no_overflow_partial.

(** Without the bound on the number of free variables it is false: 66 variables next to one
    fixed variable, in a path of five qubits. *)
Definition ov_vg (n : nat) : graph := mkGraph (S n) (map (fun i => (0%nat, S i)) (seq 0 n)).
Definition ov_qg : graph := mkGraph 5 [(0, 1); (1, 2); (2, 3); (3, 4)]%nat.
Definition ov_p : params := mkParams 10 10 0 true 10 100 true 0 1 false [(0%nat, [0%nat])] [] [].
(** powers of two, as large as the margin allows *)
Definition ov_tab (margin m c : Z) : Z :=
  if decide (0 < margin < 4294967296 /\ 0 < m /\ c <= m) then 2 ^ ((62 - Z.log2_up margin) * c / m) else 1.
Definition ov_o : oracle := mkOracle (fun _ => 0%nat) (fun _ => SGo) ov_tab run_sort 0.

Lemma ov_tab_rng margin m c : 0 <= c < 64 -> 0 <= ov_tab margin m c <= max_distance.
Proof.
  intros Hc. unfold ov_tab. case_decide as H; [|unfold max_distance; lia]. split; [apply Z.pow_nonneg; lia|].
  assert (Hl : 0 <= Z.log2_up margin <= 32).
  { split; [apply Z.log2_up_nonneg|]. change 32 with (Z.log2_up 4294967296). apply Z.log2_up_le_mono. lia. }
  assert (0 <= (62 - Z.log2_up margin) * c / m <= 62).
  { split; [apply Z.div_pos; nia|]. apply Z.div_le_upper_bound; nia. }
  transitivity (2 ^ 62); [apply Z.pow_le_mono_r; lia|]. unfold max_distance. lia.
Qed.
Lemma ov_tab_margin margin m c : 0 < margin < 4294967296 -> 0 <= c <= m -> m < 64 -> ov_tab margin m c * margin <= max_distance.
Proof.
  intros Hm Hc H6. unfold ov_tab. case_decide as H; [|unfold max_distance; lia].
  assert (Hl : 0 <= Z.log2_up margin <= 32).
  { split; [apply Z.log2_up_nonneg|]. change 32 with (Z.log2_up 4294967296). apply Z.log2_up_le_mono. lia. }
  assert (Hd : 0 <= (62 - Z.log2_up margin) * c / m <= 62 - Z.log2_up margin).
  { split; [apply Z.div_pos; nia|]. apply Z.div_le_upper_bound; nia. }
  assert (Hmm : margin <= 2 ^ Z.log2_up margin).
  { destruct (decide (margin = 1)) as [->|]; [done|]. apply Z.log2_up_spec. lia. }
  assert (2 ^ ((62 - Z.log2_up margin) * c / m) * margin <= 2 ^ (62 - Z.log2_up margin) * 2 ^ Z.log2_up margin).
  { apply Z.mul_le_mono_nonneg; [apply Z.pow_nonneg; lia|apply Z.pow_le_mono_r; lia|lia|done]. }
  rewrite <- Z.pow_add_r in H0 by lia. replace (62 - Z.log2_up margin + Z.log2_up margin) with 62 in H0 by lia.
  unfold max_distance. lia.
Qed.
Theorem C29_refuted : exists vg qg p o, good_input vg qg p o /\
  Z.of_nat (gn vg) * Z.of_nat (gn qg) < 4294967296 /\
  (forall margin m c, 0 < margin < 4294967296 -> 0 <= c <= m -> m < 64 -> o_wtab o margin m c * margin <= max_distance) /\
  find_embedding vg qg p o = Err Overflow.
Proof.
  exists (ov_vg 66), ov_qg, ov_p, ov_o. split; [|split; [simpl; lia|split; [exact ov_tab_margin|vm_compute; reflexivity]]].
  split.
  - intros a b Hab. unfold ov_vg in *. cbn [gn ge] in *. apply elem_of_list_fmap in Hab as (i & [= -> ->] & Hi%elem_of_seq). lia.
  - intros a b Hab. simpl in *. rewrite !elem_of_cons, elem_of_nil in Hab.
    destruct Hab as [[= -> ->]|[[= -> ->]|[[= -> ->]|[[= -> ->]|[]]]]]; lia.
  - simpl. lia.
  - simpl. lia.
  - simpl. lia.
  - apply run_sort_ok.
  - exact ov_tab_rng.
  - by apply NoDup_nil_2.
  - by apply TopProofs.unrestricted_even.
  - by apply (bool_decide_unpack _).
  - by apply NoDup_nil_2.
  - intros v C Hv. apply elem_of_list_singleton in Hv as [= -> ->]. split; [simpl; lia|]. split; [done|]. split; [apply NoDup_singleton|].
    intros q ->%elem_of_list_singleton. simpl. lia.
  - intros v C v' C' q Hv Hv'. apply elem_of_list_singleton in Hv as [= -> ->]. by apply elem_of_list_singleton in Hv' as [= -> ->].
  - intros v C Hv. by apply elem_of_nil in Hv.
  - right. intros x Hx. simpl in Hx.
    destruct x as [|[|[|[|[|x]]]]]; [exists 1%nat|exists 2%nat|exists 3%nat|exists 4%nat|exists 3%nat|lia]; try (left; simpl; set_solver); right; simpl; set_solver.
  - vm_compute. done.
Qed.
Print Assumptions C29_refuted.

(** ** Non-vacuity *)
(** C11: three insertions, two removals *)
Example q_ops : exists q, mq_run 3 [QPush (mkNode 0 0 5); QPush (mkNode 1 1 2); QPop; QPush (mkNode 2 0 3); QPop] =
  Ok (q, [mkNode 1 1 2; mkNode 2 0 3]).
Proof. eexists. vm_compute. reflexivity. Qed.

(** C12, C13, C21: variables 0 and 1 are free, 2 is fixed on the reserved qubit 4 next to qubit 0;
    qubits 0-1-2-3 form a path; the chain of 1 is {2,3}; 0 is adjacent to 1 and 2. *)
Definition pa_pb : problem := mkProblem 2 1 4 1 [[1]; [0;2]; [1;3]; [2]; [0]]%nat None.
Definition pa_vn : list (list nat) := [[1;2]; [0]; []]%nat.
Definition pa_E (u v : nat) : Prop := (u = 0 /\ v = 1)%nat \/ (u = 1 /\ v = 0)%nat \/ (u = 0 /\ v = 2)%nat.
Definition pa_em : emb := match emb_init pa_pb pa_vn [(2, [4])]%nat [(1, [2;3])]%nat with Ok e => e | Err _ => emb_new pa_pb end.
Definition pa_env : env := mkEnv pa_pb (fun n => n) (fun _ => SGo) (fun _ c => c + 1) 10 10 10 2 3 false false true false 100.
Definition pa_s : st := pathfinder_new pa_env pa_vn.

Lemma pa_nbq x y : nbq pa_pb x y -> (x, y) ∈ [(0,1);(1,0);(1,2);(2,1);(2,3);(3,2);(4,0)]%nat.
Proof. intros (l & H & Y). simpl in H. do 5 (destruct x as [|x]; [injection H as <-; set_solver|]). done. Qed.
Lemma pa_wf : pb_wf pa_pb.
Proof.
  split; [done|..].
  - intros x y H. apply pa_nbq in H. simpl. set_unfold. naive_solver lia.
  - intros x y H. apply pa_nbq in H. set_unfold. naive_solver lia.
  - intros x y Hx H. apply pa_nbq in H. unfold nbq. simpl in Hx. rewrite !elem_of_cons, elem_of_nil in H.
    destruct H as [H|[H|[H|[H|[H|[H|[H|[]]]]]]]]; injection H as -> ->; try lia; simpl; eexists; (split; [done|set_solver]).
  - done.
Qed.
Lemma pa_vn_ok : vn_ok pa_pb pa_E pa_vn.
Proof.
  assert (H : forall u v, nbr pa_vn u v <-> pa_E u v).
  { intros u v. split.
    - intros (l & H & Y). unfold pa_E. do 3 (destruct u as [|u]; [injection H as <-; set_solver|]). done.
    - intros [[-> ->]|[[-> ->]|[-> ->]]]; eexists; (split; [done|set_solver]). }
  split; [|done]. split; [done|..].
  - intros u v X. apply H in X. unfold pa_E in X. simpl. lia.
  - intros u v X. apply H in X. unfold pa_E in X. simpl. lia.
  - intros u v X. apply H in X. unfold pa_E in X. lia.
  - intros u v X Y. apply H. apply H in X. unfold pa_E in *. simpl in Y. lia.
  - intros u l X. do 3 (destruct u as [|u]; [injection X as <-; by apply (bool_decide_unpack _)|]). done.
Qed.
Lemma pa_in v q : in_chain pa_em v q -> (v, q) ∈ [(1,2);(1,3);(2,4)]%nat.
Proof.
  intros (c & Hc & Hq).
  assert (q ∈ (map_to_list (cdata c)).*1) as Hd by (apply elem_of_list_fmap; destruct Hq as [y Hy]; exists (q, y); split; [done|by apply elem_of_map_to_list]).
  destruct v as [|[|[|v]]]; vm_compute in Hc; try done; injection Hc as <-; vm_compute in Hd; rewrite ?elem_of_cons, ?elem_of_nil in Hd; set_solver.
Qed.
Lemma pa_placed : placed_ok pa_pb pa_em.
Proof.
  split; [by vm_compute|by vm_compute|..].
  - intros v q Hv H%pa_in. rewrite !elem_of_cons, elem_of_nil in H. simpl in *. destruct H as [[= -> ->]|[[= -> ->]|[[= -> ->]|[]]]]; lia.
  - intros v q Hv H%pa_in. rewrite !elem_of_cons, elem_of_nil in H. simpl in *. destruct H as [[= -> ->]|[[= -> ->]|[[= -> ->]|[]]]]; lia.
Qed.
Lemma pa_buffers : buffers_ok pa_pb (sr pa_s).
Proof.
  split; [by vm_compute|by vm_compute|by vm_compute|apply (bool_decide_unpack _); by vm_compute|..|by vm_compute|by vm_compute];
    intros v r H; destruct v as [|[|[|v]]]; vm_compute in H; try done; injection H as <-; try done.
  all: split; [done|]; intros d Hd; rewrite !elem_of_cons, elem_of_nil in Hd; unfold max_distance; lia.
Qed.
Lemma pa_reach : reach pa_pb pa_E pa_em.
Proof.
  eapply (r_init pa_pb pa_E pa_vn [(2, [4])]%nat [(1, [2;3])]%nat); [apply pa_vn_ok| |vm_compute; reflexivity].
  split; try (by apply (bool_decide_unpack _)).
  - intros v C H. apply elem_of_list_singleton in H as [= -> ->]. simpl. split; [lia|]. split; [intros q ->%elem_of_list_singleton; lia|apply NoDup_singleton].
  - simpl. intros v H. replace v with 2%nat by lia. set_solver.
  - intros v C H. apply elem_of_list_singleton in H as [= -> ->]. simpl. split; [lia|]. split; [done|].
    split; [intros q Hq; rewrite !elem_of_cons, elem_of_nil in Hq; lia|by apply (bool_decide_unpack _)].
Qed.
Lemma pa_nochain : no_chain pa_em 0%nat.
Proof.
  split; [by vm_compute|]. intros v (c & Hc & Hl).
  destruct v as [|[|[|v]]]; vm_compute in Hc; try done; injection Hc as <-; vm_compute in Hl; by destruct Hl.
Qed.
(** the attempt for variable 0 succeeds; the root is qubit 0 or 1 *)
Example pa_root : table_ok pa_env /\ embedded_of pa_em [1;2]%nat = [1;2]%nat /\
  exists s' em', find_chain3 pa_env pa_s pa_em 0 0 = Ok (true, s', em') /\ total (sr s') = [3; 3; 6; 8] /\ root_of em' 0 0.
Proof.
  split; [intros m c Hc; simpl; unfold max_distance; lia|]. split; [by vm_compute|].
  eexists _, _. split; [vm_compute; reflexivity|]. split; [by vm_compute|]. eexists. split; [vm_compute; reflexivity|by vm_compute].
Qed.
Example pa_search : costs_ok pa_pb [1;1;2;2] /\ exists b',
  (let! b := prep_vis pa_pb 0 1 (let b := sr pa_s in mkSr (par b) (vis b) (dist b) (total b) [1;1;2;2] (perm b)) in compute_distances_from_chain pa_pb pa_em 3 1 b) = Ok b' /\
  dist b' !! 1%nat = Some [2; 1; 0; 0; 0].
Proof.
  split; [split; [done|]; intros q Hq; simpl in Hq; do 4 (destruct q as [|q]; [by vm_compute|]); lia|].
  eexists. split; [vm_compute; reflexivity|by vm_compute].
Qed.
(** C12, C13 with restrictions: 0 may use qubits 0-2, its neighbours 1 and 2 may use 1-4, so both
    searches for a chain of 0 see all qubits, and the root must be one of 0-2 *)
Definition pm_pb : problem := mkProblem 2 1 4 1 [[1]; [0;2]; [1;3]; [2]; [0]]%nat (Some [[0;0;0;-1;-1]; [-1;0;0;0;0]; [-1;0;0;0;0]]).
Definition pm_env : env := mkEnv pm_pb (fun n => n) (fun _ => SGo) (fun _ c => c + 1) 10 10 10 2 3 false true true false 100.
Example pm_root : pb_wf pm_pb /\ even_areas pm_pb pa_E /\ ~ may_use pm_pb 0 3 /\
  exists s' em', find_chain3 pm_env (pathfinder_new pm_env pa_vn) pa_em 0 0 = Ok (true, s', em') /\ total (sr s') = [3; 3; 6; max_distance] /\ root_of em' 0 0.
Proof.
  split; [|split; [|split]].
  - destruct pa_wf. split; auto. intros m [= <-]. split; [done|]. intros u r Hu.
    do 3 (destruct u as [|u]; [injection Hu as <-; split; [done|]; intros x Hx; rewrite !elem_of_cons, elem_of_nil in Hx; lia|]). done.
  - intros u v v' x Hx [[-> ->]|[[-> ->]|[-> ->]]] H' _; unfold pa_E in H'; simpl in Hx; assert (v' = 0 \/ v' = 1 \/ v' = 2)%nat as Hv by lia;
      do 4 (destruct x as [|x]; [destruct Hv as [->|[->| ->]]; (lia || (left; eexists; split; reflexivity) || (right; eexists; split; reflexivity))|]); lia.
  - intros (r & [= <-] & H). done.
  - eexists _, _. split; [vm_compute; reflexivity|]. split; [by vm_compute|]. eexists. split; [vm_compute; reflexivity|by vm_compute].
Qed.
(** C21 needs an embedded neighbour: without one the serial preparation counts the weight of the
    root, the threaded one does not *)
Example pa_none : exists b1 b2, prepare_root (with_parallel pa_env false) [] 3 pa_em 0 (sr pa_s) = Ok b1 /\
  prepare_root (with_parallel pa_env true) [] 3 pa_em 0 (sr pa_s) = Ok b2 /\ total b1 <> total b2.
Proof. eexists _, _. split; [vm_compute; reflexivity|]. split; [vm_compute; reflexivity|]. by vm_compute. Qed.
Example pa_both : exists b, prepare_root (with_parallel pa_env false) [1;2]%nat 3 pa_em 0 (sr pa_s) = Ok b /\
  prepare_root (with_parallel pa_env true) [1;2]%nat 3 pa_em 0 (sr pa_s) = Ok b.
Proof. eexists. split; [vm_compute; reflexivity|vm_compute; reflexivity]. Qed.
(** C14: all orders on a graph with two components *)
Example pa_orders : exists o1 o2, var_order pa_env pa_s VO_PFS = Ok o1 /\ var_order pa_env pa_s VO_SHUFFLE = Ok o2.
Proof. eexists _, _. split; [vm_compute; reflexivity|vm_compute; reflexivity]. Qed.
(** C29: a triangle and a ring of four qubits *)
Definition safe_o : oracle := mkOracle (fun n => n) (fun _ => SGo) ov_tab run_sort 2050.
Example run_safe_input : good_input run_vg run_qg (run_p false [] []) safe_o /\ safe_input run_vg run_qg (run_p false [] []) safe_o.
Proof.
  split.
  { assert (G : good_input run_vg run_qg (run_p false [] []) run_o) by (apply run_good; apply elem_of_list_here).
    destruct G. split; try done. exact ov_tab_rng. }
  split; [|by vm_compute|exact ov_tab_margin].
  intros fv Hn Hf. assert (fv ⊆+ seq 0 3) as Hs.
  { apply NoDup_submseteq; [done|]. intros v Hv. apply elem_of_seq. destruct (Hf v Hv) as [H _]. simpl in H. lia. }
  apply submseteq_length in Hs. simpl in Hs. lia.
Qed.
