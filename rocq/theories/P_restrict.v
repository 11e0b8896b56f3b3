(** Property theorems about [restrict_chains]: C25 and C58. *)
From stdpp Require Import base list numbers gmap sorting.
From Verif Require Import Base ChainModel EmbModel Spec SpecEmb QueueModel PathModel GraphModel SpecGraph ParamModel
  SpecTop TopProofs2 TopProofs3 RestrictProofs P_run P_quick.

(** the same parameters without restrictions; the same run with another bound on the chain-length loop *)
Definition unrestrict (p : params) : params :=
  mkParams (p_max_no_improvement p) (p_tries p) (p_verbose p) (p_interactive p) (p_inner_rounds p) (p_max_fill p)
    (p_return_overlap p) (p_chainlength_patience p) (p_threads p) (p_skip_init p) (p_fixed p) (p_initial p) [].
Definition with_bound (o : oracle) (n : nat) : oracle := mkOracle (o_rnd o) (o_stops o) (o_wtab o) (o_sort o) n.

(** acceptable restrictions: each variable at most once, to some qubits of the target graph *)
Definition restrictions_ok (vg qg : graph) (p : params) : Prop :=
  NoDup (p_restrict p).*1 /\
  forall v C, (v, C) ∈ p_restrict p -> v < gn vg /\ C <> [] /\ NoDup C /\ forall q, q ∈ C -> q < gn qg.
(** no two adjacent variables are both restricted, or all variables are restricted to the same qubits *)
Definition fair_restrictions (vg : graph) (p : params) : Prop :=
  (forall u v C C', edge vg u v -> (u, C) ∈ p_restrict p -> (v, C') ∈ p_restrict p -> False) \/
  (exists R : list nat, (forall v, v < gn vg -> exists C, (v, C) ∈ p_restrict p) /\
     forall v C, (v, C) ∈ p_restrict p -> forall q, q ∈ C <-> q ∈ R).

Lemma restricted_good vg qg p o : good_input vg qg (unrestrict p) o -> NoDup (p_restrict p).*1 -> even_restriction vg qg p ->
  good_input vg qg p o.
Proof. intros [] N R. split; done. Qed.
Lemma fair_even vg qg p : graph_wf vg -> fair_restrictions vg p -> even_restriction vg qg p.
Proof. intros W [H|(R & HA & HR)]; [by apply apart_even|by eapply alike_even]. Qed.

(** C58 for fair restrictions: no undefined behaviour, no endless loop, and success means a minor
    embedding. *)
Theorem C58_fair_restrictions_partial : forall vg qg p o,
  good_input vg qg (unrestrict p) o -> restrictions_ok vg qg p -> fair_restrictions vg p ->
  match find_embedding vg qg p o with
  | Err x => x <> UB /\ x <> OOF /\ documented p x
  | Ok (true, cs) => exists l, cs = Some l /\ length l = gn vg /\ (forall v q, has_qubit l v q -> q < gn qg) /\
      (p_fixed p = [] -> minor_embedding (gn vg) (edge vg) (edge qg) (has_qubit l))
  | Ok (false, _) => True
  end.
Proof.
  intros vg qg p o G [N _] F.
  assert (G' : good_input vg qg p o). { apply restricted_good; [done|done|]. apply fair_even; [|done]. by apply G. }
  pose proof (run_safe _ _ _ _ G') as S. destruct (find_embedding vg qg p o) as [[[] cs]|x] eqn:H; [|done|done].
  pose proof (proj1 (run_ok _ _ _ _ _ G' H)) as O. unfold outcome in O. simpl in O.
  destruct cs as [l|]; [|by destruct O]. exists l. split; [done|].
  destruct O as (_ & [[Oe _]|(X & _)]); [|done]. split; [apply Oe|]. split.
  { intros v q (C & HC & Hq). by apply (oe_nodup _ _ _ _ Oe v C HC). }
  intros Hf. destruct (success_minor _ _ _ _ _ G' Hf H) as (l' & [= <-] & _ & _ & M). exact M.
Qed.
Print Assumptions C58_fair_restrictions_partial.

(** The model's bounds on the loops of [trim_branch] and [link_path] are those of the real, unbounded
    loops: a loop that ends at all ends within the bound.  So [OOF] in these loops is an endless loop. *)
Theorem C58_trim_bound_irrelevant : forall n c w q r, trim_branch n c w q = Ok r -> trim_branch (S (csize c)) c w q = Ok r.
Proof. intros n c w q r H. eapply trim_branch_bound; [exact H|lia]. Qed.
Print Assumptions C58_trim_bound_irrelevant.
Theorem C58_link_bound_irrelevant : forall n this other w parents q p r,
  link_path_loop n this other w parents q p = Ok r -> link_path_loop (length parents) this other w parents q p = Ok r.
Proof. exact link_path_bound. Qed.
Print Assumptions C58_link_bound_irrelevant.

(** C58 is false in general: success is reported although two adjacent variables have chains that
    do not touch ... *)
Definition bad_vg : graph := mkGraph 5 [(4,3);(4,1);(4,0);(3,2);(1,2);(0,2)].
Definition bad_qg : graph := mkGraph 7 [(6,3);(3,5);(5,0);(0,1);(0,2);(6,4);(1,4);(2,4)].
Definition bad_p : params :=
  mkParams 10 10 0 true 10 100 true 10 1 false [] [] [(0,[0;2]);(1,[0;1]);(2,[4]);(3,[6]);(4,[3;5])].
Definition bad_tab : list nat := [16;16;25;14;26;31;26;25;8;3;14;45;10;17;32;46;0;46;0;27].
Definition bad_o : oracle :=
  mkOracle (fun n => default 0 (bad_tab !! (n mod 20))) (fun _ => SGo) (fun _ _ c => (c + 1)%Z) run_sort 0.

(** [good_input] but for the bound, by computation *)
Definition impatient (p : params) : params :=
  mkParams (p_max_no_improvement p) (p_tries p) (p_verbose p) (p_interactive p) (p_inner_rounds p) (p_max_fill p)
    (p_return_overlap p) 0 (p_threads p) (p_skip_init p) (p_fixed p) (p_initial p) (p_restrict p).
Lemma good_bound vg qg p o n : good_input vg qg (impatient p) (with_bound o 0) ->
  (Z.of_nat (p_chainlength_patience p) * ((Z.of_nat (gn vg) + 1) ^ Z.of_nat (S (gn qg)) + 1) <= Z.of_nat n)%Z ->
  good_input vg qg p (with_bound o n).
Proof. intros [] H. split; done. Qed.
Definition enough (vg qg : graph) (p : params) : nat :=
  Z.to_nat (Z.of_nat (p_chainlength_patience p) * ((Z.of_nat (gn vg) + 1) ^ Z.of_nat (S (gn qg)) + 1)).
Lemma enough_ok vg qg p k :
  (Z.of_nat (p_chainlength_patience p) * ((Z.of_nat (gn vg) + 1) ^ Z.of_nat (S (gn qg)) + 1) <= Z.of_nat (k + enough vg qg p))%Z.
Proof. unfold enough. rewrite Nat2Z.inj_add, Z2Nat.id; [lia|]. apply Z.mul_nonneg_nonneg; [lia|]. apply Z.add_nonneg_nonneg; [|lia]. apply Z.pow_nonneg. lia. Qed.

Ltac ex_restrictions := split; [by apply (bool_decide_unpack _)|]; simpl; intros ? ? ?H;
  rewrite !elem_of_cons, elem_of_nil in H; destruct_or!; try done; injection H as -> ->;
  (split; [simpl; lia|split; [done|split; [by apply (bool_decide_unpack _)|]]]); intros q; rewrite !elem_of_cons, elem_of_nil; simpl; lia.

Lemma bad_run n : find_embedding bad_vg bad_qg bad_p (with_bound bad_o (100 + n)) = Ok (true, Some [[2];[1];[4];[6];[5;0]]).
Proof. vm_compute. reflexivity. Qed.
Theorem C58_success_refuted : exists vg qg p o l,
  good_input vg qg (unrestrict p) o /\ restrictions_ok vg qg p /\ p_fixed p = [] /\
  find_embedding vg qg p o = Ok (true, Some l) /\
  ~ minor_embedding (gn vg) (edge vg) (edge qg) (has_qubit l).
Proof.
  exists bad_vg, bad_qg, bad_p, (with_bound bad_o (100 + enough bad_vg bad_qg bad_p)), [[2];[1];[4];[6];[5;0]].
  split; [|split; [|split; [done|split]]].
  - apply good_bound; [ex_go|]. apply (enough_ok bad_vg bad_qg bad_p).
  - ex_restrictions.
  - apply bad_run.
  - intros M. destruct (me_edges _ _ _ _ M 4 3) as (a & b & (C & [= <-] & Ha) & (D & [= <-] & Hb) & Hab); [simpl; lia|simpl; lia|left; simpl; set_solver|lia|].
    rewrite !elem_of_cons, elem_of_nil in Ha. rewrite elem_of_list_singleton in Hb. subst b.
    destruct Ha as [->|[->|[]]]; destruct Hab as [Hab|Hab]; simpl in Hab; rewrite !elem_of_cons, elem_of_nil in Hab; naive_solver.
Qed.
Print Assumptions C58_success_refuted.

(** ... and a run does not end: whatever the bound on the chain-length loop, one of the inner loops
    exceeds its bound. *)
Definition hang_vg : graph := mkGraph 4 [(0,1);(0,2);(1,2);(1,3);(2,3)].
Definition hang_qg : graph := mkGraph 6 [(0,1);(1,2);(2,3);(1,4);(3,4);(4,5)].
Definition hang_p : params := mkParams 10 10 0 true 10 100 true 10 1 false [] [] [(0,[4]);(1,[3])].
Definition hang_o : oracle := mkOracle (fun n => n * 8 + n / 3) (fun _ => SGo) (fun _ _ c => (c + 1)%Z) run_sort 0.
Lemma hang_run n : find_embedding hang_vg hang_qg hang_p (with_bound hang_o n) = Err OOF.
Proof. vm_compute. reflexivity. Qed.
Theorem C58_termination_refuted : exists vg qg p o,
  good_input vg qg (unrestrict p) o /\ restrictions_ok vg qg p /\ p_fixed p = [] /\ p_initial p = [] /\
  forall n, find_embedding vg qg p (with_bound o n) = Err OOF.
Proof.
  exists hang_vg, hang_qg, hang_p, (with_bound hang_o (0 + enough hang_vg hang_qg hang_p)).
  split; [|split; [|split; [done|split; [done|]]]].
  - apply good_bound; [ex_go|]. apply (enough_ok hang_vg hang_qg hang_p).
  - ex_restrictions.
  - intros n. exact (hang_run n).
Qed.
Print Assumptions C58_termination_refuted.

(** ** Non-vacuity of the partial theorem: a triangle whose chains are all confined to a cycle of
    four of six qubits, and a path whose ends are confined to one qubit each *)
Definition fair_qg : graph := mkGraph 6 [(0,1);(1,2);(2,3);(3,0);(0,4);(4,5)].
Definition fair_p (rs : cmap) : params := mkParams 10 10 0 true 10 100 true 2 1 false [] [] rs.
Notation fair_all := [(0,[0;1;2;3]);(1,[0;1;2;3]);(2,[3;2;1;0])].
Notation fair_ends := [(0,[5]);(2,[2])].
Example fair_all_ok : good_input run_vg fair_qg (unrestrict (fair_p fair_all)) (with_bound run_o (100 + enough run_vg fair_qg (fair_p []))) /\
  restrictions_ok run_vg fair_qg (fair_p fair_all) /\ fair_restrictions run_vg (fair_p fair_all).
Proof.
  split; [|split].
  - apply good_bound; [ex_go|]. apply (enough_ok run_vg fair_qg (fair_p [])).
  - ex_restrictions.
  - right. exists [0;1;2;3]. split.
    + intros v Hv. simpl in *. destruct v as [|[|[|v]]]; [exists [0;1;2;3]|exists [0;1;2;3]|exists [3;2;1;0]|lia]; set_solver.
    + simpl. intros v C H q. rewrite !elem_of_cons, elem_of_nil in H. destruct_or!; try done; injection H as -> ->; set_solver.
Qed.
Example fair_ends_ok : good_input ex_path fair_qg (unrestrict (fair_p fair_ends)) (with_bound run_o (100 + enough run_vg fair_qg (fair_p []))) /\
  restrictions_ok ex_path fair_qg (fair_p fair_ends) /\ fair_restrictions ex_path (fair_p fair_ends).
Proof.
  split; [|split].
  - apply good_bound; [ex_go|]. apply (enough_ok ex_path fair_qg (fair_p [])).
  - ex_restrictions.
  - left. intros u v C D Huv HC HD. simpl in HC, HD. unfold edge in Huv. simpl in Huv.
    rewrite !elem_of_cons, !elem_of_nil in Huv. rewrite !elem_of_cons, elem_of_nil in HC. rewrite !elem_of_cons, elem_of_nil in HD.
    destruct HC as [[= -> _]|[[= -> _]|[]]]; destruct HD as [[= -> _]|[[= -> _]|[]]]; naive_solver.
Qed.
Example fair_runs n : exists l l',
  find_embedding run_vg fair_qg (fair_p fair_all) (with_bound run_o (100 + n)) = Ok (true, Some l) /\
  find_embedding ex_path fair_qg (fair_p fair_ends) (with_bound run_o (100 + n)) = Ok (true, Some l') /\ length (concat l') = 5.
Proof. eexists _, _. split; [vm_compute; reflexivity|]. split; vm_compute; reflexivity. Qed.

(** ** C25 for fair restrictions: a chain that is returned, with or without success, stays on qubits
    which its variable or one of the variable's neighbours may use, or of its initial chain *)
Theorem C25_neighbourhood_partial : forall vg qg p o ok cs v q,
  good_input vg qg (unrestrict p) o -> restrictions_ok vg qg p -> fair_restrictions vg p ->
  find_embedding vg qg p o = Ok (ok, Some cs) -> ~ is_fixed p v -> has_qubit cs v q ->
  allowed p v q \/ (exists w, edge vg v w /\ allowed p w q) \/ (exists C, (v, C) ∈ p_initial p /\ q ∈ C).
Proof.
  intros vg qg p o ok cs v q G [N _] F H Nf Hq.
  assert (G' : good_input vg qg p o). { apply restricted_good; [done|done|]. apply fair_even; [|done]. by apply G. }
  exact (run_confined _ _ _ _ _ G' H cs v q eq_refl Nf Hq).
Qed.
Print Assumptions C25_neighbourhood_partial.
(** ... so if all variables are restricted to the same qubits, where also the initial chains lie, no
    chain leaves them *)
Theorem C25_common_set_partial : forall vg qg p o ok cs v q (R : list nat),
  good_input vg qg (unrestrict p) o -> restrictions_ok vg qg p ->
  (forall u, u < gn vg -> exists C, (u, C) ∈ p_restrict p /\ forall x, x ∈ C <-> x ∈ R) ->
  (forall u C x, (u, C) ∈ p_initial p -> x ∈ C -> x ∈ R) ->
  find_embedding vg qg p o = Ok (ok, Some cs) -> ~ is_fixed p v -> has_qubit cs v q -> q ∈ R.
Proof.
  intros vg qg p o ok cs v q R G RO HR HI H Nf Hq.
  assert (HR' : forall u C, (u, C) ∈ p_restrict p -> forall x, x ∈ C <-> x ∈ R).
  { intros u C HC x. destruct RO as [N RO]. destruct (HR u) as (C' & HC' & Hx); [by apply (RO u C HC)|].
    rewrite <- Hx. 
    apply elem_of_list_to_map in HC, HC'; [|done..]. rewrite HC in HC'. by injection HC' as ->. }
  assert (F : fair_restrictions vg p). { right. exists R. split; [|exact HR']. intros u Hu. destruct (HR u Hu) as (C & HC & _). eauto. }
  assert (K : forall u, u < gn vg -> allowed p u q -> q ∈ R).
  { intros u Hu Ha. destruct (HR u Hu) as (C & HC & Hx). apply Hx. by apply (Ha C). }
  assert (Lv : v < gn vg).
  { assert (G' : good_input vg qg p o). { apply restricted_good; [done|apply RO|]. apply fair_even; [|done]. by apply G. }
    pose proof (proj1 (run_ok _ _ _ _ _ G' H)) as O. destruct O as (_ & [[Oe _]|(_ & _ & ->)]).
    - destruct Hq as (C & HC & _). rewrite <- (oe_len _ _ _ _ Oe). by eapply lookup_lt_Some.
    - destruct Hq as (C & HC & _). apply lookup_replicate in HC. lia. }
  destruct (C25_neighbourhood_partial _ _ _ _ _ _ _ _ G RO F H Nf Hq) as [Ha|[(w & Ew & Ha)|(C & HC & HqC)]].
  - by apply (K v).
  - apply (K w); [|done]. pose proof (gi_vg _ _ _ _ G) as W. destruct Ew as [Ew|Ew]; apply W in Ew; lia.
  - by apply (HI v C).
Qed.
Print Assumptions C25_common_set_partial.

(** Non-vacuity: the runs above end with chains inside the common four qubits; the middle variable's
    chain reaches both ends, and the ends are where they were told to be. *)
Example confined_runs n : exists l l',
  find_embedding run_vg fair_qg (fair_p fair_all) (with_bound run_o (100 + n)) = Ok (true, Some l) /\
  forallb (fun q => bool_decide (q < 4)) (concat l) = true /\
  find_embedding ex_path fair_qg (fair_p fair_ends) (with_bound run_o (100 + n)) = Ok (true, Some l') /\
  l' !! 0 = Some [5] /\ l' !! 2 = Some [2].
Proof. eexists _, _. split; [vm_compute; reflexivity|]. split; [reflexivity|]. split; [vm_compute; reflexivity|]. split; reflexivity. Qed.
