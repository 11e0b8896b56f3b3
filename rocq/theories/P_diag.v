(** C59: the checks of an embedding. *)
Require Import Lia.
From stdpp Require Import base list numbers relations.
From Verif Require Import Base NxModel SpecNx DiagProofs PyModel SpecPy.

(** C59: [is_valid_embedding] returns True exactly for the dicts that are minor embeddings of the
    source graph in the target graph *)
Theorem C59_valid : forall {A : Type} `{!EqDecision A} (emb : list (A * list A)) (S T : nxgraph A),
  NoDup emb.*1 -> nx_wf S -> nx_wf T ->
  is_valid_embedding emb S T = true <-> nx_embedding emb S T.
Proof. intros A H. exact (@valid_iff A H). Qed.
Print Assumptions C59_valid.
(** C59: whatever is reported is a defect *)
Theorem C59_sound : forall {A : Type} `{!EqDecision A} (emb : list (A * list A)) (S T : nxgraph A) r,
  NoDup emb.*1 -> nx_wf S -> nx_wf T ->
  r ∈ diagnose_embedding emb S T -> real_defect emb S T r.
Proof. intros A H. exact (@diagnose_sound A H). Qed.
Print Assumptions C59_sound.
(** C59: every defect is reported; of several chains that share a qubit every one but one is reported,
    each with another one of them *)
Theorem C59_complete : forall {A : Type} `{!EqDecision A} (emb : list (A * list A)) (S T : nxgraph A) r,
  NoDup emb.*1 -> nx_wf S -> nx_wf T -> real_defect emb S T r ->
  match r with
  | ChainOverlapError q x y => exists z, (z = x \/ z = y) /\ exists w, ChainOverlapError q w z ∈ diagnose_embedding emb S T
  | _ => r ∈ diagnose_embedding emb S T
  end.
Proof. intros A H. exact (@diagnose_complete A H). Qed.
Print Assumptions C59_complete.
(** C59: [verify_embedding] raises a defect that is not ignored, or there is none among the reports *)
Theorem C59_verify : forall {A : Type} `{!EqDecision A} (emb : list (A * list A)) (S T : nxgraph A) ign,
  NoDup emb.*1 -> nx_wf S -> nx_wf T ->
  match verify_embedding emb S T ign with
  | Some r => real_defect emb S T r /\ ign r = false
  | None => forall r, r ∈ diagnose_embedding emb S T -> ign r = true
  end.
Proof. intros A H. exact (@verify_spec A H). Qed.
Print Assumptions C59_verify.

(** C59: an embedding in the sense of C47 passes the check: [G] is the caller's graph as networkx has it *)
Definition same_graph {A : Type} (G : pygraph A) (g : nxgraph A) : Prop :=
  (forall a, occurs G a <-> a ∈ nx_nodes g) /\ (forall a b, ladj G a b <-> nx_adj g a b).
Theorem C59_found : forall {A : Type} `{!EqDecision A} (GS GT : pygraph A) (S T : nxgraph A) d,
  nx_wf S -> nx_wf T -> same_graph GS S -> same_graph GT T ->
  label_embedding GS GT d -> is_valid_embedding d S T = true.
Proof.
  intros A HA GS GT S T d WS WT [S1 S2] [T1 T2] [[ND [HK HQ]] H1 H2 H3 H4]. apply C59_valid; [done..|].
  assert (E : forall x q, on_chain d x q <-> in_dict d x q) by (intros; reflexivity). split.
  - intros x Hx. apply H1. by apply S1.
  - intros x q Hx Hq. apply T1. by eapply HQ.
  - intros x Hx a b Ha Hb. pose proof (H2 x (proj2 (S1 x) Hx) a b Ha Hb) as Hr.
    eapply rtc_subrel; [|exact Hr]. intros u v (? & ? & ?). split; [by apply T2|done].
  - intros x y q _ _ Hx Hy. by eapply H3.
  - intros x y Hxy Hne. destruct (H4 x y (proj2 (S2 x y) Hxy) Hne) as (p & q & ? & ? & ?). exists p, q. split; [done|]. split; [done|]. by apply T2.
Qed.
Print Assumptions C59_found.

(** ** Cases: a triangle in a square *)
Definition dg_S : nxgraph nat := mkNx [0; 1; 2] [(0, 1); (1, 2); (0, 2); (2, 2)].
Definition dg_T : nxgraph nat := mkNx [10; 11; 12; 13; 14] [(10, 11); (11, 12); (12, 13); (13, 10)].
Lemma dg_wf : nx_wf dg_S /\ nx_wf dg_T.
Proof.
  assert (D : forall (l : list (nat * nat)) (ns : list nat), forallb (fun e => bool_decide (e.1 ∈ ns) && bool_decide (e.2 ∈ ns)) l = true ->
    forall a b, (a, b) ∈ l -> a ∈ ns /\ b ∈ ns).
  { intros l ns H a b Hab. apply elem_of_list_In in Hab. rewrite forallb_forall in H. apply H in Hab. simpl in Hab.
    apply andb_true_iff in Hab as [H1 H2]. by apply bool_decide_eq_true in H1, H2. }
  assert (O : forall (l : list (nat * nat)), forallb (fun e => bool_decide ((e.2, e.1) ∈ l -> e.1 = e.2)) l = true ->
    forall a b, (a, b) ∈ l -> (b, a) ∈ l -> a = b).
  { intros l H a b Hab Hba. apply elem_of_list_In in Hab. rewrite forallb_forall in H. apply H in Hab. simpl in Hab.
    apply bool_decide_eq_true in Hab. auto. }
  split; split; try (by apply (bool_decide_unpack _); vm_compute); try (by apply D; vm_compute); by apply O; vm_compute.
Qed.
Example dg_good : is_valid_embedding [(0, [10]); (1, [11]); (2, [12; 13]); (7, [99])] dg_S dg_T = true.
Proof. by vm_compute. Qed.
Example dg_good_is_embedding : nx_embedding [(0, [10]); (1, [11]); (2, [12; 13]); (7, [99])] dg_S dg_T.
Proof. apply C59_valid; [by apply (bool_decide_unpack _); vm_compute|apply dg_wf|apply dg_wf|by vm_compute]. Qed.
Example dg_bad : diagnose_embedding [(0, [10; 12]); (2, [12; 99])] dg_S dg_T =
  [DisconnectedChainError 0; MissingChainError 1; InvalidNodeError 2 99; ChainOverlapError 12 0 2].
Proof. by vm_compute. Qed.
Example dg_edge : diagnose_embedding [(0, [10]); (1, [12]); (2, [14])] dg_S dg_T =
  [MissingEdgeError 0 1; MissingEdgeError 1 2; MissingEdgeError 0 2]
  /\ verify_embedding [(0, [10]); (1, [12]); (2, [14])] dg_S dg_T (fun r => match r with MissingEdgeError _ _ => true | _ => false end) = None.
Proof. by vm_compute. Qed.
