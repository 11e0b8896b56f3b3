(** Property theorems about histories of embedding operations: C07, C08, C09, C10, C22. *)
From stdpp Require Import base list numbers gmap.
From Verif Require Import Base Spec ChainModel EmbModel SpecEmb EmbOps EmbProofs8.

(** C07: the usage count of each qubit is the number of chains containing it, after any
    sequence of operations. *)
Theorem C07_usage_counts_exact : forall pb E e q,
  pb_wf pb -> reach pb E e -> q < nq pb + nr pb ->
  eweight e !! q = Some (Z.of_nat (users e q)).
Proof. exact usage_exact. Qed.
Print Assumptions C07_usage_counts_exact.

(** C08: the diagnostic reports no error, and its meaning spelled out. *)
Theorem C08_reference_counts_consistent : forall pb E e v c,
  pb_wf pb -> reach pb E e -> chains e !! v = Some c ->
  run_diagnostic c = 0%Z /\
  forall q p r, cdata c !! q = Some (p, r) ->
    is_Some (cdata c !! p) /\
    r = (Z.of_nat (size (filter (fun x : nat * (nat * Z) => x.2.1 = q) (cdata c))) +
         Z.of_nat (size (filter (fun x : nat * nat => x.2 = q) (clinks c))))%Z.
Proof. exact refcounts_exact. Qed.
Print Assumptions C08_reference_counts_consistent.

(** C09: freezing [u] out leaves it empty and unlinked and everything else alone; thawing,
    even after failed construction attempts, restores all chains and usage counts. *)
Theorem C09_freeze_thaw_round_trip : forall pb E e u,
  pb_wf pb -> reach pb E e -> u < nv pb ->
  exists e1, freeze_out e u = Ok (chain_size e u, e1) /\ no_chain e1 u /\
    (forall v q, v <> u -> (in_chain e1 v q <-> in_chain e v q)) /\
    (forall v w, v <> u -> w <> u -> (has_link e1 v w <-> has_link e v w)) /\
    forall e2, retried pb E u e1 e2 ->
      exists e3, thaw_back e2 u = Ok e3 /\ chains e3 = chains e /\ eweight e3 = eweight e.
Proof. exact freeze_thaw. Qed.
Print Assumptions C09_freeze_thaw_round_trip.

(** C10: one steal between linked variables. *)
Theorem C10_steal_moves_qubits_safely : forall pb E e u v limit,
  pb_wf pb -> reach pb E e -> u < nv pb -> v < nv pb -> u <> v -> has_link e u v ->
  exists e', on_two e u v (fun cu cv w => steal (accepts pb u) limit u v cu cv w) = Ok e' /\
    (forall a, a <> u -> a <> v -> chains e' !! a = chains e !! a) /\
    (forall q, in_chain e' v q -> in_chain e v q) /\ (exists q, in_chain e' v q) /\
    (forall q, in_chain e' u q -> in_chain e u q \/ (in_chain e v q /\ accepts pb u q = Ok true)) /\
    (limit <> 0 -> chain_size e' u <= Nat.max (chain_size e u) limit) /\
    (forall q, users e' q <= users e q) /\
    (forall a b, has_link e' a b <-> has_link e a b) /\
    (exists cu cv p q, chains e' !! u = Some cu /\ chains e' !! v = Some cv /\
       clinks cu !! v = Some p /\ clinks cv !! u = Some q /\ in_chain e' u p /\ in_chain e' v q /\
       (p = q \/ adjq pb p q)) /\
    (has_link e u u -> connected_in (adjq pb) (in_chain e' u)) /\
    (has_link e v v -> connected_in (adjq pb) (in_chain e' v)).
Proof. exact steal_props. Qed.
Print Assumptions C10_steal_moves_qubits_safely.

(** C22: [statistics] is 1 iff no free qubit is used twice, and returns the histogram of
    chain lengths, or (without its entries for 0 and 1) of qubit fill. *)
Theorem C22_statistics_exact : forall pb E e,
  pb_wf pb -> reach pb E e ->
  exists b h, statistics pb e = Ok (b, h) /\ h <> [] /\
    (b = true <-> forall q, q < nq pb -> users e q <= 1) /\
    (b = true -> histogram (chain_size e) (seq 0 (nv pb)) h) /\
    (b = false -> histogram (users e) (seq 0 (nq pb))
        (Z.of_nat (length (List.filter (fun q => Nat.eqb (users e q) 0) (seq 0 (nq pb)))) ::
         Z.of_nat (length (List.filter (fun q => Nat.eqb (users e q) 1) (seq 0 (nq pb)))) :: h)).
Proof. exact statistics_props. Qed.
Print Assumptions C22_statistics_exact.

(** Non-vacuity: a path of four qubits, two adjacent variables with chains {0,1} and {3,2,1}
    sharing a qubit, then a steal. *)
Definition ex_pb : problem := mkProblem 2 0 4 0 [[1]; [0;2]; [1;3]; [2]] None.
Definition ex_vn : list (list nat) := [[1]; [0]].
Definition ex_E (u v : nat) : Prop := (u = 0 /\ v = 1) \/ (u = 1 /\ v = 0).
Definition ex_init : list (nat * list nat) := [(0, [0;1]); (1, [3;2;1])].

Lemma ex_nbq x y : nbq ex_pb x y -> (x, y) ∈ [(0,1);(1,0);(1,2);(2,1);(2,3);(3,2)].
Proof.
  intros (l & H & Y). simpl in H.
  do 4 (destruct x as [|x]; [injection H as <-; set_solver|]). done.
Qed.
Example ex_pb_wf : pb_wf ex_pb.
Proof.
  split.
  - done.
  - intros x y H. apply ex_nbq in H. simpl. set_unfold. naive_solver lia.
  - intros x y H. apply ex_nbq in H. set_unfold. naive_solver lia.
  - intros x y _ H. apply ex_nbq in H. unfold nbq. set_unfold.
    destruct H as [H|[H|[H|[H|[H|[H|[]]]]]]]; injection H as -> ->; simpl; eexists; (split; [done|set_solver]).
  - done.
Qed.
Example ex_vn_ok : vn_ok ex_pb ex_E ex_vn.
Proof.
  assert (H : forall u v, nbr ex_vn u v <-> ex_E u v).
  { intros u v. split.
    - intros (l & H & Y). unfold ex_E.
      do 2 (destruct u as [|u]; [injection H as <-; set_solver|]). done.
    - intros [[-> ->]|[-> ->]]; eexists; (split; [done|set_solver]). }
  split; [|done]. split; [done|..].
  - intros u v X. apply H in X. unfold ex_E in X. simpl. lia.
  - intros u v X. apply H in X. unfold ex_E in X. simpl. lia.
  - intros u v X. apply H in X. unfold ex_E in X. lia.
  - intros u v X _. apply H. apply H in X. unfold ex_E in *. lia.
  - intros u l X. do 2 (destruct u as [|u]; [injection X as <-; apply NoDup_singleton|]). done.
Qed.
Example ex_chain_input : chain_input ex_pb [] ex_init.
Proof.
  split; try done.
  - apply NoDup_nil_2.
  - by apply (bool_decide_unpack _).
  - intros v C H. by apply elem_of_nil in H.
  - simpl. intros v H. lia.
  - intros v C H. unfold ex_init in H. set_unfold. destruct H as [H|[H|[]]]; injection H as -> ->; simpl;
      (split; [lia|split; [done|split; [intros q Hq; set_unfold; lia|by apply (bool_decide_unpack _)]]]).
Qed.
Definition ex_e0 : emb := match emb_init ex_pb ex_vn [] ex_init with Ok e => e | Err _ => emb_new ex_pb end.
Definition ex_e1 : emb := match steal_all ex_pb ex_vn ex_e0 0 with Ok e => e | Err _ => emb_new ex_pb end.
Example ex_reach : reach ex_pb ex_E ex_e1 /\
  users ex_e0 1 = 2 /\ users ex_e1 1 = 1 /\ chain_size ex_e1 0 = 3 /\ has_link ex_e1 0 1 /\ has_link ex_e1 0 0.
Proof.
  split.
  - eapply (r_steal_all ex_pb ex_E ex_vn 0 ex_e0); [|apply ex_vn_ok|simpl; lia|vm_compute; reflexivity].
    eapply (r_init ex_pb ex_E ex_vn [] ex_init); [apply ex_vn_ok|apply ex_chain_input|vm_compute; reflexivity].
  - split; [by vm_compute|]. split; [by vm_compute|]. split; [by vm_compute|].
    split; eexists; (split; [vm_compute; reflexivity|vm_compute; eauto]).
Qed.
