(** Property theorems about the worker threads: C19-C21. *)
From stdpp Require Import base list numbers gmap.
From Verif Require Import Base ChainModel EmbModel SpecEmb QueueModel PathModel SpecPath ConcModel SpecConc ConcProofs5 P_path.
Local Open Scope Z_scope.

(** C19: [nt] worker threads on the neighbours [l].  No execution is longer than some [n], none
    races, and every execution that cannot go on has let all threads return.  Then the count is
    exact; all accesses to the rows of an embedded neighbour were made by one thread, they are those
    of a single thread that searches for this neighbour only, with the same result; and nobody
    touched the rows of any other variable. *)
Theorem C19_one_thread_per_neighbour : forall pb em bound l u nt b tw M,
  pb_wf pb -> placed_ok pb em -> (0 < nt)%nat -> (u < nv pb + nf pb)%nat -> NoDup l ->
  (forall v, v ∈ l -> (v < nv pb + nf pb)%nat) -> buffers_ok pb b -> costs_ok pb (qw b) ->
  0 <= M -> (forall q, (q < nq pb)%nat -> wt (qw b) q <= M) -> Z.of_nat (nq pb) * M <= max_distance ->
  let ts := replicate nt (worker_P (S (length l)) pb em bound (perm b) l u) in
  let m0 := mkMem b tw 0 0 in
  (exists n, forall tr s, runs (start ts m0) tr s -> (length tr <= n)%nat) /\
  forall tr s, runs (start ts m0) tr s ->
    ~ race s /\
    ((forall ev s', ~ cstep ev s s') ->
      c_thr s = replicate nt Ret /\ c_lock s = None /\ m_count (c_mem s) = Z.of_nat (length (embedded_of em l)) /\
      (forall v, v ∈ embedded_of em l -> exists i alone m1, (i < nt)%nat /\
         runs (start [job_P pb em bound (perm b) u v Ret] m0) alone (mkC [Ret] m1 None) /\
         base.filter (acts_on v) tr = map (fun ev => (i, ev.2)) (base.filter (acts_on v) alone) /\
         forall c, on_row v c -> mget (c_mem s) c = mget m1 c) /\
      (forall v, v ∉ embedded_of em l -> base.filter (acts_on v) tr = [] /\ forall c, on_row v c -> mget (c_mem s) c = mget m0 c)).
Proof. exact handed_once. Qed.
Print Assumptions C19_one_thread_per_neighbour.

(** C20: (thread, first qubit, end) of the chunks of a parallel loop over [n] qubits *)
Theorem C20_chunks_partition : forall n threads, (0 < n)%nat -> (0 < threads)%nat ->
  let l := chunks n (Nat.min threads n) in
  length l = Nat.min threads n /\
  (forall i, (i < Nat.min threads n)%nat -> exists a b, (i, a, b) ∈ l) /\
  (forall i a b, (i, a, b) ∈ l -> (i < Nat.min threads n)%nat /\ (a < b <= n)%nat) /\
  (forall q, (q < n)%nat -> exists i a b, (i, a, b) ∈ l /\ (a <= q < b)%nat /\
     forall i' a' b', (i', a', b') ∈ l -> (a' <= q < b')%nat -> i' = i /\ a' = a /\ b' = b).
Proof. exact chunks_partition. Qed.
Print Assumptions C20_chunks_partition.

(** C21: for every number of threads and every schedule of each parallel section, the buffers end
    as in the serial preparation *)
Theorem C21_every_schedule_equals_serial : forall e em bound l u nt b tw nx ct,
  pb_wf (pb e) -> placed_ok (pb e) em -> table_ok e ->
  (0 < nt <= nq (pb e))%nat -> length tw = nt -> (u < nv (pb e) + nf (pb e))%nat -> NoDup l ->
  (forall v, v ∈ l -> (v < nv (pb e) + nf (pb e))%nat) -> buffers_ok (pb e) b ->
  embedded_of em l <> [] -> sums_fit e em l ->
  exists b', prepare_serial e l bound em u b = Ok b' /\ threaded e nt l bound em u (mkMem b tw nx ct) b'.
Proof. exact threaded_serial. Qed.
Print Assumptions C21_every_schedule_equals_serial.
(** with or without an embedded neighbour, the schedules agree with each other *)
Theorem C21_every_schedule_agrees : forall e em bound l u nt b tw nx ct b',
  placed_ok (pb e) em -> (0 < nt <= nq (pb e))%nat -> length tw = nt -> NoDup l ->
  (forall v, v ∈ l -> (v < nv (pb e) + nf (pb e))%nat) -> buffers_ok (pb e) b ->
  prepare_parallel e l bound em u b = Ok b' -> threaded e nt l bound em u (mkMem b tw nx ct) b'.
Proof. exact threaded_all. Qed.
Print Assumptions C21_every_schedule_agrees.
Theorem C21_result_is_unique : forall e nt l bound em u m0 b1 b2,
  threaded e nt l bound em u m0 b1 -> threaded e nt l bound em u m0 b2 -> b1 = b2.
Proof. exact threaded_unique. Qed.
Print Assumptions C21_result_is_unique.

(** ** the hypotheses can be met: two threads, a free and a fixed neighbour *)
Definition pc_b : search := let b := sr pa_s in mkSr (par b) (vis b) (dist b) (total b) [1;1;2;2] (perm b).
Example pc_threads : buffers_ok pa_pb pc_b /\ costs_ok pa_pb (qw pc_b) /\ (forall q, (q < nq pa_pb)%nat -> wt (qw pc_b) q <= 2) /\
  Z.of_nat (nq pa_pb) * 2 <= max_distance /\ embedded_of pa_em [1;2]%nat = [1;2]%nat.
Proof.
  split; [|split; [apply pa_search|split; [|split; [unfold max_distance; simpl; lia|by vm_compute]]]].
  - destruct pa_buffers. by split.
  - intros q Hq. simpl in Hq. do 4 (destruct q as [|q]; [by vm_compute|]). lia.
Qed.
(** an execution in which thread 1 gets the first job and thread 0 returns *)
Example pc_run : exists tr s, runs (start (replicate 2 (worker_P 3 pa_pb pa_em 3 (perm pc_b) [1;2]%nat 0)) (mkMem pc_b [] 0 0)) tr s /\
  length tr = 2%nat /\ c_lock s = Some 1%nat.
Proof.
  eexists _, _. split.
  { eapply runs_snoc; [eapply runs_snoc; [apply runs_nil|eapply (cs_lock _ _ 1%nat); reflexivity]|]. eapply (cs_get _ _ _ 1%nat); reflexivity. }
  split; reflexivity.
Qed.
Example pc_sums : sums_fit pa_env pa_em [1;2]%nat.
Proof.
  exists 64. split; [lia|]. split; [|simpl; unfold max_distance; lia].
  intros w (m & Hm & _ & Hw) q Hq. rewrite (Hw q Hq). cbv zeta.
  assert (0 <= wt (eweight pa_em) q < 2) by (simpl in Hq; do 4 (destruct q as [|q]; [apply (bool_decide_unpack _); by vm_compute|]); lia).
  rewrite decide_True by lia. cbn [wtab pa_env]. lia.
Qed.
Example pc_serial : exists b', prepare_serial pa_env [1;2]%nat 3 pa_em 0 (sr pa_s) = Ok b' /\
  threaded pa_env 2 [1;2]%nat 3 pa_em 0 (mkMem (sr pa_s) [0;0] 0 0) b'.
Proof.
  apply C21_every_schedule_equals_serial; [exact pa_wf|exact pa_placed|apply pa_root|simpl; lia|done|simpl; lia|by apply (bool_decide_unpack _)| |exact pa_buffers|by vm_compute|exact pc_sums].
  intros v Hv. rewrite !elem_of_cons, elem_of_nil in Hv. simpl. lia.
Qed.
(** five qubits, three threads: chunks of 2, 2 and 1 *)
Example pc_chunks : chunks 5 (Nat.min 3 5) = [(2, 0, 2); (1, 2, 4); (0, 4, 5)]%nat.
Proof. done. Qed.
