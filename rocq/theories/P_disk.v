(** C48, C55: the file cache under crashes and concurrent calls.  Model: DiskModel.v (busclique.pyx
    433-509, 1331-1349); vocabulary: SpecDisk.v; proofs: DiskProofs.v, DiskProofs2.v. *)
Require Import Lia.
From stdpp Require Import base list list_numbers numbers gmap option.
From Verif Require Import DiskModel SpecDisk DiskProofs DiskProofs2.
From stdpp Require Import list.

(** * C48.  Whatever the interleaving, as long as no process dies in the middle of a dump: every load
    of a cache file or of the LRU file succeeds and gives exactly what one dump put into that very
    file, and when nobody holds the lock every file holds the complete contents of one dump.
    Missing: processes that die in the middle of a dump; see the refutations. *)
Theorem C48_complete_partial cap l s :
  run_clean cap ds_init l -> run cap ds_init l = Some s ->
  (forall n r, (n, r) ∈ ds_loads s -> exists d, r = Some d /\ (n, d) ∈ ds_dumps s)
  /\ (ds_lock s = None -> forall n b, holds s n b -> whole s n b).
Proof.
  intros Hc E. destruct (run_inv cap l _ _ LInv_init FInv_init Hc E) as [HL HF]. split; [apply (f_loads _ HF)|].
  intros Hn n b (i & Hi & Hb). destruct (f_dir _ HF _ _ _ Hi) as [_ [(d & Hd & Hin)|(p & c & f & rest & Hp)]].
  - exists d. rewrite Hb in Hd. by injection Hd as ->.
  - assert (Hl : ds_lock s = Some p) by (apply HL; eauto). congruence.
Qed.
Print Assumptions C48_complete_partial.

(** what is loaded is not something else: only complete contents can be loaded *)
Theorem C48_prefix_fails d b : b `prefix_of` pickle d -> b <> pickle d -> unpickle b = None.
Proof. exact (unpickle_prefix d b). Qed.
Print Assumptions C48_prefix_fails.

(** * C48, refuted as stated.  The rename happens after the lock is released: the temporary file
    may meanwhile have been truncated by the next holder. *)
Definition call_a : list action :=   (* process 0 up to the rename *)
  [Call 0 7; Acquire 0; Go 0; Miss 0 [1; 2]; Put 0 9; Go 0; Go 0; Go 0; Put 0 9; Go 0; Go 0].
Definition call_b : list action :=   (* process 1 opens the same temporary file and writes one byte *)
  [Call 1 7; Acquire 1; Go 1; Miss 1 [3; 4; 5]; Put 1 0].
Definition torn : list action := call_a ++ call_b ++ [Go 0; Crash 1; Go 0; Go 0].

(** deciding the claims about one execution *)
Definition at_rest_b (s : dstate) : bool := forallb (fun x => finished x.2) (map_to_list (ds_procs s)).
Lemma at_rest_sound s : at_rest_b s = true -> at_rest s.
Proof.
  intros H p q Hp. unfold at_rest_b in H. rewrite forallb_forall in H.
  apply (H (p, q)). apply elem_of_list_In. by apply elem_of_map_to_list.
Qed.
Definition holds_b (s : dstate) (n : nat) (b : list nat) : bool :=
  match ds_dir s !! (n, false) with Some i => bool_decide (ds_data s !! i = Some b) | None => false end.
Lemma holds_sound s n b : holds_b s n b = true -> holds s n b.
Proof.
  unfold holds_b. destruct (ds_dir s !! (n, false)) as [i|] eqn:E; [|done]. intros H%bool_decide_eq_true.
  by exists i.
Qed.
Definition raised_b (s : dstate) (p : nat) : bool :=
  match ds_procs s !! p with Some Raised => true | _ => false end.
Lemma raised_sound s p : raised_b s p = true -> ds_procs s !! p = Some Raised.
Proof. unfold raised_b. by destruct (ds_procs s !! p) as [[]|]. Qed.
Definition no_crash_b (l : list action) : bool := forallb (fun a => match a with Crash _ => false | _ => true end) l.
Lemma no_crash_sound l : no_crash_b l = true -> no_crash l.
Proof. intros H p Hp%elem_of_list_In. unfold no_crash_b in H. rewrite forallb_forall in H. by apply H in Hp. Qed.
Definition test (r : option dstate) (f : dstate -> bool) : bool := match r with Some s => f s | None => false end.
Lemma test_sound r f : test r f = true -> exists s, r = Some s /\ f s = true.
Proof. destruct r as [s|]; [|done]. by exists s. Qed.

(** after one crash, with nobody left running, the cache file is torn, and the next call raises *)
Theorem C48_torn_refuted : exists l s n b,
  run 100 ds_init l = Some s /\ at_rest s /\ ds_lock s = None /\ holds s n b
  /\ (forall d, b <> pickle d)
  /\ exists l' s', run 100 s l' = Some s' /\ (n, None) ∈ ds_loads s' /\ ds_procs s' !! 2 = Some Raised.
Proof.
  assert (E : test (run 100 ds_init torn) (fun s => at_rest_b s && bool_decide (ds_lock s = None) && holds_b s 8 [4]
    && test (run 100 s [Call 2 7; Acquire 2; Go 2; Go 2; Go 2])
         (fun s' => raised_b s' 2 && bool_decide (ds_loads s' = [(8, None)]))) = true) by (vm_compute; reflexivity).
  apply test_sound in E as (s & E & H). apply andb_true_iff in H as [H H4]. apply andb_true_iff in H as [H H3].
  apply andb_true_iff in H as [H1 H2]. apply test_sound in H4 as (s' & E' & H4). apply andb_true_iff in H4 as [H4 H5].
  exists torn, s, 8, [4]. split; [done|]. split; [by apply at_rest_sound|].
  split; [by apply bool_decide_eq_true in H2|]. split; [by apply holds_sound|]. split.
  - intros d Hd. destruct d as [|x [|y d]]; done.
  - exists [Call 2 7; Acquire 2; Go 2; Go 2; Go 2], s'. split; [done|]. split; [|by apply raised_sound].
    apply bool_decide_eq_true in H5. rewrite H5. left.
Qed.
Print Assumptions C48_torn_refuted.

(** without any crash the file under its final name is torn for a while *)
Theorem C48_transient_refuted : exists l s n b,
  no_crash l /\ run 100 ds_init l = Some s /\ holds s n b /\ (forall d, b <> pickle d).
Proof.
  assert (E : test (run 100 ds_init (call_a ++ call_b ++ [Go 0])) (fun s => holds_b s 8 [4]) = true) by (vm_compute; reflexivity).
  apply test_sound in E as (s & E & H). exists (call_a ++ call_b ++ [Go 0]), s, 8, [4].
  split; [by apply no_crash_sound|]. split; [done|]. split; [by apply holds_sound|].
  intros d Hd. destruct d as [|x [|y d]]; done.
Qed.
Print Assumptions C48_transient_refuted.

(** * C55.  Calls one after the other, without crashes: no call raises, and between calls there are
    at most [cap] cache files, no temporary files, and the LRU file lists exactly the cache files.
    Missing: overlapping calls and crashes; see the refutations. *)
Theorem C55_sequential_partial cap l s :
  1 <= cap -> one_at_a_time cap ds_init l -> run cap ds_init l = Some s ->
  (forall p, ds_procs s !! p <> Some Raised)
  /\ (at_rest s -> exists lru, NoDup lru /\ length lru <= cap
        /\ (forall c, is_Some (ds_dir s !! (S c, false)) <-> c ∈ lru)
        /\ (forall n, ds_dir s !! (n, true) = None)
        /\ (lru <> [] -> holds s 0 (pickle lru))).
Proof.
  intros Hcap Hs E. destruct (seq_inv cap Hcap l _ _ LInv_init FInv_init (SInv_init cap Hcap) Hs E) as (_ & H2 & H3).
  split; [apply H2|]. intros Hr. destruct (H3 Hr) as (L & (Hnd & Hlen) & Hl & Hf & Ht). exists L. split_and!; try done.
  - intros n. destruct (ds_dir s !! (n, true)) eqn:En; [|done]. exfalso. eapply not_elem_of_nil. apply Ht. by rewrite En.
  - intros Hne. unfold lruis in Hl. destruct (ds_dir s !! (0, false)) as [i|] eqn:Ei; [|done]. by exists i.
Qed.
Print Assumptions C55_sequential_partial.

(** runs thread [p] by itself to its end, dumping [d] when it does not find a file *)
Fixpoint alone (fuel : nat) (cap : nat) (s : dstate) (p : nat) (d : list nat) : list action * dstate :=
  match fuel with
  | 0 => ([], s)
  | S fuel =>
      let try a k := match act cap s a with
                     | Some s' => let '(l, s'') := alone fuel cap s' p d in (a :: l, s'')
                     | None => k end in
      try (Go p) (try (Acquire p) (try (Hit p) (try (Miss p d) (try (Put p 1000) ([], s)))))
  end.
Definition one_call (cap : nat) (s : dstate) (p c : nat) : list action * dstate :=
  match act cap s (Call p c) with
  | Some s => let '(l, s) := alone 1000 cap s p [c; c] in (Call p c :: l, s)
  | None => ([], s)
  end.
Fixpoint calls (cap : nat) (s : dstate) (pcs : list (nat * nat)) : list action * dstate :=
  match pcs with
  | [] => ([], s)
  | (p, c) :: pcs => let '(l, s) := one_call cap s p c in let '(l', s') := calls cap s pcs in (l ++ l', s')
  end.

(** two overlapping calls, no crash: the second finds its temporary file gone when it renames it *)
Theorem C55_overlap_refuted : exists l s,
  no_crash l /\ run 100 ds_init l = Some s /\ ds_procs s !! 1 = Some Raised.
Proof.
  set (l := call_a ++ call_b ++ [Go 0; Go 0; Go 0; Put 1 9; Go 1; Go 1; Go 1; Go 1; Go 1; Go 1; Put 1 9; Go 1; Go 1; Go 1]).
  assert (E : test (run 100 ds_init l) (fun s => raised_b s 1) = true) by (vm_compute; reflexivity).
  apply test_sound in E as (s & E & H). exists l, s. split; [by apply no_crash_sound|]. split; [done|]. by apply raised_sound.
Qed.
Print Assumptions C55_overlap_refuted.

(** a crash after a file has been evicted and before the new LRU list is in place: from then on
    the calls for further graphs raise, one after the other *)
Lemma run_app cap s l1 l2 s1 : run cap s l1 = Some s1 -> run cap s (l1 ++ l2) = run cap s1 l2.
Proof.
  revert s. induction l1 as [|a l1 IH]; intros s E; cbn in *; [by injection E as ->|].
  destruct (act cap s a) as [s'|]; [|done]. by apply IH.
Qed.
Lemma alone_run fuel cap s p d : run cap s (alone fuel cap s p d).1 = Some (alone fuel cap s p d).2.
Proof.
  revert s. induction fuel as [|fuel IH]; intros s; [done|]. cbn [alone].
  assert (Hk : forall a (k : list action * dstate), run cap s k.1 = Some k.2 ->
    run cap s (match act cap s a with Some s' => let '(l, s'') := alone fuel cap s' p d in (a :: l, s'') | None => k end).1
    = Some (match act cap s a with Some s' => let '(l, s'') := alone fuel cap s' p d in (a :: l, s'') | None => k end).2).
  { intros a k Hk. destruct (act cap s a) as [s'|] eqn:Ea; [|done]. specialize (IH s').
    destruct (alone fuel cap s' p d) as [l s'']. cbn [fst snd run] in *. by rewrite Ea. }
  by repeat apply Hk.
Qed.
Lemma calls_run cap s pcs : run cap s (calls cap s pcs).1 = Some (calls cap s pcs).2.
Proof.
  revert s. induction pcs as [|[p c] pcs IH]; intros s; [done|]. cbn [calls].
  assert (H1 : run cap s (one_call cap s p c).1 = Some (one_call cap s p c).2).
  { unfold one_call. destruct (act cap s (Call p c)) as [s1|] eqn:E; [|done].
    pose proof (alone_run 1000 cap s1 p [c; c]) as HA. destruct (alone 1000 cap s1 p [c; c]) as [l s2].
    cbn [fst snd run] in *. by rewrite E. }
  destruct (one_call cap s p c) as [l s1]. cbn [fst snd] in *. specialize (IH s1).
  destruct (calls cap s1 pcs) as [l' s2]. cbn [fst snd] in *. by rewrite (run_app _ _ _ _ _ H1).
Qed.

Definition full : list (nat * nat) := (fun i => (i, i)) <$> seq 0 100.
Definition dies : list action :=
  [Call 100 100; Acquire 100; Go 100; Miss 100 [1]; Put 100 9; Go 100] ++ replicate 104 (Go 100) ++ [Crash 100].
Definition later : list (nat * nat) := [(101, 101); (102, 102); (103, 101); (104, 100)].
Theorem C55_crash_refuted : exists l1 l2 s1 s2,
  run 100 ds_init l1 = Some s1 /\ at_rest s1 /\ no_crash l2 /\ run 100 s1 l2 = Some s2
  /\ ds_procs s2 !! 101 = Some Raised /\ ds_procs s2 !! 102 = Some Raised
  /\ ds_procs s2 !! 103 = Some Raised /\ ds_procs s2 !! 104 = Some Raised.
Proof.
  assert (E : test (run 100 (calls 100 ds_init full).2 dies) (fun s => at_rest_b s
    && let '(l, s') := calls 100 s later in no_crash_b l &&
         (raised_b s' 101 && raised_b s' 102 && raised_b s' 103 && raised_b s' 104)) = true)
    by (vm_compute; reflexivity).
  pose proof (calls_run 100 ds_init full) as E0. destruct (calls 100 ds_init full) as [l0 s0]. cbn [fst snd] in *.
  apply test_sound in E as (s & E & H). apply andb_true_iff in H as [H1 H].
  pose proof (calls_run 100 s later) as E'. destruct (calls 100 s later) as [l' s']. cbn [fst snd] in *.
  apply andb_true_iff in H as [H2 H]. apply andb_true_iff in H as [H H6]. apply andb_true_iff in H as [H H5].
  apply andb_true_iff in H as [H3 H4].
  exists (l0 ++ dies), l', s, s'. split; [by rewrite (run_app _ _ _ _ _ E0)|].
  split; [by apply at_rest_sound|]. split; [by apply no_crash_sound|].
  split; [exact E'|]. split; [by apply raised_sound|]. split; [by apply raised_sound|]. split; by apply raised_sound.
Qed.
Print Assumptions C55_crash_refuted.

(** * The hypotheses are met: three calls in a row for two graphs with room for one file; and two
    overlapping calls, the first of which dies between its two dumps *)
Fixpoint one_b (cap : nat) (s : dstate) (l : list action) : bool :=
  match l with
  | [] => true
  | a :: l => match a with Crash _ => false | _ => true end
      && forallb (fun x => bool_decide (x.1 = actor a) || finished x.2) (map_to_list (ds_procs s))
      && match act cap s a with Some s' => one_b cap s' l | None => true end
  end.
Lemma one_sound cap s l : one_b cap s l = true -> one_at_a_time cap s l.
Proof.
  revert s. induction l as [|a l IH]; intros s H; [done|]. cbn in H |- *.
  apply andb_true_iff in H as [H H3]. apply andb_true_iff in H as [H1 H2]. split; [|split].
  - intros p ->. done.
  - intros p q Hp Hne. rewrite forallb_forall in H2.
    assert (Hin : (p, q) ∈ map_to_list (ds_procs s)) by by apply elem_of_map_to_list.
    apply elem_of_list_In, H2 in Hin. cbn in Hin. apply orb_true_iff in Hin as [Hin|Hin]; [|done].
    by apply bool_decide_eq_true in Hin.
  - destruct (act cap s a); [|done]. by apply IH.
Qed.
Example C55_ex : exists l s, one_at_a_time 1 ds_init l /\ run 1 ds_init l = Some s /\ at_rest s
  /\ holds s 0 (pickle [7]) /\ ds_dir s !! (9, false) = None /\ length l = 50.
Proof.
  exists (calls 1 ds_init [(0, 7); (1, 8); (2, 7)]).1, (calls 1 ds_init [(0, 7); (1, 8); (2, 7)]).2.
  split; [apply one_sound; vm_compute; reflexivity|]. split; [apply calls_run|].
  split; [apply at_rest_sound; vm_compute; reflexivity|]. split; [apply holds_sound; vm_compute; reflexivity|].
  split; vm_compute; reflexivity.
Qed.

Fixpoint clean_b (cap : nat) (s : dstate) (l : list action) : bool :=
  match l with
  | [] => true
  | a :: l => match a with
      | Crash p => match ds_procs s !! p with Some (Write _ _ _ _ _) => false | _ => true end
      | _ => true end
      && match act cap s a with Some s' => clean_b cap s' l | None => true end
  end.
Lemma clean_sound cap s l : clean_b cap s l = true -> run_clean cap s l.
Proof.
  revert s. induction l as [|a l IH]; intros s H; [done|]. cbn in H |- *.
  apply andb_true_iff in H as [H1 H2]. split.
  - destruct a; try done. cbn. by destruct (ds_procs s !! p) as [[]|].
  - destruct (act cap s a); [|done]. by apply IH.
Qed.
Example C48_ex : exists l s, run_clean 100 ds_init l /\ run 100 ds_init l = Some s
  /\ (8, Some [3; 4; 5]) ∈ ds_loads s /\ ds_procs s !! 0 = Some Crashed.
Proof.
  set (l := [Call 0 7; Acquire 0; Call 1 7; Go 0; Miss 0 [1; 2]; Put 0 9; Go 0; Crash 0;
     Acquire 1; Go 1; Miss 1 [3; 4; 5]; Put 1 0; Put 1 9; Go 1; Go 1; Go 1; Put 1 9; Go 1; Go 1; Go 1;
     Call 2 7; Acquire 2; Go 2; Go 2; Go 2; Go 1; Go 1; Go 2; Go 2; Go 2]).
  assert (E : test (run 100 ds_init l) (fun s => bool_decide ((8, Some [3; 4; 5]) ∈ ds_loads s)
    && match ds_procs s !! 0 with Some Crashed => true | _ => false end) = true) by (vm_compute; reflexivity).
  apply test_sound in E as (s & E & H). apply andb_true_iff in H as [H1 H2].
  exists l, s. split; [apply clean_sound; vm_compute; reflexivity|]. split; [done|].
  split; [by apply bool_decide_eq_true in H1|]. by destruct (ds_procs s !! 0) as [[]|].
Qed.
