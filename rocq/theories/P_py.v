(** C47, C31, C56: the Python function [find_embedding] in terms of the caller's labels. *)
Require Import Lia.
From stdpp Require Import base list numbers sorting relations.
From Verif Require Import Base GraphModel SpecGraph Spec SpecEmb PyModel SpecPy ParamModel PathModel QueueModel SpecTop PyProofs1 PyProofs2 PyProofs3 P_run.
From stdpp Require Import list.
From Verif Require Import GraphModel.

(** C47, indices: reading a graph numbers its labels in the order in which they are first seen;
    the edges between the indices are the caller's edges, and a label without edges gets a
    self-loop *)
Theorem C47_labels : forall {A : Type} `{!EqDecision A} (G : pygraph A) L g, read_graph G = (L, g) ->
  first_seen (stream G) L /\ gn g = length L
  /\ forall x y, (x, y) ∈ ge g <->
       (exists a b, (a, b) ∈ pg_edges G /\ L !! x = Some a /\ L !! y = Some b)
       \/ (x = y /\ exists a, L !! x = Some a /\ a ∉ endpoints G).
Proof. intros A H. exact (@read_graph_spec A H). Qed.
Print Assumptions C47_labels.

(** C47, results: when the function reports success, the dict it returns is a minor embedding in
    the caller's labels that keeps the fixed chains; no label of a pin occurs in it *)
Theorem C47_success : forall {A : Type} `{!EqDecision A} (pin : A -> nat -> A) S T p o r d,
  good_maps (py_fixed p) (py_initial p) -> py_restrict p = [] -> py_fits S T p o ->
  py_find_embedding pin S T p o = Ok r -> reports r d ->
  label_embedding_fixed S T (py_fixed p) d.
Proof. intros A H pin S T p o r d H1 H2 H3 H4 H5. exact (proj1 (py_success pin S T p o r d H1 H2 H3 H4 H5)). Qed.
Print Assumptions C47_success.
Theorem C47_success_free : forall {A : Type} `{!EqDecision A} (pin : A -> nat -> A) S T p o r d,
  good_maps (py_fixed p) (py_initial p) -> py_restrict p = [] -> py_fits S T p o ->
  (forall v, ~ given (py_fixed p) v) ->
  py_find_embedding pin S T p o = Ok r -> reports r d -> label_embedding S T d.
Proof.
  intros A H pin S T p o r d H1 H2 H3 HN H4 H5. pose proof (C47_success pin S T p o r d H1 H2 H3 H4 H5) as HL.
  split; try apply HL.
  - intros v Hv. apply (lf_connected _ _ _ _ HL); [done|apply HN].
  - intros u v Huv Hne. apply (lf_edges _ _ _ _ HL); [done|done|]. intros [Hu _]. by apply HN in Hu.
Qed.
Print Assumptions C47_success_free.
(** a call either returns or raises: no undefined behaviour, no endless loop *)
Theorem C47_safe : forall {A : Type} `{!EqDecision A} (pin : A -> nat -> A) S T p o e,
  good_maps (py_fixed p) (py_initial p) -> py_restrict p = [] -> py_fits S T p o ->
  py_find_embedding pin S T p o = Err e -> e <> UB /\ e <> OOF.
Proof. intros A H. exact (@py_safe A H). Qed.
Print Assumptions C47_safe.

(** C31: the chain of a suspended variable without fixed chain contains a qubit of each of its
    nonempty blobs *)
Theorem C31_suspend_partial : forall {A : Type} `{!EqDecision A} (pin : A -> nat -> A) S T p o r d,
  good_maps (py_fixed p) (py_initial p) -> py_restrict p = [] -> py_fits S T p o ->
  py_find_embedding pin S T p o = Ok r -> reports r d ->
  forall v, occurs S v -> ~ given (py_fixed p) v -> hits (py_suspend p) d v.
Proof. intros A H pin S T p o r d H1 H2 H3 H4 H5. exact (proj2 (py_success pin S T p o r d H1 H2 H3 H4 H5)). Qed.
Print Assumptions C31_suspend_partial.

(** ** Runs: a triangle and an isolated variable in a target with seven qubits *)
Definition py_pin (v i : nat) : nat := 100 + 10 * v + i.
Definition py_S : pygraph nat := mkPG [(7, 9); (9, 5); (7, 5)] (Some [5; 6; 7]).
Definition py_T : pygraph nat := mkPG [(20, 11); (11, 31); (31, 42); (42, 50); (50, 20); (42, 60); (11, 42)] (Some [77]).
Definition py_o : oracle := mkOracle (fun n => n * 7 + n / 3) (fun _ => SGo) (fun _ _ c => (c + 1)%Z) run_sort 0.
Definition py_p (F : list (nat * list nat)) (X : list (nat * list (list nat))) : pyparams nat :=
  mkPP (mkParams 10 10 0 true 10 100 true 0 1 false [] [] []) F [] [] X.

Lemma py_fits_ex F X : length (concat (snd <$> X)) <= 3 -> py_fits py_S py_T (py_p F X) py_o.
Proof.
  intros HX VS VT HS HT n m Hn Hm. apply first_seen_length in HS, HT.
  unfold blobs_of in *. cbn [py_suspend py_p] in *. cbn in HS, HT. split; [lia|]. split; [apply run_sort_ok|].
  split; [intros w k c Hc; cbn; unfold EmbModel.max_distance; lia|]. cbn. lia.
Qed.
Lemma py_maps F : F ∈ [[]; [(7, [20])]] -> good_maps F [].
Proof.
  intros HF. assert (H : forall v C, (v, C) ∈ F -> v = 7 /\ C = [20]).
  { intros v C HC. rewrite !elem_of_cons, elem_of_nil in HF. destruct HF as [->|[->|[]]]; [by apply elem_of_nil in HC|].
    apply elem_of_list_singleton in HC. by injection HC as -> ->. }
  split.
  - rewrite !elem_of_cons, elem_of_nil in HF. destruct HF as [->|[->|[]]]; apply (bool_decide_unpack _); done.
  - constructor.
  - intros v C. rewrite app_nil_r. intros [-> ->]%H. apply NoDup_singleton.
  - intros v C v' C' q [-> _]%H [-> _]%H. done.
  - intros v C HC. by apply elem_of_nil in HC.
Qed.

Definition py_run F X := py_find_embedding py_pin py_S py_T (py_p F X) py_o.
Definition py_ok (r : res pyresult) : list (nat * list nat) := match r with Ok (PyPair d true) => d | _ => [] end.
Lemma py_free : py_run [] [] = Ok (PyPair [(7, [42]); (9, [11]); (5, [31]); (6, [50])] true).
Proof. vm_compute. reflexivity. Qed.
Lemma py_blobs : py_run [] [(9, [[31; 42]; [50]])] = Ok (PyPair [(7, [20]); (9, [50; 42]); (5, [11]); (6, [31])] true).
Proof. vm_compute. reflexivity. Qed.
Lemma py_fixed_blobs : py_run [(7, [20])] [(7, [[31]]); (9, [[42; 50]])] = Ok (PyPair [(7, [20]); (9, [50]); (5, [11; 42]); (6, [31])] true).
Proof. vm_compute. reflexivity. Qed.

(** the hypotheses are met by these runs *)
Example C47_ex : exists d, py_run [] [] = Ok (PyPair d true) /\ label_embedding py_S py_T d /\ length d = 4.
Proof.
  eexists. split; [exact py_free|]. split; [|done].
  eapply (C47_success_free py_pin py_S py_T (py_p [] []) py_o); [apply py_maps; set_solver|done|apply py_fits_ex; cbn; lia| |exact py_free|by left].
  intros v (C & HC & _). by apply elem_of_nil in HC.
Qed.
Example C47_ex_fixed : exists d, py_run [(7, [20])] [(7, [[31]]); (9, [[42; 50]])] = Ok (PyPair d true)
  /\ label_embedding_fixed py_S py_T [(7, [20])] d.
Proof.
  eexists. split; [exact py_fixed_blobs|].
  eapply (C47_success py_pin py_S py_T (py_p [(7, [20])] [(7, [[31]]); (9, [[42; 50]])]) py_o);
    [apply py_maps; set_solver|done|apply py_fits_ex; cbn; lia|exact py_fixed_blobs|by left].
Qed.
Example C47_ex_labels : read_graph py_S = ([7; 9; 5; 6], mkGraph 4 [(0, 1); (1, 2); (0, 2); (3, 3)]).
Proof. vm_compute. reflexivity. Qed.
Example C31_ex : exists d, py_run [] [(9, [[31; 42]; [50]])] = Ok (PyPair d true) /\ hits [(9, [[31; 42]; [50]])] d 9.
Proof.
  eexists. split; [exact py_blobs|].
  apply (C31_suspend_partial py_pin py_S py_T (py_p [] [(9, [[31; 42]; [50]])]) py_o (PyPair [(7, [20]); (9, [50; 42]); (5, [11]); (6, [31])] true));
    [apply py_maps; set_solver|done|apply py_fits_ex; cbn; lia|exact py_blobs|by left| |].
  - unfold occurs. apply (bool_decide_unpack _). done.
  - intros (C & HC & _). by apply elem_of_nil in HC.
Qed.

(** C31 fails for a suspended variable that also has a fixed chain: nothing connects the chain of
    variable 7 with its blob, and success is reported *)
Theorem C31_fixed_refuted : exists S T p o d, good_maps (py_fixed p) (py_initial p) /\ py_restrict p = [] /\ py_fits S T p o
  /\ py_find_embedding py_pin S T p o = Ok (PyPair d true) /\ occurs S 7 /\ ~ hits (py_suspend p) d 7.
Proof.
  exists py_S, py_T, (py_p [(7, [20])] [(7, [[31]]); (9, [[42; 50]])]), py_o. eexists.
  split; [apply py_maps; set_solver|]. split; [done|]. split; [apply py_fits_ex; cbn; lia|].
  split; [exact py_fixed_blobs|]. split; [unfold occurs; apply (bool_decide_unpack _); done|].
  intros H. destruct (H [[31]] [31]) as (q & Hq & C & HC & Hin); [by left|by left|done|].
  apply elem_of_list_singleton in Hq as ->. rewrite !elem_of_cons, elem_of_nil in HC.
  destruct HC as [[= ->]|[[=]|[[=]|[[=]|[]]]]]. by apply elem_of_list_singleton in Hin.
Qed.
Print Assumptions C31_fixed_refuted.

(** C56: with [return_overlap] the function returns a pair, if the source graph has a label; for an
    empty source graph it returns a bare dict. Without [return_overlap] it returns a dict. *)
Theorem C56_shape_partial : forall {A : Type} `{!EqDecision A} (pin : A -> nat -> A) S T p o r,
  (exists a, occurs S a) -> py_find_embedding pin S T p o = Ok r ->
  if p_return_overlap (py_opts p) then exists d ok, r = PyPair d ok else exists d, r = PyDict d.
Proof. intros A H. exact (@py_shape A H). Qed.
Print Assumptions C56_shape_partial.
Theorem C56_empty_refuted : forall {A : Type} `{!EqDecision A} (pin : A -> nat -> A) T p o,
  p_return_overlap (py_opts p) = true -> py_find_embedding pin (mkPG [] None) T p o = Ok (PyDict []).
Proof. done. Qed.
Print Assumptions C56_empty_refuted.
Example C56_ex : (exists a, occurs py_S a) /\ p_return_overlap (py_opts (py_p [] [])) = true /\ exists r, py_run [] [] = Ok r.
Proof. split; [exists 7; left|]. split; [done|]. eexists. exact py_free. Qed.
