(** C44: identifiers of topologies. *)
Require Import Lia.
From stdpp Require Import base list list_numbers numbers.
From Verif Require Import Base BusModel SpecBus SerialModel SpecSerial SerialProofs SerialProofs2.
From stdpp Require Import list.

(** the size pass reports exactly what the write pass writes: with a buffer of the reported size
    every byte is written, none outside, and the write pass returns the same number *)
Theorem C44_size_exact : forall vs, exists b,
  serialize_write vs (replicate (serialize_size vs) None) 0 = Ok (Some <$> b, serialize_size vs)
  /\ length b = serialize_size vs /\ b = concat (bytes_of <$> vs).
Proof.
  intros vs. exists (all_bytes vs). split; [|split; [apply size_all|done]].
  exact (write_spec vs [] _ (replicate_length _ _)).
Qed.
Print Assumptions C44_size_exact.
(** computing the identifiers reads only bytes that were written *)
Theorem C44_safe : forall sp t, exists i c, identifier sp t = Ok (i, c).
Proof. intros sp t. destruct (identifier_ok sp t) as (c & H & _). eauto. Qed.
Print Assumptions C44_safe.

(** Chimera and Zephyr: topologies of one family with equal identifiers are equal, including the
    masks and the seed *)
Theorem C44_identifier_partial : forall sp t sp' t' i c c', topo_ok sp t -> topo_ok sp' t' -> same_family sp sp' ->
  (forall d o, sp <> Pegasus d o) ->
  identifier sp t = Ok (i, c) -> identifier sp' t' = Ok (i, c') -> sp = sp' /\ t = t' /\ c = c'.
Proof. exact identifier_inj. Qed.
Print Assumptions C44_identifier_partial.
(** Pegasus: everything but the seed is equal *)
Theorem C44_pegasus_partial : forall d o d' o' t t' i c c', topo_ok (Pegasus d o) t -> topo_ok (Pegasus d' o') t' ->
  identifier (Pegasus d o) t = Ok (i, c) -> identifier (Pegasus d' o') t' = Ok (i, c') ->
  d = d' /\ o = o' /\ same_but_seed t t' /\ c = c'.
Proof. exact pegasus_inj. Qed.
Print Assumptions C44_pegasus_partial.
(** and the seed may differ: Pegasus identifiers do not contain it *)
Theorem C44_pegasus_refuted : forall d o t, topo_ok (Pegasus d o) t -> exists t', topo_ok (Pegasus d o) t' /\ t_seed t <> t_seed t'
  /\ identifier (Pegasus d o) t = identifier (Pegasus d o) t'.
Proof.
  intros d o t H. exists (mkStored (t_dim_y t) (t_dim_x t) (t_shore t) (if bool_decide (t_seed t = 0)%Z then 1 else 0)%Z (t_nodemask t) (t_edgemask t) (t_badmask t)).
  split; [|split; [|symmetry; apply pegasus_no_seed]].
  - destruct H. split; try done; cbn. unfold word. case_bool_decide; lia.
  - cbn. case_bool_decide; lia.
Qed.
Print Assumptions C44_pegasus_refuted.

(** for Chimera graphs, equal identifiers mean equal dimensions, seeds and qubits, and the same
    couplers of the lattice *)
Theorem C44_chimera_graph : forall t nodes edges seed c t' nodes' edges' seed' c' i k k',
  shore t <= 8 -> good_graph (nqubits (dim_y t) (dim_x t) (shore t)) nodes edges -> topo_init t nodes edges = Ok c ->
  shore t' <= 8 -> good_graph (nqubits (dim_y t') (dim_x t') (shore t')) nodes' edges' -> topo_init t' nodes' edges' = Ok c' ->
  word (Z.of_nat (dim_y t)) -> word (Z.of_nat (dim_x t)) -> word seed ->
  word (Z.of_nat (dim_y t')) -> word (Z.of_nat (dim_x t')) -> word seed' ->
  identifier Chimera (stored_of c seed) = Ok (i, k) -> identifier Chimera (stored_of c' seed') = Ok (i, k') ->
  t = t' /\ seed = seed' /\ (forall q, q ∈ nodes <-> q ∈ nodes')
  /\ forall p q, chimera_coupler (dim_y t) (dim_x t) (shore t) p q -> has_edge edges p q <-> has_edge edges' p q.
Proof. exact chimera_graph. Qed.
Print Assumptions C44_chimera_graph.

(** ** Cases *)
Definition ser_nodes : list nat := [0; 1; 2; 3; 4; 5; 7].
Definition ser_edges : list (nat * nat) := [(0, 2); (0, 3); (1, 2); (0, 4); (5, 7); (4, 7); (1, 5)].
Definition ser_topo : BusModel.topo := BusModel.mkTopo 2 1 2.
Definition ser_same : list (nat * nat) := [(5, 1); (7, 4); (7, 5); (4, 0); (2, 1); (3, 0); (2, 0)].
Definition ser_cache (e : list (nat * nat)) : tcache :=
  match topo_init ser_topo ser_nodes e with Ok c => c | Err _ => mkTC ser_topo [] [] [] [] end.
Lemma ser_good e : e ∈ [ser_edges; ser_same] -> good_graph (nqubits 2 1 2) ser_nodes e.
Proof.
  intros He. split.
  - intros q. unfold ser_nodes, nqubits. rewrite !elem_of_cons, elem_of_nil. lia.
  - assert (Forall (fun pq => pq.1 ∈ ser_nodes /\ pq.2 ∈ ser_nodes) e) as H.
    { rewrite !elem_of_cons, elem_of_nil in He. destruct He as [->|[->|[]]]; apply (bool_decide_unpack _); vm_compute; done. }
    rewrite Forall_forall in H. intros p q Hpq. exact (H _ Hpq).
Qed.
Example C44_ex : topo_init ser_topo ser_nodes ser_edges = Ok (ser_cache ser_edges)
  /\ topo_init ser_topo ser_nodes ser_same = Ok (ser_cache ser_same)
  /\ exists i k, identifier Chimera (stored_of (ser_cache ser_edges) 77) = Ok (i, k)
  /\ identifier Chimera (stored_of (ser_cache ser_same) 77) = Ok (i, k) /\ length i = 48
  /\ topo_ok Chimera (stored_of (ser_cache ser_edges) 77).
Proof.
  assert (E : topo_init ser_topo ser_nodes ser_edges = Ok (ser_cache ser_edges)) by (vm_compute; reflexivity).
  split; [done|]. split; [vm_compute; reflexivity|]. eexists _, _. split; [vm_compute; reflexivity|].
  split; [vm_compute; reflexivity|]. split; [done|].
  apply (stored_ok ser_topo ser_nodes ser_edges); [cbn; lia|apply ser_good; by left|done| | |]; unfold word; cbn; lia.
Qed.
Example C44_ex_pegasus : topo_ok (Pegasus 1 (replicate 12 2%Z)) (mkStored 6 6 2 5 (replicate 72 15%Z) (replicate 72 7%Z) (replicate 144 0%Z)).
Proof.
  split; cbn [t_dim_y t_dim_x t_shore t_seed t_nodemask t_edgemask t_badmask]; unfold word; try lia; try done.
  - cbn. split_and!; try done. repeat constructor; lia.
  - rewrite !Forall_app. split_and!; apply Forall_replicate; unfold byte; lia.
Qed.
