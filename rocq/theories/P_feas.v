(** C60: the feasibility filter.  C61: the lower bound of the lattice size. *)
Require Import Lia.
From stdpp Require Import base list numbers relations sorting.
From Verif Require Import Base NxModel SpecNx FeasModel SpecFeas DiagProofs FeasProofs3 FeasProofs2 FeasProofs4.

(** C60: the filter returns False only if there is no embedding; with [one_to_one], no embedding as a
    subgraph.  The source graph has no self-loops. *)
Theorem C60_infeasible_partial : forall {A : Type} `{!EqDecision A} (S T : nxgraph A) same one_to_one,
  nx_wf S -> nx_wf T -> no_loops S ->
  feasibility_filter S T same one_to_one = Ok false -> ~ embeds one_to_one S T.
Proof. intros A H. exact (@rejected_infeasible A H). Qed.
Print Assumptions C60_infeasible_partial.
(** C60: it returns for all graphs *)
Theorem C60_total : forall {A : Type} `{!EqDecision A} (S T : nxgraph A) same one_to_one,
  exists b, feasibility_filter S T same one_to_one = Ok b.
Proof. intros A H. exact (@filter_total A H). Qed.
Print Assumptions C60_total.
(** C60: for subgraph embeddings, True is returned exactly if [T] has as many nodes, as many edges and, for
    every number of neighbours, as many nodes with that many neighbours as [S] *)
Theorem C60_one_to_one : forall {A : Type} `{!EqDecision A} (S T : nxgraph A), nx_wf S -> nx_wf T -> no_loops S -> no_loops T ->
  feasibility_filter S T false true = Ok true <->
  length (nx_nodes S) <= length (nx_nodes T) /\ length (nx_edges S) <= length (nx_edges T) /\ forall d, as_many S T d.
Proof. intros A H. exact (@filter_exact A H). Qed.
Print Assumptions C60_one_to_one.
(** C60, refuted with self-loops: they are counted as edges and twice in the degrees although an
    embedding need not represent them *)
Definition loop_S : nxgraph nat := mkNx [0; 1] [(0, 1); (0, 0)].
Definition loop_T : nxgraph nat := mkNx [0; 1] [(0, 1)].
Theorem C60_refuted : ~ (forall (S T : nxgraph nat) same one_to_one, nx_wf S -> nx_wf T ->
  feasibility_filter S T same one_to_one = Ok false -> ~ embeds one_to_one S T).
Proof.
  intros H. apply (H loop_S loop_T false true).
  - split; simpl; [apply (bool_decide_unpack _); by vm_compute| |apply (bool_decide_unpack _); by vm_compute|].
    + intros a b Hab. apply elem_of_cons in Hab as [[= -> ->]|Hab]; [set_solver|]. apply elem_of_list_singleton in Hab as [= -> ->]. set_solver.
    + intros a b Hab Hba. apply elem_of_cons in Hab as [[= -> ->]|Hab]; [|by apply elem_of_list_singleton in Hab as [= -> ->]].
      apply elem_of_cons in Hba as [?|Hba]; [done|]. apply elem_of_list_singleton in Hba. done.
  - split; simpl; [apply (bool_decide_unpack _); by vm_compute| |apply (bool_decide_unpack _); by vm_compute|].
    + intros a b Hab. apply elem_of_list_singleton in Hab as [= -> ->]. set_solver.
    + intros a b Hab Hba. apply elem_of_list_singleton in Hab as [= -> ->]. apply elem_of_list_singleton in Hba. done.
  - by vm_compute.
  - assert (E : forall x q, on_chain [(0, [0]); (1, [1])] x q <-> (x = q /\ (q = 0 \/ q = 1))).
    { intros x q. unfold on_chain, chain_at. split.
      - intros (C & HC & Hq). apply elem_of_cons in HC as [[= -> ->]|HC]; [apply elem_of_list_singleton in Hq; auto|].
        apply elem_of_list_singleton in HC as [= -> ->]. apply elem_of_list_singleton in Hq; auto.
      - intros [-> [->| ->]]; [exists [0]|exists [1]]; set_solver. }
    exists [(0, [0]); (1, [1])]. split; [apply (bool_decide_unpack _); by vm_compute|]. split.
    + split; simpl.
      * intros x Hx. exists x. apply E. set_solver.
      * intros x q _ Hq. apply E in Hq. set_solver.
      * intros x _ a b Ha Hb. apply E in Ha, Hb. destruct Ha as [<- _], Hb as [<- _]. done.
      * intros x y q _ _ Hx Hy. apply E in Hx, Hy. destruct Hx as [-> _], Hy as [-> _]. done.
      * intros x y Hxy Hne. assert (Hxy' : (x = 0 /\ y = 1) \/ (x = 1 /\ y = 0)) by (unfold nx_adj in Hxy; set_solver).
        exists x, y. rewrite !E. unfold nx_adj. destruct Hxy' as [[-> ->]|[-> ->]]; (split; [auto|]); (split; [auto|]); set_solver.
    + intros _ x Hx. exists x. intros p. rewrite E. simpl in Hx. set_solver.
Qed.
Print Assumptions C60_refuted.

(** Cases.  The complete graph of five nodes is not a minor of the cube; the last test finds this. *)
Definition nat_wf_b (g : nxgraph nat) : bool :=
  bool_decide (NoDup (nx_nodes g)) && bool_decide (NoDup (nx_edges g))
  && forallb (fun e => bool_decide (e.1 ∈ nx_nodes g) && bool_decide (e.2 ∈ nx_nodes g) && bool_decide (e.1 <> e.2) && bool_decide ((e.2, e.1) ∉ nx_edges g)) (nx_edges g).
Lemma nat_wf g : nat_wf_b g = true -> nx_wf g /\ no_loops g.
Proof.
  unfold nat_wf_b. rewrite !andb_true_iff, !bool_decide_eq_true, forallb_forall. intros [[H1 H2] H3].
  assert (H : forall a b, (a, b) ∈ nx_edges g -> a ∈ nx_nodes g /\ b ∈ nx_nodes g /\ a <> b /\ (b, a) ∉ nx_edges g).
  { intros a b Hab. apply elem_of_list_In, H3 in Hab. simpl in Hab. rewrite !andb_true_iff, !bool_decide_eq_true in Hab. tauto. }
  split; [split; [done| |done|]|].
  - intros a b Hab. apply H in Hab. tauto.
  - intros a b Hab Hba. apply H in Hab. tauto.
  - intros x Hx. apply H in Hx. tauto.
Qed.
Definition K5 : nxgraph nat := mkNx [0; 1; 2; 3; 4] [(0, 1); (0, 2); (0, 3); (0, 4); (1, 2); (1, 3); (1, 4); (2, 3); (2, 4); (3, 4)].
Definition cube : nxgraph nat := mkNx (seq 0 8) [(0, 1); (1, 2); (2, 3); (3, 0); (4, 5); (5, 6); (6, 7); (7, 4); (0, 4); (1, 5); (2, 6); (3, 7)].
Definition petersen : nxgraph nat := mkNx (seq 0 10) [(0, 1); (1, 2); (2, 3); (3, 4); (4, 0); (5, 7); (7, 9); (9, 6); (6, 8); (8, 5); (0, 5); (1, 6); (2, 7); (3, 8); (4, 9)].
Definition star4 : nxgraph nat := mkNx (seq 0 5) [(0, 1); (0, 2); (0, 3); (0, 4)].
Definition path9 : nxgraph nat := mkNx (seq 0 9) [(0, 1); (1, 2); (2, 3); (3, 4); (4, 5); (5, 6); (6, 7); (7, 8)].
Lemma feas_wf : forall g, g ∈ [K5; cube; petersen; star4; path9] -> nx_wf g /\ no_loops g.
Proof.
  intros g Hg. apply nat_wf. repeat (apply elem_of_cons in Hg as [->|Hg]; [by vm_compute|]). by apply elem_of_nil in Hg.
Qed.
Example filter_cube : feasibility_filter K5 cube false false = Ok false /\ ~ embeds false K5 cube.
Proof.
  split; [by vm_compute|]. apply (C60_infeasible_partial K5 cube false false); [apply feas_wf; left|apply feas_wf; right; left|apply feas_wf; left|by vm_compute].
Qed.
(** the Petersen graph has just enough nodes, and the embedding exists *)
Example filter_petersen : feasibility_filter K5 petersen false false = Ok true /\ feasibility_filter K5 petersen false true = Ok false
  /\ is_valid_embedding [(0, [0; 5]); (1, [1; 6]); (2, [2; 7]); (3, [3; 8]); (4, [4; 9])] K5 petersen = true.
Proof. by vm_compute. Qed.
(** too few nodes of high degree in a graph of degree two at most *)
Example filter_path : feasibility_filter star4 path9 false false = Ok false /\ ~ embeds false star4 path9.
Proof.
  split; [by vm_compute|]. apply (C60_infeasible_partial star4 path9 false false);
    [apply feas_wf; set_solver|apply feas_wf; set_solver|apply feas_wf; set_solver|by vm_compute].
Qed.
(** a star fits in the cube as a minor but not as a subgraph *)
Example filter_star : feasibility_filter star4 cube false false = Ok true /\ feasibility_filter star4 cube false true = Ok false
  /\ is_valid_embedding [(0, [0; 1]); (1, [3]); (2, [4]); (3, [2]); (4, [5])] star4 cube = true.
Proof. by vm_compute. Qed.

(** C61: a number that is returned is no more than the size of any lattice in which the source graph
    can be embedded; [gen] makes the lattices, [col] colours graphs *)
Theorem C61_lower_bound_partial : forall {A : Type} `{!EqDecision A} (gen : family -> nat -> nat -> nxgraph A) (col : nxgraph A -> A -> nat)
    fuel (S : nxgraph A) T topology t one_to_one L fam tt m,
  nx_wf S -> no_loops S -> uses T topology t fam tt ->
  lattice_nodes gen fam tt -> (forall m, nx_wf (gen fam tt m)) -> (fam = Pegasus -> 1 <= m) ->
  lattice_size_lower_bound gen col fuel S T topology t one_to_one = Ok (Some L) ->
  embeds one_to_one S (gen fam tt m) -> L <= m.
Proof. intros A H. exact (@bound_valid A H). Qed.
Print Assumptions C61_lower_bound_partial.
(** C61: without target graph and for subgraph embeddings, None is returned only if no lattice is big
    enough *)
Theorem C61_none_partial : forall {A : Type} `{!EqDecision A} (gen : family -> nat -> nat -> nxgraph A) (col : nxgraph A -> A -> nat)
    fuel (S : nxgraph A) topology t,
  nx_wf S -> no_loops S ->
  (forall m, degree_at_most (gen topology (default 4 t) m) (max_degree_of topology (default 4 t))) ->
  (topology = Chimera -> forall m, bipartite (gen topology (default 4 t) m)) ->
  (bipartite S -> forall x, x ∈ nx_nodes S -> col S x <= 1) ->
  lattice_size_lower_bound gen col fuel S None (Some topology) t true = Ok None ->
  forall m, ~ embeds true S (gen topology (default 4 t) m).
Proof. intros A H. exact (@none_valid A H). Qed.
Print Assumptions C61_none_partial.
(** C61: if some lattice is big enough, the loop over the sizes ends *)
Theorem C61_terminates_partial : forall {A : Type} `{!EqDecision A} (gen : family -> nat -> nat -> nxgraph A) (col : nxgraph A -> A -> nat)
    fuel (S : nxgraph A) topology t one_to_one m,
  nx_wf S -> no_loops S -> nx_nodes S <> [] ->
  lattice_nodes gen topology (default 4 t) -> (forall m, nx_wf (gen topology (default 4 t) m)) -> (topology = Pegasus -> 1 <= m) ->
  embeds one_to_one S (gen topology (default 4 t) m) -> m < fuel ->
  exists r, lattice_size_lower_bound gen col fuel S None (Some topology) t one_to_one = Ok r.
Proof. intros A H. exact (@bound_found A H). Qed.
Print Assumptions C61_terminates_partial.

(** the lattices used here: Chimera graphs, and nothing else *)
Definition chimeras (fam : family) (t m : nat) : nxgraph cnode := chimera_graph m t.
Lemma chimeras_ok : lattice_nodes chimeras Chimera 4 /\ (forall m, nx_wf (chimeras Chimera 4 m)) /\ (forall m, bipartite (chimeras Chimera 4 m))
  /\ (forall m, degree_at_most (chimeras Chimera 4 m) (max_degree_of Chimera 4)).
Proof.
  split; [|split; [|split]].
  - intros m. apply chimera_size.
  - intros m. apply chimera_wf.
  - intros m. apply chimera_bipartite.
  - intros m a l ND Hl. pose proof (chimera_degree m 4 a l ND Hl). simpl. lia.
Qed.
(** C61, refuted: a star with seven leaves has more than the six neighbours a node of these Chimera
    graphs can have, and not more than the ten that are allowed before the loop: as a subgraph it fits
    in none, and the loop never ends *)
Theorem C61_termination_refuted : forall fuel col, (forall x, x ∈ nx_nodes (star_graph 7) -> col (star_graph 7) x <= 2) ->
  nx_wf (star_graph 7) /\ no_loops (star_graph 7) /\
  lattice_size_lower_bound chimeras col fuel (star_graph 7) None (Some Chimera) None true = Err OOF.
Proof.
  intros fuel col Hcol. split; [apply star_wf|]. split; [apply star_loops|]. unfold lattice_size_lower_bound. cbn [default].
  destruct (nx_degree (star_graph 7) <$> nx_nodes (star_graph 7)) as [|d ds] eqn:E; [by vm_compute in E|].
  assert (Hd : (max_degree_of Chimera 4 <? foldl Nat.max d ds) = false) by (vm_compute in E; injection E as <- <-; by vm_compute).
  rewrite Hd. cbn [rbind].
  assert (Hc : existsb (fun x => 2 <? col (star_graph 7) x) (nx_nodes (star_graph 7)) = false).
  { apply not_true_is_false. intros H. apply existsb_exists in H as (x & Hx & H). apply elem_of_list_In in Hx. apply Hcol in Hx. apply Nat.ltb_lt in H. lia. }
  rewrite Hc, grow_never; [done|]. intros m. apply (star_filter (star_graph 7) (chimeras Chimera 4 m) 6 (0, 0, 0, 0)).
  - apply chimera_wf.
  - apply chimera_loops.
  - intros a l ND Hl. pose proof (chimera_degree m 4 a l ND Hl). lia.
  - left.
  - by vm_compute; lia.
Qed.
Print Assumptions C61_termination_refuted.
(** C61, refuted for minor embeddings: the complete graph of four nodes is turned down for all Chimera
    graphs because it needs four colours, but it can be embedded in a Chimera graph of one cell *)
Definition cn (k : nat) : cnode := (0, 0, 0, k).
Definition K4c : nxgraph cnode := mkNx [cn 0; cn 1; cn 2; cn 3] [(cn 0, cn 1); (cn 0, cn 2); (cn 0, cn 3); (cn 1, cn 2); (cn 1, cn 3); (cn 2, cn 3)].
Theorem C61_none_refuted : forall fuel col, (forall x y, nx_adj K4c x y -> col K4c x <> col K4c y) ->
  lattice_size_lower_bound chimeras col fuel K4c None (Some Chimera) None false = Ok None /\ embeds false K4c (chimeras Chimera 4 1).
Proof.
  intros fuel col Hcol. split.
  - unfold lattice_size_lower_bound. cbn [default].
    destruct (nx_degree K4c <$> nx_nodes K4c) as [|d ds] eqn:E; [by vm_compute in E|].
    assert (Hd : (max_degree_of Chimera 4 <? foldl Nat.max d ds) = false) by (vm_compute in E; injection E as <- <-; by vm_compute).
    rewrite Hd. cbn [rbind].
    assert (H01 := Hcol (cn 0) (cn 1) ltac:(left; set_solver)). assert (H02 := Hcol (cn 0) (cn 2) ltac:(left; set_solver)).
    assert (H03 := Hcol (cn 0) (cn 3) ltac:(left; set_solver)). assert (H12 := Hcol (cn 1) (cn 2) ltac:(left; set_solver)).
    assert (H13 := Hcol (cn 1) (cn 3) ltac:(left; set_solver)). assert (H23 := Hcol (cn 2) (cn 3) ltac:(left; set_solver)).
    assert (Hc : existsb (fun x => 2 <? col K4c x) (nx_nodes K4c) = true); [|by rewrite Hc].
    simpl. rewrite !orb_true_iff, !Nat.ltb_lt. lia.
  - exists [(cn 0, [(0, 0, 0, 0); (0, 0, 1, 0)]); (cn 1, [(0, 0, 0, 1); (0, 0, 1, 1)]); (cn 2, [(0, 0, 0, 2); (0, 0, 1, 2)]); (cn 3, [(0, 0, 0, 3); (0, 0, 1, 3)])].
    split; [apply (bool_decide_unpack _); by vm_compute|]. split; [|done].
    apply valid_iff; [apply (bool_decide_unpack _); by vm_compute| |apply chimera_wf|by vm_compute].
    split; simpl; [apply (bool_decide_unpack _); by vm_compute| |apply (bool_decide_unpack _); by vm_compute|].
    + intros a b Hab. repeat (apply elem_of_cons in Hab as [[= -> ->]|Hab]; [set_solver|]). by apply elem_of_nil in Hab.
    + intros a b Hab Hba. repeat (apply elem_of_cons in Hab as [[= -> ->]|Hab]; [exfalso; revert Hba; clear; set_solver|]). by apply elem_of_nil in Hab.
Qed.
Print Assumptions C61_none_refuted.
(** C61, refuted: a tile parameter that contradicts the target graph is announced to raise and does
    not; the bound is then for other lattices than the target's *)
Theorem C61_tile_refuted : exists S g, nx_wf S /\ nx_wf g /\
  lattice_size_lower_bound chimeras (fun _ _ => 0) 10 S (Some (g, Chimera, 4)) None (Some 1) false = Ok (Some 2) /\
  embeds false S (chimeras Chimera 4 1) /\ g = chimeras Chimera 4 1.
Proof.
  exists (mkNx [cn 0; cn 1; cn 2] [(cn 0, cn 1); (cn 1, cn 2)]), (chimeras Chimera 4 1). split; [|split; [apply chimera_wf|split; [by vm_compute|split; [|done]]]].
  - split; simpl; [apply (bool_decide_unpack _); by vm_compute| |apply (bool_decide_unpack _); by vm_compute|].
    + intros a b Hab. repeat (apply elem_of_cons in Hab as [[= -> ->]|Hab]; [set_solver|]). by apply elem_of_nil in Hab.
    + intros a b Hab Hba. repeat (apply elem_of_cons in Hab as [[= -> ->]|Hab]; [exfalso; revert Hba; clear; set_solver|]). by apply elem_of_nil in Hab.
  - exists [(cn 0, [(0, 0, 0, 0)]); (cn 1, [(0, 0, 1, 0)]); (cn 2, [(0, 0, 0, 1)])].
    split; [apply (bool_decide_unpack _); by vm_compute|]. split; [|done].
    apply valid_iff; [apply (bool_decide_unpack _); by vm_compute| |apply chimera_wf|by vm_compute].
    split; simpl; [apply (bool_decide_unpack _); by vm_compute| |apply (bool_decide_unpack _); by vm_compute|].
    + intros a b Hab. repeat (apply elem_of_cons in Hab as [[= -> ->]|Hab]; [set_solver|]). by apply elem_of_nil in Hab.
    + intros a b Hab Hba. repeat (apply elem_of_cons in Hab as [[= -> ->]|Hab]; [exfalso; revert Hba; clear; set_solver|]). by apply elem_of_nil in Hab.
Qed.
Print Assumptions C61_tile_refuted.
(** a run: a node of a single cell has four neighbours, so a star with five leaves needs two rows *)
Example lattice_star : lattice_size_lower_bound chimeras (fun _ _ => 1) 10 (star_graph 5) None (Some Chimera) None true = Ok (Some 2).
Proof. by vm_compute. Qed.
