(** C62: several embeddings at once are embeddings and disjoint.  C63: when the search stops, nothing is
    left.  C64: arrays of embeddings. *)
Require Import Lia.
From stdpp Require Import base list numbers relations.
From Verif Require Import Base NxModel SpecNx FeasModel SpecFeas ParModel SpecPar DiagProofs FeasProofs3 ParProofs ParProofs2 ParProofs3 P_feas.

(** C62: [find_multiple_embeddings] returns, for every embedder whose answers are embeddings, embeddings of
    [S] in [T] that share no target node, no more than asked for and than [T] has room for; the caller's [T]
    (second component) is left alone *)
Theorem C62_multiple : forall {A : Type} `{!EqDecision A} (w : world A) (one_to_iterable use_filter shuffle in_time same : bool) (S T : nxgraph A) i max_num_emb,
  nx_wf S -> nx_wf T -> nx_nodes S <> [] -> honest_embedder one_to_iterable w -> honest_shuffle w ->
  exists j embs, find_multiple_embeddings w i S T max_num_emb use_filter one_to_iterable shuffle in_time same = Ok (j, T, embs) /\
    (forall e, e ∈ embs -> good_emb one_to_iterable S T e) /\ all_disjoint embs /\
    (forall m, max_num_emb = Some m -> (Z.of_nat (length embs) <= Z.max 0 m)%Z) /\
    length embs * length (nx_nodes S) <= length (nx_nodes T).
Proof.
  intros A H w o uf sh it same S T i mx H1 H2 H3 H4 H5. destruct (multiple_good w o uf sh it same S T i mx H1 H2 H3 H4 H5) as (j & embs & E & Ha & Hb & Hc & Hd & _).
  exists j, embs. auto.
Qed.
Print Assumptions C62_multiple.
(** C62: the same for whatever [find_sublattice_embeddings] returns, for 1:1 embeddings, for a single
    embedding, or if one embedding in the tile is displaced *)
Theorem C62_sublattice_partial : forall {A : Type} `{!EqDecision A} (generator : family -> nat -> nat -> nxgraph A) (greedy_color : nxgraph A -> A -> nat)
    (mappings : family -> nxgraph A -> nxgraph A -> list (A -> A)) (w : world A) fuel (S T : nxgraph A) family_tile (a : subargs) j T' embs,
  nx_wf S -> nx_wf T -> nx_nodes S <> [] -> honest_embedder (sa_one_to_iterable a) w ->
  (forall tile, sa_tile a = Some tile -> nx_wf tile) -> (forall fam t m, nx_wf (generator fam t m)) ->
  (sa_tile_is_S a = true -> sa_tile a = Some S) ->
  (forall te, sa_tile_emb a = Some te -> NoDup te.*1 /\ forall k, k ∈ te.*1 -> k ∈ nx_nodes S) ->
  (sa_one_to_iterable a = false \/ sa_max a = Some 1%Z \/
   ((sa_tile a <> None \/ sa_size a <> None) /\
    (sa_use_tile a = Some true \/ (sa_use_tile a = None /\ (sa_tile_emb a <> None \/ sa_tile_is_S a = true))))) ->
  find_sublattice_embeddings generator greedy_color mappings w fuel S T family_tile a = Ok (j, T', embs) ->
  T' = T /\ (forall e, e ∈ embs -> good_emb (sa_one_to_iterable a) S T e) /\ all_disjoint embs /\
  (forall m, sa_max a = Some m -> (Z.of_nat (length embs) <= Z.max 1 m)%Z).
Proof. intros A H. exact (@sublattice_good A H). Qed.
Print Assumptions C62_sublattice_partial.

(** the examples: one edge in a path of four nodes, whose middle is listed first *)
Definition edge1 : nxgraph nat := mkNx [0; 1] [(0, 1)].
Definition path4 : nxgraph nat := mkNx [1; 2; 0; 3] [(1, 2); (0, 1); (2, 3)].
Lemma edge1_ok : nx_wf edge1 /\ no_loops edge1.
Proof. apply nat_wf. by vm_compute. Qed.
Lemma path4_ok : nx_wf path4 /\ no_loops path4.
Proof. apply nat_wf. by vm_compute. Qed.
Lemma no_disjoint_pair (e : pyemb nat) x q : on_chain (chains_of e) x q -> ~ all_disjoint [e; e].
Proof. intros H Hd. by apply (Hd 0 1 e e x x q). Qed.

(** C62, refuted for [find_sublattice_embeddings] with chains: [one_to_iterable] is not passed on, so
    nothing is removed after an embedding is found and the next one may be the same *)
Definition edge_chains : pyemb nat := [(0, Chain [1]); (1, Chain [2])].
Definition chain_args : subargs := mkSub (A := nat) (Some path4) false None None true None None true true false.
Theorem C62_overlap_refuted : exists (w : world nat) j,
  honest_embedder true w /\
  find_sublattice_embeddings (fun _ _ _ => path4) (fun _ _ => 0) (fun _ _ _ => [id]) w 10 edge1 path4 (Some (Chimera, 4)) chain_args = Ok (j, path4, [edge_chains; edge_chains]) /\
  ~ all_disjoint [edge_chains; edge_chains].
Proof.
  exists (fixed_world true edge_chains). eexists. split; [apply fixed_honest|]. split; [by vm_compute|].
  apply (no_disjoint_pair edge_chains 0 1). exists [1]. split; [left|left].
Qed.
Print Assumptions C62_overlap_refuted.
(** with displaced tile embeddings at least one is returned even if none is asked for *)
Definition tile_args : subargs := mkSub (A := nat) (Some edge1) true None (Some 0%Z) true None None false true false.
Theorem C62_zero_refuted : exists j, find_sublattice_embeddings (fun _ _ _ => path4) (fun _ _ => 0) (fun _ _ _ => [id]) (fixed_world false []) 10 edge1 path4 (Some (Chimera, 4)) tile_args
  = Ok (j, path4, [[(0, Node 0); (1, Node 1)]]) /\ sa_max tile_args = Some 0%Z.
Proof. eexists. split; [by vm_compute|done]. Qed.
Print Assumptions C62_zero_refuted.
(** two disjoint embeddings are found; displaced ones too *)
Example two_edges : exists j, find_multiple_embeddings (brute_world (A := nat)) 0 edge1 (mkNx [0; 1; 2; 3] [(0, 1); (1, 2); (2, 3)]) None true false false true false
  = Ok (j, mkNx [0; 1; 2; 3] [(0, 1); (1, 2); (2, 3)], [[(0, Node 0); (1, Node 1)]; [(0, Node 2); (1, Node 3)]]).
Proof. eexists. by vm_compute. Qed.
Example two_tiles : exists j, find_sublattice_embeddings (fun _ _ _ => path4) (fun _ _ => 0) (fun _ _ _ => [id; S; fun x => x + 2]) (fixed_world false []) 10 edge1 path4 (Some (Chimera, 4))
    (mkSub (Some edge1) true None None true None None false true false)
  = Ok (j, path4, [[(0, Node 0); (1, Node 1)]; [(0, Node 2); (1, Node 3)]]).
Proof. eexists. by vm_compute. Qed.
(** an empty source graph raises (ZeroDivisionError) *)
Example empty_source : forall w : world nat, find_multiple_embeddings w 0 (mkNx [] []) path4 None true false false true false = Err UB.
Proof. done. Qed.

(** C63: if the embedder finds an embedding whenever there is one and the time is not up, the search ends
    before the limit only if no further embedding of [S] fits beside those that were found *)
Theorem C63_nothing_left : forall {A : Type} `{!EqDecision A} (w : world A) (one_to_iterable use_filter shuffle same : bool) (S T : nxgraph A) i max_num_emb j T' embs,
  nx_wf S -> nx_wf T -> nx_nodes S <> [] -> no_loops S -> honest_embedder one_to_iterable w -> honest_shuffle w ->
  complete_embedder (negb one_to_iterable) w -> (forall n, w_late w n = false) ->
  find_multiple_embeddings w i S T max_num_emb use_filter one_to_iterable shuffle true same = Ok (j, T', embs) ->
  (match max_num_emb with None => True | Some m => Z.of_nat (length embs) < m end)%Z ->
  length embs < length (nx_nodes T) `div` length (nx_nodes S) ->
  ~ embeds_beside (negb one_to_iterable) S T embs.
Proof.
  intros A H w o uf sh same S T i mx j T' embs H1 H2 H3 Hl H4 H5 Hc Hn E Hm Hd.
  destruct (multiple_good w o uf sh true same S T i mx H1 H2 H3 H4 H5) as (j' & embs' & E' & _ & _ & _ & _ & G).
  rewrite E' in E. injection E as <- <- <-. by apply G.
Qed.
Print Assumptions C63_nothing_left.
(** C63: in particular an embedding is found if there is one *)
Theorem C63_some_found : forall {A : Type} `{!EqDecision A} (w : world A) (one_to_iterable use_filter shuffle same : bool) (S T : nxgraph A) i j T' embs,
  nx_wf S -> nx_wf T -> nx_nodes S <> [] -> no_loops S -> honest_embedder one_to_iterable w -> honest_shuffle w ->
  complete_embedder (negb one_to_iterable) w -> (forall n, w_late w n = false) ->
  find_multiple_embeddings w i S T None use_filter one_to_iterable shuffle true same = Ok (j, T', embs) ->
  embeds (negb one_to_iterable) S T -> embs <> [].
Proof.
  intros A H w o uf sh same S T i j T' embs H1 H2 H3 Hl H4 H5 Hc Hn E Hem ->.
  assert (Hlen : length (nx_nodes S) <> 0) by (destruct (nx_nodes S); [done|simpl; lia]).
  pose proof (embeds_nodes _ _ _ H1 Hem) as Hle.
  apply (C63_nothing_left w o uf sh same S T i None j T' [] H1 H2 H3 Hl H4 H5 Hc Hn E I).
  - simpl. by apply Nat.div_str_pos; lia.
  - destruct Hem as (emb & ND & He & Ho). exists emb. split; [done|]. split; [done|]. split; [done|]. intros x q _ _. apply used_nil.
Qed.
Print Assumptions C63_some_found.
(** the hypotheses are met by an embedder that tries all maps *)
Example brute_meets : honest_embedder false (brute_world (A := nat)) /\ complete_embedder true (brute_world (A := nat)) /\ honest_shuffle (brute_world (A := nat))
  /\ (forall n, w_late (brute_world (A := nat)) n = false).
Proof. split; [apply brute_honest|]. split; [apply brute_complete|]. split; [intros i g; apply same_refl|done]. Qed.
(** C63, refuted: the number that is found is not the maximum possible one, as announced for
    [max_num_emb=None], even with such an embedder *)
Theorem C63_maximum_refuted : exists (w : world nat) j embs embs',
  honest_embedder false w /\ complete_embedder true w /\ (forall n, w_late w n = false) /\
  find_multiple_embeddings w 0 edge1 path4 None true false false true false = Ok (j, path4, embs) /\
  (forall e, e ∈ embs' -> good_emb false edge1 path4 e) /\ all_disjoint embs' /\ length embs < length embs'.
Proof.
  exists brute_world. eexists _, _, [[(0, Node 0); (1, Node 1)]; [(0, Node 2); (1, Node 3)]].
  split; [apply brute_honest|]. split; [apply brute_complete|]. split; [done|]. split; [by vm_compute|]. split; [|split; [|simpl; lia]].
  - intros e He. apply good_b_good; [apply edge1_ok|apply path4_ok|].
    apply elem_of_cons in He as [->|He]; [by vm_compute|]. apply elem_of_list_singleton in He as ->. by vm_compute.
  - intros i j e1 e2 x y q Hi Hj Hne H1 H2.
    assert (L : forall i (e1 : pyemb nat) x q, [[(0, Node 0); (1, Node 1)]; [(0, Node 2); (1, Node 3)]] !! i = Some e1 -> on_chain (chains_of e1) x q ->
      (i = 0 /\ q < 2) \/ (i = 1 /\ 2 <= q)).
    { clear. intros i e1 x q Hi H. destruct i as [|[|i]]; [| |done]; injection Hi as <-; [left|right]; (split; [done|]);
        apply on_chain_cons in H as [[_ H]|H]; try (apply elem_of_list_singleton in H; simpl in H; lia);
        apply on_chain_cons in H as [[_ H]|H]; try (apply elem_of_list_singleton in H; simpl in H; lia); by apply on_chain_nil in H. }
    pose proof (L i e1 x q Hi H1). pose proof (L j e2 y q Hj H2). lia.
Qed.
Print Assumptions C63_maximum_refuted.
(** C63, refuted for [find_sublattice_embeddings] with chains: the filter for 1:1 embeddings is applied to
    the sublattices, and nothing is returned although the embedder would find an embedding there *)
Definition star_chains : pyemb nat := [(0, Chain [0; 1]); (1, Chain [3]); (2, Chain [4]); (3, Chain [2]); (4, Chain [5])].
Theorem C63_filter_refuted : exists (w : world nat) j,
  honest_embedder true w /\ (forall n, w_late w n = false) /\ (forall i, w_embedder w i star4 cube = star_chains) /\ good_emb true star4 cube star_chains /\
  find_sublattice_embeddings (fun _ _ _ => cube) (fun _ _ => 0) (fun _ _ _ => [id]) w 10 star4 cube (Some (Chimera, 4))
    (mkSub (Some cube) false None None true None None true true false) = Ok (j, cube, []).
Proof.
  exists (fixed_world true star_chains). eexists. split; [apply fixed_honest|]. split; [done|]. split; [intros i; by vm_compute|]. split; [|by vm_compute].
  apply good_b_good; [apply feas_wf; set_solver|apply feas_wf; set_solver|by vm_compute].
Qed.
Print Assumptions C63_filter_refuted.

(** C64: [array_to_embeddings] gives back what [embeddings_to_array] was given, for the variables in
    [node_order], if there are not as many embeddings as variables *)
Theorem C64_roundtrip_partial : forall {A B : Type} `{!EqDecision A} (embs : list (list (A * B))) (node_order : list A), NoDup node_order ->
  (forall e v, e ∈ embs -> v ∈ node_order -> exists x, dlookup e v = Some x) -> length embs <> length node_order ->
  exists rows out, embeddings_to_array embs (Some node_order) = Ok rows /\ array_to_embeddings rows node_order = Ok out /\
    length out = length embs /\
    forall k e d, embs !! k = Some e -> out !! k = Some d -> d.*1 = node_order /\ forall v y, (v, y) ∈ d -> exists x, dlookup e v = Some x /\ y = Entry x.
Proof. intros A B H. exact (@array_roundtrip A H B). Qed.
Print Assumptions C64_roundtrip_partial.
(** C64, refuted: two embeddings of two variables are taken for one embedding *)
Theorem C64_square_refuted : exists (embs : list (list (nat * nat))) rows,
  embeddings_to_array embs (Some [0; 1]) = Ok rows /\
  array_to_embeddings rows [0; 1] = Ok [[(0, Row [10; 11]); (1, Row [12; 13])]] /\ length embs = 2.
Proof. exists [[(0, 10); (1, 11)]; [(0, 12); (1, 13)]]. eexists. by vm_compute. Qed.
Print Assumptions C64_square_refuted.
Example array_three : embeddings_to_array [[(0, 10); (1, 11)]; [(0, 12); (1, 13)]; [(1, 15); (0, 14)]] None = Ok [[10; 11]; [12; 13]; [14; 15]]
  /\ array_to_embeddings [[10; 11]; [12; 13]; [14; 15]] [0; 1] = Ok [[(0, Entry 10); (1, Entry 11)]; [(0, Entry 12); (1, Entry 13)]; [(0, Entry 14); (1, Entry 15)]].
Proof. by vm_compute. Qed.
