(** The picture of a graph as a grid of fragments, and of the chains in it: C77, C78. *)
From stdpp Require Import base list list_numbers numbers gmap relations sorting.
From Verif Require Import Base BusModel CliqueModel SmallModel BicliqueModel FragModel FragBicliqueModel DrawModel SpecBus SpecFrag SpecUtil SpecDraw DrawProofs4 P_frag.

(** C77, Chimera: for every graph with any missing qubits and couplers (couplers that are none of Chimera are
    ignored), the fragments drawn are the qubits themselves, in increasing order, and the edges drawn are
    the couplers, each once. *)
Theorem C77_chimera_picture : forall m n t nodes edges, t <= 8 -> good_graph (nqubits m n t) nodes edges ->
  exists c ns es, topo_init (mkTopo m n t) nodes edges = Ok c /\ picture c = Ok (ns, es) /\
    StronglySorted lt ns /\ (forall q, q ∈ ns <-> q ∈ nodes) /\
    NoDup es /\ (forall p q, (p, q) ∈ es -> (q, p) ∉ es) /\
    (forall p q, has_edge es p q <-> has_edge edges p q /\ chimera_adj m n t p q).
Proof. exact chimera_picture. Qed.
Print Assumptions C77_chimera_picture.

(** C77, Zephyr: every qubit is drawn as the two fragments of the crossings it covers, and two fragments are
    joined exactly if they touch: successive on a wire within one qubit or across a coupler, or a
    vertical and a horizontal one at the same crossing whose qubits are coupled. *)
Theorem C77_zephyr_picture : forall m t, t <= 4 -> forall nodes edges, lattice_graph (zephyr_total m t) (zephyr_coupler m t) nodes edges ->
  exists c ns es, frag_init (zephyr_spec m t) nodes edges = Ok c /\ picture c = Ok (ns, es) /\
  pictures (2 * m + 1) (2 * m + 1) (2 * t) (zephyr_owner m t) nodes edges ns es /\
  forall q, q < zephyr_total m t -> NoDup (draw_chain (zephyr_spec m t) [q]) /\ length (draw_chain (zephyr_spec m t) [q]) = 2 /\
    forall f, f ∈ draw_chain (zephyr_spec m t) [q] <-> fragment (2 * m + 1) (2 * m + 1) (2 * t) (zephyr_owner m t) f q.
Proof. exact zephyr_picture. Qed.
Print Assumptions C77_zephyr_picture.

(** the same for Pegasus, where a qubit has six fragments *)
Theorem C77_pegasus_picture : forall m off, 1 <= m -> (forall u i, i < 6 -> off u i <= 6) ->
  forall nodes edges, lattice_graph (pegasus_total m) (pegasus_coupler m off) nodes edges ->
  exists c ns es, frag_init (pegasus_spec m off) nodes edges = Ok c /\ picture c = Ok (ns, es) /\
  pictures (6 * m) (6 * m) 2 (pegasus_owner m off) nodes edges ns es /\
  forall q, q < pegasus_total m -> NoDup (draw_chain (pegasus_spec m off) [q]) /\ length (draw_chain (pegasus_spec m off) [q]) = 6 /\
    forall f, f ∈ draw_chain (pegasus_spec m off) [q] <-> fragment (6 * m) (6 * m) 2 (pegasus_owner m off) f q.
Proof. exact pegasus_picture. Qed.
Print Assumptions C77_pegasus_picture.

(** C78: whatever is a chain, a pair of disjoint chains or a pair of coupled chains through couplers that are not
    odd, is drawn as one. Missing: odd couplers, which leave no trace in the picture (see
    [C78_odd_coupler_refuted]). *)
Theorem C78_zephyr_chains_partial : forall m t, t <= 4 -> forall nodes edges, lattice_graph (zephyr_total m t) (zephyr_coupler m t) nodes edges ->
  exists c ns es, frag_init (zephyr_spec m t) nodes edges = Ok c /\ picture c = Ok (ns, es) /\
  forall edges', (forall p q, (p, q) ∈ edges' -> has_edge edges p q /\ (zephyr_straight m t p q \/ zephyr_straight m t q p)) ->
  (forall ch, good_chain nodes edges' ch -> good_chain ns es (draw_chain (zephyr_spec m t) ch)) /\
  (forall ch ch', good_chain nodes edges' ch -> good_chain nodes edges' ch' -> ch ## ch' -> draw_chain (zephyr_spec m t) ch ## draw_chain (zephyr_spec m t) ch') /\
  (forall ch ch', good_chain nodes edges' ch -> good_chain nodes edges' ch' -> coupled edges' ch ch' ->
     coupled es (draw_chain (zephyr_spec m t) ch) (draw_chain (zephyr_spec m t) ch')).
Proof. exact zephyr_straight_top. Qed.
Print Assumptions C78_zephyr_chains_partial.
Theorem C78_pegasus_chains_partial : forall m off, 1 <= m -> (forall u i, i < 6 -> off u i <= 6) ->
  forall nodes edges, lattice_graph (pegasus_total m) (pegasus_coupler m off) nodes edges ->
  exists c ns es, frag_init (pegasus_spec m off) nodes edges = Ok c /\ picture c = Ok (ns, es) /\
  forall edges', (forall p q, (p, q) ∈ edges' -> has_edge edges p q /\ (pegasus_straight m off p q \/ pegasus_straight m off q p)) ->
  (forall ch, good_chain nodes edges' ch -> good_chain ns es (draw_chain (pegasus_spec m off) ch)) /\
  (forall ch ch', good_chain nodes edges' ch -> good_chain nodes edges' ch' -> ch ## ch' -> draw_chain (pegasus_spec m off) ch ## draw_chain (pegasus_spec m off) ch') /\
  (forall ch ch', good_chain nodes edges' ch -> good_chain nodes edges' ch' -> coupled edges' ch ch' ->
     coupled es (draw_chain (pegasus_spec m off) ch) (draw_chain (pegasus_spec m off) ch')).
Proof. exact pegasus_straight_top. Qed.
Print Assumptions C78_pegasus_chains_partial.

(** C78: every clique in the table of [best_cliques], other than the one made of single qubits, is drawn as a clique
    embedding in the picture of the graph. *)
Theorem C78_zephyr_cliques_partial : forall m t, t <= 4 -> forall nodes edges, lattice_graph (zephyr_total m t) (zephyr_coupler m t) nodes edges ->
  forall bound shuf coin, (forall i l, shuf i l ≡ₚ l) -> (1 <= bound)%N ->
  exists c ns es, frag_init (zephyr_spec m t) nodes edges = Ok c /\ picture c = Ok (ns, es) /\ forall bad, bad ≡ₚ tc_bad c -> exists n, forall fuel, n <= fuel ->
  exists masks embs, mask_run fuel c bound shuf coin 0 (mkTS 0 bad ([], [])) = Ok masks /\
    frag_best_cliques (zephyr_yields m t) masks (short_clique 4 nodes edges []) = Ok embs /\
    forall i emb, i <> 1 -> embs !! i = Some emb -> clique_embedding ns es (draw_chain (zephyr_spec m t) <$> emb).
Proof. exact zephyr_cliques_picture. Qed.
Print Assumptions C78_zephyr_cliques_partial.
Theorem C78_pegasus_cliques_partial : forall m off, 1 <= m -> (forall u i, i < 6 -> off u i <= 6) ->
  forall nodes edges, lattice_graph (pegasus_total m) (pegasus_coupler m off) nodes edges ->
  forall bound shuf coin, (forall i l, shuf i l ≡ₚ l) -> (1 <= bound)%N ->
  exists c ns es, frag_init (pegasus_spec m off) nodes edges = Ok c /\ picture c = Ok (ns, es) /\ forall bad, bad ≡ₚ tc_bad c -> exists n, forall fuel, n <= fuel ->
  exists masks embs, mask_run fuel c bound shuf coin 0 (mkTS 0 bad ([], [])) = Ok masks /\
    frag_best_cliques (pegasus_yields m off) masks (short_clique 4 nodes edges []) = Ok embs /\
    forall i emb, i <> 1 -> embs !! i = Some emb -> clique_embedding ns es (draw_chain (pegasus_spec m off) <$> emb).
Proof. exact pegasus_cliques_picture. Qed.
Print Assumptions C78_pegasus_cliques_partial.

(** C78: every biclique in the table of [best_bicliques] is drawn as a biclique embedding; nothing is missing here. *)
Theorem C78_zephyr_bicliques : forall m t, t <= 4 -> forall nodes edges, lattice_graph (zephyr_total m t) (zephyr_coupler m t) nodes edges ->
  forall bound shuf coin, (forall i l, shuf i l ≡ₚ l) -> (1 <= bound)%N ->
  exists c ns es, frag_init (zephyr_spec m t) nodes edges = Ok c /\ picture c = Ok (ns, es) /\ forall bad, bad ≡ₚ tc_bad c -> exists n, forall fuel, n <= fuel ->
  exists masks embs, mask_run fuel c bound shuf coin 0 (mkTS 0 bad ([], [])) = Ok masks /\
    zephyr_bicliques m t masks = Ok embs /\
    forall s0 s1 emb, embs !! (s0, s1) = Some emb -> biclique_embedding ns es s0 s1 (draw_chain (zephyr_spec m t) <$> emb).
Proof. exact zephyr_bicliques_picture. Qed.
Print Assumptions C78_zephyr_bicliques.
Theorem C78_pegasus_bicliques : forall m off, 1 <= m -> (forall u i, i < 6 -> off u i <= 6) ->
  forall nodes edges, lattice_graph (pegasus_total m) (pegasus_coupler m off) nodes edges ->
  forall bound shuf coin, (forall i l, shuf i l ≡ₚ l) -> (1 <= bound)%N ->
  exists c ns es, frag_init (pegasus_spec m off) nodes edges = Ok c /\ picture c = Ok (ns, es) /\ forall bad, bad ≡ₚ tc_bad c -> exists n, forall fuel, n <= fuel ->
  exists masks embs, mask_run fuel c bound shuf coin 0 (mkTS 0 bad ([], [])) = Ok masks /\
    pegasus_bicliques m off masks = Ok embs /\
    forall s0 s1 emb, embs !! (s0, s1) = Some emb -> biclique_embedding ns es s0 s1 (draw_chain (pegasus_spec m off) <$> emb).
Proof. exact pegasus_bicliques_picture. Qed.
Print Assumptions C78_pegasus_bicliques.

(** C78 is false across odd couplers: two qubits 0 and 2 of the Zephyr graph 2, 1, on the two tracks of
    one line and coupled; the clique of two single qubits that the table holds is valid in the graph and is drawn as two chains
    with no edge between them. *)
Definition odd_cache : res tcache := Eval vm_compute in frag_init (zephyr_spec 2 1) [0; 2] [(0, 2)].
Definition odd_masks := Eval vm_compute in
  let! c := odd_cache in mask_run 5 c 10 (fun _ l => l) (fun _ _ => true) 0 (mkTS 0 (tc_bad c) ([], [])).
Definition odd_table := Eval vm_compute in
  let! masks := odd_masks in frag_best_cliques (zephyr_yields 2 1) masks (short_clique 4 [0; 2] [(0, 2)] []).
Lemma odd_graph : lattice_graph (zephyr_total 2 1) (zephyr_coupler 2 1) [0; 2] [(0, 2)].
Proof.
  apply lattice_graph_sub; [by vm_compute|by vm_compute|]. intros p q [= -> ->]%elem_of_list_singleton.
  apply (zc_odd 2 1 false 0 0 0 0); lia.
Qed.
Lemma odd_clique : clique_embedding [0; 2] [(0, 2)] [[0]; [2]].
Proof.
  assert (E : (0, 2) ∈ [(0, 2)]) by apply elem_of_list_here. split.
  - intros ch Hch. assert (exists q, ch = [q] /\ q ∈ [0; 2]) as (q & -> & Hq).
    { apply elem_of_cons in Hch as [-> |Hch]; [exists 0; split; [done|apply elem_of_list_here]|].
      apply elem_of_list_singleton in Hch as ->. exists 2. split; [done|apply elem_of_list_further, elem_of_list_here]. }
    split_and!; [done|by apply NoDup_singleton|by intros ? ->%elem_of_list_singleton|]. by intros ? ? ->%elem_of_list_singleton ->%elem_of_list_singleton.
  - intros [|[|i]] [|[|j]] a b Hij; cbn; intros [= <-] [= <-]; try done; (split; [by intros ? ->%elem_of_list_singleton ?%elem_of_list_singleton|]).
    + exists 0, 2. split_and!; [apply elem_of_list_here..|by left].
    + exists 2, 0. split_and!; [apply elem_of_list_here..|by right].
Qed.
Lemma odd_pic : draw_chain (zephyr_spec 2 1) <$> [[0]; [2]] = [[20; 0]; [41; 21]].
Proof. vm_compute. reflexivity. Qed.
Lemma odd_drawn : ~ clique_embedding [0; 20; 21; 41] [(20, 0); (41, 21)] [[20; 0]; [41; 21]].
Proof.
  intros [_ H]. destruct (H 0 1 [20; 0] [41; 21]) as [_ (p & q & Hp & Hq & He)]; [done|done|done|].
  assert (p = 20 \/ p = 0) by (apply elem_of_cons in Hp as [-> | ->%elem_of_list_singleton]; lia).
  assert (q = 41 \/ q = 21) by (apply elem_of_cons in Hq as [-> | ->%elem_of_list_singleton]; lia).
  destruct He as [[[= -> ->]|[= -> ->]%elem_of_list_singleton]%elem_of_cons|[[= -> ->]|[= -> ->]%elem_of_list_singleton]%elem_of_cons]; lia.
Qed.
Theorem C78_odd_coupler_refuted : exists m t nodes edges c ns es masks embs emb, t <= 4 /\
  lattice_graph (zephyr_total m t) (zephyr_coupler m t) nodes edges /\
  frag_init (zephyr_spec m t) nodes edges = Ok c /\ picture c = Ok (ns, es) /\
  mask_run 5 c 10 (fun _ l => l) (fun _ _ => true) 0 (mkTS 0 (tc_bad c) ([], [])) = Ok masks /\
  frag_best_cliques (zephyr_yields m t) masks (short_clique 4 nodes edges []) = Ok embs /\ embs !! 1 = Some emb /\
  clique_embedding nodes edges emb /\ ~ clique_embedding ns es (draw_chain (zephyr_spec m t) <$> emb).
Proof.
  exists 2, 1, [0; 2], [(0, 2)]. eexists. exists [0; 20; 21; 41], [(20, 0); (41, 21)]. eexists _, _, [[0]; [2]].
  split; [lia|]. split; [exact odd_graph|].
  split; [transitivity odd_cache; [vm_compute; reflexivity|unfold odd_cache; reflexivity]|].
  split; [vm_compute; reflexivity|].
  split; [transitivity odd_masks; [vm_compute; reflexivity|unfold odd_masks; reflexivity]|].
  split; [transitivity odd_table; [vm_compute; reflexivity|unfold odd_table; reflexivity]|].
  split; [vm_compute; reflexivity|]. split.
  - exact odd_clique.
  - rewrite odd_pic. exact odd_drawn.
Qed.
Print Assumptions C78_odd_coupler_refuted.

(** concrete cases: a Chimera graph with missing qubits and couplers that are none of the lattice *)
Example C77_chimera_case : good_graph (nqubits 2 2 2) [0; 1; 2; 4; 6; 8; 10; 12] [(0, 2); (8, 0); (1, 2); (0, 1); (4, 6); (2, 6); (4, 2)] /\ (let! c := topo_init (mkTopo 2 2 2) [0; 1; 2; 4; 6; 8; 10; 12] [(0, 2); (8, 0); (1, 2); (0, 1); (4, 6); (2, 6); (4, 2)] in picture c) =
    Ok ([0; 1; 2; 4; 6; 8; 10; 12], [(0, 2); (1, 2); (4, 6); (6, 2); (8, 0)]).
Proof.
  split; [|vm_compute; reflexivity]. split.
  - intros q Hq. assert (HF : Forall (fun q => q < nqubits 2 2 2) [0; 1; 2; 4; 6; 8; 10; 12]) by (apply (bool_decide_unpack _); by vm_compute).
    by apply (proj1 (Forall_forall _ _) HF).
  - intros p q Hpq. assert (HF : Forall (fun e => e.1 ∈ [0; 1; 2; 4; 6; 8; 10; 12] /\ e.2 ∈ [0; 1; 2; 4; 6; 8; 10; 12]) [(0, 2); (8, 0); (1, 2); (0, 1); (4, 6); (2, 6); (4, 2)]) by (apply (bool_decide_unpack _); by vm_compute).
    exact (proj1 (Forall_forall _ _) HF _ Hpq).
Qed.
(** the Zephyr graph of C65, its picture, and the pictures of the cliques with chains of three qubits *)
Definition zdraw : res (nat * nat * list (list nat) * list (list nat)) :=
  let! c := frag_init (zephyr_spec 2 1) zex_nodes zex_edges in let! p := picture c in
  let! masks := mask_run 5 c 10 (fun _ l => l) (fun _ _ => true) 0 (mkTS 0 (tc_bad c) ([], [])) in
  let! embs := frag_best_cliques (zephyr_yields 2 1) masks (short_clique 4 zex_nodes zex_edges []) in
  let e := default [] (embs !! 3) in
  Ok (length p.1, length p.2, e, draw_chain (zephyr_spec 2 1) <$> e).
Example C78_zephyr_case : lattice_graph (zephyr_total 2 1) (zephyr_coupler 2 1) zex_nodes zex_edges /\ zdraw = Ok (78, 117, [[8; 9; 33]; [10; 11; 34]; [12; 13; 29]; [14; 30; 31]; [4; 24; 25]; [6; 26; 27]],
    [[28; 8; 68; 48; 74; 70]; [49; 29; 89; 69; 71; 67]; [32; 12; 72; 52; 54; 50]; [53; 33; 51; 47; 59; 55];
     [24; 4; 26; 22; 34; 30]; [45; 25; 31; 27; 39; 35]]).
Proof. split; [apply C65_zephyr_case|vm_compute; reflexivity]. Qed.
(** couplers that are not odd exist: along a line, and between the two directions *)
Example C78_straight_case : good_chain zex_nodes [(8, 9); (9, 33)] [8; 9; 33] /\ forall p q, (p, q) ∈ [(8, 9); (9, 33)] -> has_edge zex_edges p q /\ (zephyr_straight 2 1 p q \/ zephyr_straight 2 1 q p).
Proof.
  assert (E1 : has_edge [(8, 9); (9, 33)] 8 9) by (left; set_solver).
  assert (E2 : has_edge [(8, 9); (9, 33)] 9 33) by (left; set_solver).
  assert (E1' : has_edge [(8, 9); (9, 33)] 9 8) by (right; set_solver).
  assert (E2' : has_edge [(8, 9); (9, 33)] 33 9) by (right; set_solver).
  split.
  - split_and!; [done|apply (bool_decide_unpack _); by vm_compute|apply Forall_forall, (bool_decide_unpack _); by vm_compute|].
    assert (G1 : forall p, p ∈ [8; 9; 33] -> rtc (fun a b => a ∈ [8; 9; 33] /\ b ∈ [8; 9; 33] /\ has_edge [(8, 9); (9, 33)] a b) p 9).
    { intros p Hp. repeat (apply elem_of_cons in Hp as [-> |Hp]); [apply rtc_once|done|apply rtc_once|by apply elem_of_nil in Hp]; (split_and!; [set_solver|set_solver|done]). }
    assert (G2 : forall p, p ∈ [8; 9; 33] -> rtc (fun a b => a ∈ [8; 9; 33] /\ b ∈ [8; 9; 33] /\ has_edge [(8, 9); (9, 33)] a b) 9 p).
    { intros p Hp. repeat (apply elem_of_cons in Hp as [-> |Hp]); [apply rtc_once|done|apply rtc_once|by apply elem_of_nil in Hp]; (split_and!; [set_solver|set_solver|done]). }
    intros p q Hp Hq. etrans; [by apply G1|by apply G2].
  - intros p q [[= -> ->]|[[= -> ->]|H%elem_of_nil]%elem_of_cons]%elem_of_cons; [| |done].
    + split; [left; apply (bool_decide_unpack _); by vm_compute|]. left. split; [apply (zc_external 2 1 false 2 0 0 0); lia|].
      intros (u & w & k & z & z' & Hw & Hk & Hz & Hz' & H1 & H2). unfold zephyr_number in *. destruct u; cbn in H1, H2; lia.
    + split; [left; apply (bool_decide_unpack _); by vm_compute|]. left. split; [apply (zc_internal 2 1 2 0 0 1 3 0 0 1); unfold zephyr_covers; lia|].
      intros (u & w & k & z & z' & Hw & Hk & Hz & Hz' & H1 & H2). unfold zephyr_number in *. destruct u; cbn in H1, H2; lia.
Qed.
(** the Pegasus graph of C65 *)
Definition pdraw : res (nat * nat * list nat) :=
  let! c := frag_init (pegasus_spec 2 pex_off) pex_nodes pex_edges in let! p := picture c in
  Ok (length p.1, length p.2, draw_chain (pegasus_spec 2 pex_off) [3]).
Example C78_pegasus_case : lattice_graph (pegasus_total 2) (pegasus_coupler 2 pex_off) pex_nodes pex_edges /\ (forall u i, i < 6 -> pex_off u i <= 6) /\ pdraw = Ok (282, 374, [293; 245; 197; 149; 101; 53]).
Proof. destruct C65_pegasus_case as (H1 & H2 & _). split; [exact H1|]. split; [exact H2|]. vm_compute. reflexivity. Qed.
