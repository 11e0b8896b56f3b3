(** Property theorems about bicliques on Pegasus and Zephyr: C67. *)
From stdpp Require Import base list numbers gmap.
From Verif Require Import Base BusModel BicliqueModel FragModel FragBicliqueModel SpecBus SpecFrag FragBiclique P_frag.

(** C67: what [best_bicliques] collects on a Zephyr graph with any qubits and couplers missing, whatever
    the random generator does: at the key (s0, s1) there is an embedding of the complete bipartite graph
    with sides s0 and s1; and if no coupler between a vertical and a horizontal qubit is missing, every
    size that some rectangle of positions offers is a key. *)
Theorem C67_zephyr_bicliques : forall m t nodes edges bound shuf coin, t <= 4 ->
  lattice_graph (zephyr_total m t) (zephyr_coupler m t) nodes edges -> (forall i l, shuf i l ≡ₚ l) -> (1 <= bound)%N ->
  exists c, frag_init (zephyr_spec m t) nodes edges = Ok c /\ forall bad, bad ≡ₚ tc_bad c -> exists n, forall fuel, n <= fuel ->
  exists masks embs, mask_run fuel c bound shuf coin 0 (mkTS 0 bad ([], [])) = Ok masks /\
    zephyr_bicliques m t masks = Ok embs /\
    (forall s0 s1 emb, embs !! (s0, s1) = Some emb -> 1 <= s0 /\ 1 <= s1 /\ biclique_embedding nodes edges s0 s1 emb) /\
    (zephyr_crossed m t nodes edges -> forall y0 y1 x0 x1 s0 s1, y0 <= y1 < 2 * m + 1 -> x0 <= x1 < 2 * m + 1 ->
       rectangle_wires (2 * t) (zephyr_wire m t nodes edges) y0 y1 x0 x1 s0 s1 -> 1 <= s0 -> 1 <= s1 -> exists emb, embs !! (s0, s1) = Some emb).
Proof. exact zephyr_bicliques_top. Qed.
Print Assumptions C67_zephyr_bicliques.

(** the same on Pegasus *)
Theorem C67_pegasus_bicliques : forall m off nodes edges bound shuf coin, 1 <= m -> (forall u i, i < 6 -> off u i <= 6) ->
  lattice_graph (pegasus_total m) (pegasus_coupler m off) nodes edges -> (forall i l, shuf i l ≡ₚ l) -> (1 <= bound)%N ->
  exists c, frag_init (pegasus_spec m off) nodes edges = Ok c /\ forall bad, bad ≡ₚ tc_bad c -> exists n, forall fuel, n <= fuel ->
  exists masks embs, mask_run fuel c bound shuf coin 0 (mkTS 0 bad ([], [])) = Ok masks /\
    pegasus_bicliques m off masks = Ok embs /\
    (forall s0 s1 emb, embs !! (s0, s1) = Some emb -> 1 <= s0 /\ 1 <= s1 /\ biclique_embedding nodes edges s0 s1 emb) /\
    (pegasus_crossed m off nodes edges -> forall y0 y1 x0 x1 s0 s1, y0 <= y1 < 6 * m -> x0 <= x1 < 6 * m ->
       rectangle_wires 2 (pegasus_wire m off nodes edges) y0 y1 x0 x1 s0 s1 -> 1 <= s0 -> 1 <= s1 -> exists emb, embs !! (s0, s1) = Some emb).
Proof. exact pegasus_bicliques_top. Qed.
Print Assumptions C67_pegasus_bicliques.

(** the Zephyr graph of C65; [C65_pegasus_case] shows that the hypotheses for Pegasus are met *)
Definition zbi : res (nat * option (list (list nat)) * nat) :=
  let! c := frag_init (zephyr_spec 2 1) zex_nodes zex_edges in
  let! masks := mask_run 5 c 10 (fun _ l => l) (fun _ _ => true) 0 (mkTS 0 (tc_bad c) ([], [])) in
  let! embs := zephyr_bicliques 2 1 masks in Ok (length masks, embs !! (4, 4), size embs).
Example C67_zephyr_case : lattice_graph (zephyr_total 2 1) (zephyr_coupler 2 1) zex_nodes zex_edges /\
  zbi = Ok (2, Some [[8; 9]; [10]; [12; 13]; [14]; [25]; [26; 27]; [29]; [30; 31]], 35).
Proof. split; [apply C65_zephyr_case|vm_compute; reflexivity]. Qed.
(** the whole Zephyr 1, 1: the cell in the middle offers two wires each way *)
Example C67_rectangle_case : zephyr_crossed 1 1 (seq 0 12) (zephyr_edges 1 1) /\ rectangle_wires 2 (zephyr_wire 1 1 (seq 0 12) (zephyr_edges 1 1)) 1 1 1 1 2 2.
Proof.
  destruct C66_case as (H1 & _ & l & HF & _). split; [exact H1|].
  inversion HF as [|? ? ? ? (a & b & (la & Na & Ea & Ha) & (lb & Nb & Eb & Hb) & _) _]; subst. cbn [e_col e_row e_top e_bot e_left e_right] in *.
  assert (G : forall u (la : list nat), NoDup la -> (forall k, k ∈ la <-> k < 2 /\ zephyr_wire 1 1 (seq 0 12) (zephyr_edges 1 1) u 1 k 1 1) ->
    wires_offer 2 (zephyr_wire 1 1 (seq 0 12) (zephyr_edges 1 1)) u 1 1 1 1 (length la)).
  { intros u ks N H. exists ((fun k => (1, k)) <$> ks). split_and!.
    - apply NoDup_fmap_2; [intros ? ? [=]; done|done].
    - by rewrite fmap_length.
    - intros w k. rewrite elem_of_list_fmap. split.
      + intros (k' & [= -> ->] & Hk). apply H in Hk. split; [lia|done].
      + intros (Hw & Hk). exists k. assert (w = 1) as -> by lia. split; [done|]. by apply H. }
  assert (L : forall u (la : list nat), NoDup la -> (forall k, k ∈ la <-> k < 2 /\ zephyr_wire 1 1 (seq 0 12) (zephyr_edges 1 1) u 1 k 1 1) -> length la = 2).
  { intros u ks N H. apply (Permutation_length (l' := [0; 1])), NoDup_Permutation; [done|apply NoDup_ListNoDup; repeat constructor; set_solver|].
    intros k. rewrite H. split.
    - intros [Hk _]. change [0; 1] with (seq 0 2). apply elem_of_seq. lia.
    - intros Hk. assert (k < 2) by (change [0; 1] with (seq 0 2) in Hk; apply elem_of_seq in Hk; lia). split; [done|]. split; [|intros; lia].
      intros pos Hp. assert (pos = 1) as -> by lia. exists 0. unfold zephyr_covers. destruct k as [|[|k]]; [| |lia].
      + split_and!; [lia|right; done|]. apply elem_of_seq. destruct u; cbn; lia.
      + split_and!; [lia|left; done|]. apply elem_of_seq. destruct u; cbn; lia. }
  split.
  - pose proof (G false la Na Ha) as X. rewrite (L false la Na Ha) in X. exact X.
  - pose proof (G true lb Nb Hb) as X. rewrite (L true lb Nb Hb) in X. exact X.
Qed.
