(** Clique embeddings in Pegasus and Zephyr graphs (C65, C66). *)
From stdpp Require Import base list list_numbers numbers gmap relations.
From Verif Require Import Base BusModel CliqueModel SmallModel FragModel SpecBus SpecFrag FragTop.

(** [table_ok nodes edges embs]: every entry of the table is a clique embedding in the graph, the chains
    of entry [i] have at most [i] qubits, and one of them has [i] qubits if there are any *)
Example table_ok_meaning nodes edges embs : table_ok nodes edges embs <->
  forall i emb, embs !! i = Some emb -> clique_embedding nodes edges emb /\ (forall ch, ch ∈ emb -> 1 <= length ch <= i) /\
    (emb = [] \/ exists ch, ch ∈ emb /\ length ch = i).
Proof. done. Qed.

(** C65, Zephyr: for every graph with any missing qubits and couplers, every bound on the number of masks
    and every random choice, building the tables ends without undefined behaviour and without the
    "corrupt" exception, and every entry of the result is a valid clique embedding.
    C66: if no coupler between directions is missing, the table has an entry with as many chains as
    any peeling of the grid offers. *)
Theorem C65_zephyr_cliques : forall m t nodes edges bound shuf coin,
  t <= 4 -> lattice_graph (zephyr_total m t) (zephyr_coupler m t) nodes edges -> (forall i l, shuf i l ≡ₚ l) -> (1 <= bound)%N ->
  exists c, frag_init (zephyr_spec m t) nodes edges = Ok c /\ forall bad, bad ≡ₚ tc_bad c -> exists n, forall fuel, n <= fuel ->
  exists masks embs, mask_run fuel c bound shuf coin 0 (mkTS 0 bad ([], [])) = Ok masks /\
    frag_best_cliques (zephyr_yields m t) masks (short_clique 4 nodes edges []) = Ok embs /\ length embs = 4 + m /\ table_ok nodes edges embs /\
    (zephyr_crossed m t nodes edges -> forall w L k, 1 <= w <= 2 * m + 1 -> peeling (2 * m + 1) (2 * m + 1) w L ->
       ells_offer (2 * t) (zephyr_wire m t nodes edges) L k -> k = 0 \/ exists i emb, embs !! i = Some emb /\ k <= length emb).
Proof. exact zephyr_cliques_top. Qed.
Print Assumptions C65_zephyr_cliques.

Theorem C65_pegasus_cliques : forall m off nodes edges bound shuf coin,
  1 <= m -> (forall u i, i < 6 -> off u i <= 6) -> lattice_graph (pegasus_total m) (pegasus_coupler m off) nodes edges ->
  (forall i l, shuf i l ≡ₚ l) -> (1 <= bound)%N ->
  exists c, frag_init (pegasus_spec m off) nodes edges = Ok c /\ forall bad, bad ≡ₚ tc_bad c -> exists n, forall fuel, n <= fuel ->
  exists masks embs, mask_run fuel c bound shuf coin 0 (mkTS 0 bad ([], [])) = Ok masks /\
    frag_best_cliques (pegasus_yields m off) masks (short_clique 4 nodes edges []) = Ok embs /\ length embs = 5 + m /\ table_ok nodes edges embs /\
    (pegasus_crossed m off nodes edges -> forall w L k, 2 <= w <= 6 * m -> peeling (6 * m) (6 * m) w L ->
       ells_offer 2 (pegasus_wire m off nodes edges) L k -> k = 0 \/ exists i emb, embs !! i = Some emb /\ k <= length emb).
Proof. exact pegasus_cliques_top. Qed.
Print Assumptions C65_pegasus_cliques.

(** C66: the search for a clique of a given size, for sizes above one cell (Zephyr) or above two
    (Pegasus) *)
Theorem C66_zephyr_find_partial : forall m t nodes edges bound shuf coin size fuel0,
  1 <= t <= 4 -> 2 * t < size -> lattice_graph (zephyr_total m t) (zephyr_coupler m t) nodes edges ->
  (forall i l, shuf i l ≡ₚ l) -> (1 <= bound)%N ->
  exists c, frag_init (zephyr_spec m t) nodes edges = Ok c /\ forall bad, bad ≡ₚ tc_bad c -> exists n, forall fuel, n <= fuel ->
  exists masks b emb, mask_run fuel c bound shuf coin 0 (mkTS 0 bad ([], [])) = Ok masks /\
    frag_find_clique (zephyr_find_nice fuel0 m t) masks size [] = Ok (b, emb) /\
    if b : bool then clique_embedding nodes edges emb /\ size <= length emb
    else emb = [] /\ (zephyr_crossed m t nodes edges -> forall w L k, w <= 2 * m + 1 -> peeling (2 * m + 1) (2 * m + 1) w L ->
       ells_offer (2 * t) (zephyr_wire m t nodes edges) L k -> k < size).
Proof. exact zephyr_find_top. Qed.
Print Assumptions C66_zephyr_find_partial.

Theorem C66_pegasus_find_partial : forall m off nodes edges bound shuf coin size,
  1 <= m -> (forall u i, i < 6 -> off u i <= 6) -> 3 <= size -> lattice_graph (pegasus_total m) (pegasus_coupler m off) nodes edges ->
  (forall i l, shuf i l ≡ₚ l) -> (1 <= bound)%N ->
  exists c, frag_init (pegasus_spec m off) nodes edges = Ok c /\ forall bad, bad ≡ₚ tc_bad c -> exists n, forall fuel, n <= fuel ->
  exists masks b emb, mask_run fuel c bound shuf coin 0 (mkTS 0 bad ([], [])) = Ok masks /\
    frag_find_clique (pegasus_find_nice m off) masks size [] = Ok (b, emb) /\
    if b : bool then clique_embedding nodes edges emb /\ size <= length emb
    else emb = [] /\ (pegasus_crossed m off nodes edges -> forall w L k, w <= 6 * m -> peeling (6 * m) (6 * m) w L ->
       ells_offer 2 (pegasus_wire m off nodes edges) L k -> k < size).
Proof. exact pegasus_find_top. Qed.
Print Assumptions C66_pegasus_find_partial.

(** C66 is false for two chains: on a Pegasus graph with one qubit there is no clique of two single
    qubits, so the caller asks for a clique of two chains, the search starts with width 1 and writes
    outside its table (busclique.pyx 1000-1012 calls [find_clique] when the small cliques are too small) *)
Definition one_off (u : bool) (i : nat) : nat := 1.
Theorem C66_two_chains_refuted : exists m off nodes edges c masks,
  1 <= m /\ (forall u i, off u i <= 6) /\ lattice_graph (pegasus_total m) (pegasus_coupler m off) nodes edges /\
  length (short_clique 4 nodes edges []) < 2 /\
  frag_init (pegasus_spec m off) nodes edges = Ok c /\
  mask_run 5 c 10 (fun _ l => l) (fun _ _ => true) 0 (mkTS 0 (tc_bad c) ([], [])) = Ok masks /\
  frag_find_clique (pegasus_find_nice m off) masks 2 [] = Err UB.
Proof.
  assert (G : lattice_graph (pegasus_total 2) (pegasus_coupler 2 one_off) [0] []).
  { split; [|by intros p q ?%elem_of_nil]. intros q ->%elem_of_list_singleton. unfold pegasus_total. lia. }
  assert (E : exists c masks, frag_init (pegasus_spec 2 one_off) [0] [] = Ok c /\
    mask_run 5 c 10 (fun _ l => l) (fun _ _ => true) 0 (mkTS 0 (tc_bad c) ([], [])) = Ok masks /\
    frag_find_clique (pegasus_find_nice 2 one_off) masks 2 [] = Err UB).
  { eexists _, _. split; [vm_compute; reflexivity|]. split; [vm_compute; reflexivity|]. vm_compute. reflexivity. }
  destruct E as (c & masks & E1 & E2 & E3). exists 2, one_off, [0], [], c, masks.
  split; [lia|]. split; [intros; unfold one_off; lia|]. split; [exact G|].
  split; [vm_compute; lia|]. split; [exact E1|]. split; [exact E2|exact E3].
Qed.
Print Assumptions C66_two_chains_refuted.

(** ** concrete cases *)
(** every sublist of the lattice is a lattice graph; the whole lattices *)
Definition zephyr_edges (m t : nat) : list (nat * nat) :=
  (u ← [false; true]; w ← seq 0 (2 * m + 1); k ← seq 0 t; j ← seq 0 2; z ← seq 0 (m - 1);
     [(zephyr_number m t u w k j z, zephyr_number m t u w k j (S z))]) ++
  (u ← [false; true]; w ← seq 0 (2 * m + 1); k ← seq 0 t; z ← seq 0 m; z' ← seq 0 m;
     if (z =? z') || (z =? S z') then [(zephyr_number m t u w k 0 z, zephyr_number m t u w k 1 z')] else []) ++
  (w ← seq 0 (2 * m + 1); k ← seq 0 t; j ← seq 0 2; z ← seq 0 m; w' ← seq 0 (2 * m + 1); k' ← seq 0 t; j' ← seq 0 2; z' ← seq 0 m;
     if ((w' =? 2 * z + j) || (w' =? 2 * z + j + 1)) && ((w =? 2 * z' + j') || (w =? 2 * z' + j' + 1))
     then [(zephyr_number m t false w k j z, zephyr_number m t true w' k' j' z')] else []).
Definition pegasus_edges (m : nat) (off : bool -> nat -> nat) : list (nat * nat) :=
  (u ← [false; true]; w ← seq 0 m; k ← seq 0 12; z ← seq 0 (m - 2); [(pegasus_number m u w k z, pegasus_number m u w k (S z))]) ++
  (u ← [false; true]; w ← seq 0 m; k ← seq 0 6; z ← seq 0 (m - 1); [(pegasus_number m u w (2 * k) z, pegasus_number m u w (2 * k + 1) z)]) ++
  (w ← seq 0 m; k ← seq 0 12; z ← seq 0 (m - 1); w' ← seq 0 m; k' ← seq 0 12; z' ← seq 0 (m - 1);
     if ((6 * z + off false (k / 2) <=? 6 * w' + k' / 2) && (6 * w' + k' / 2 <? 6 * z + off false (k / 2) + 6)) &&
        ((6 * z' + off true (k' / 2) <=? 6 * w + k / 2) && (6 * w + k / 2 <? 6 * z' + off true (k' / 2) + 6))
     then [(pegasus_number m false w k z, pegasus_number m true w' k' z')] else []).
Definition touches (q : nat) (e : nat * nat) : bool := (e.1 =? q) || (e.2 =? q).

Ltac binds H := repeat (let x := fresh "x" in let Hx := fresh "Hx" in apply elem_of_list_bind in H as (x & H & Hx); try apply elem_of_seq in Hx).
Lemma zephyr_edges_ok m t p q : (p, q) ∈ zephyr_edges m t -> zephyr_coupler m t p q.
Proof.
  unfold zephyr_edges. rewrite !elem_of_app. intros [H|[H|H]]; binds H.
  - apply elem_of_list_singleton in H. injection H as -> ->. constructor; lia.
  - destruct ((x2 =? x3) || (x2 =? S x3)) eqn:E; [|by apply elem_of_nil in H]. apply elem_of_list_singleton in H. injection H as -> ->.
    apply orb_true_iff in E. rewrite !Nat.eqb_eq in E. constructor; lia.
  - match type of H with _ ∈ (if ?b then _ else _) => destruct b eqn:E; [|by apply elem_of_nil in H] end.
    apply elem_of_list_singleton in H. injection H as -> ->. rewrite andb_true_iff, !orb_true_iff, !Nat.eqb_eq in E. destruct E.
    constructor; try lia; done.
Qed.
Lemma pegasus_edges_ok m off p q : (p, q) ∈ pegasus_edges m off -> pegasus_coupler m off p q.
Proof.
  unfold pegasus_edges. rewrite !elem_of_app. intros [H|[H|H]]; binds H.
  - apply elem_of_list_singleton in H. injection H as -> ->. constructor; lia.
  - apply elem_of_list_singleton in H. injection H as -> ->. constructor; lia.
  - match type of H with _ ∈ (if ?b then _ else _) => destruct b eqn:E; [|by apply elem_of_nil in H] end.
    apply elem_of_list_singleton in H. injection H as -> ->. rewrite !andb_true_iff, !Nat.leb_le, !Nat.ltb_lt in E.
    constructor; try lia; unfold pegasus_covers, pegasus_position; lia.
Qed.
Lemma lattice_graph_sub total (coupler : nat -> nat -> Prop) nodes edges :
  forallb (fun q => q <? total) nodes = true -> forallb (fun e => existsb (Nat.eqb e.1) nodes && existsb (Nat.eqb e.2) nodes) edges = true ->
  (forall p q, (p, q) ∈ edges -> coupler p q) -> lattice_graph total coupler nodes edges.
Proof.
  intros H1 H2 H3. rewrite forallb_forall in H1. rewrite forallb_forall in H2. split.
  - intros q Hq. apply Nat.ltb_lt, H1. by apply elem_of_list_In.
  - intros p q Hpq. specialize (H2 (p, q) ltac:(by apply elem_of_list_In)). cbn [fst snd] in H2. apply andb_true_iff in H2 as [Hp Hq].
    apply existsb_exists in Hp as (p' & Hp & Ep). apply existsb_exists in Hq as (q' & Hq & Eq).
    apply Nat.eqb_eq in Ep. apply Nat.eqb_eq in Eq. subst. split_and!; [by apply elem_of_list_In..|]. left. by apply H3.
Qed.

(** Zephyr 2, 1 (40 qubits): qubit 5 and the coupler (0, 20) are missing, so there are two masks *)
Definition zex_nodes : list nat := List.filter (fun q => negb (q =? 5)) (seq 0 40).
Definition zex_edges : list (nat * nat) :=
  List.filter (fun e => negb (touches 5 e) && negb ((e.1 =? 0) && (e.2 =? 20))) (zephyr_edges 2 1).
Definition zex_run : res (nat * list (list (list nat)) * (bool * list (list nat))) :=
  let! c := frag_init (zephyr_spec 2 1) zex_nodes zex_edges in
  let! masks := mask_run 5 c 10 (fun _ l => l) (fun _ _ => true) 0 (mkTS 0 (tc_bad c) ([], [])) in
  let! embs := frag_best_cliques (zephyr_yields 2 1) masks (short_clique 4 zex_nodes zex_edges []) in
  let! r := frag_find_clique (zephyr_find_nice 0 2 1) masks 6 [] in Ok (length masks, embs, r).
Example C65_zephyr_case : lattice_graph (zephyr_total 2 1) (zephyr_coupler 2 1) zex_nodes zex_edges /\
  zex_run = Ok (2,
    [[]; [[6]; [26]; [24]; [4]]; [[4; 24]; [6; 26]];
     [[8; 9; 33]; [10; 11; 34]; [12; 13; 29]; [14; 30; 31]; [4; 24; 25]; [6; 26; 27]];
     [[6; 7; 36]; [8; 9; 24; 25]; [10; 11; 26]; [13; 28; 29]; [14; 15; 30; 31]; [1; 32; 33]]; []],
    (true, [[8; 9; 33]; [10; 11; 34]; [12; 13; 29]; [14; 30; 31]; [4; 24; 25]; [6; 26; 27]])).
Proof.
  split; [|vm_compute; reflexivity].
  apply lattice_graph_sub; [by vm_compute|by vm_compute|]. intros p q H%elem_of_list_In. unfold zex_edges in H. apply filter_In in H as [H _].
  apply zephyr_edges_ok. by apply elem_of_list_In.
Qed.
(** Pegasus 2 with the usual offsets (48 qubits): qubit 5 and the coupler (12, 28) are missing *)
Definition pex_off (u : bool) (i : nat) : nat := nth i (if u then [3; 3; 1; 1; 5; 5] else [1; 1; 5; 5; 3; 3]) 0.
Definition pex_nodes : list nat := List.filter (fun q => negb (q =? 5)) (seq 0 48).
Definition pex_edges : list (nat * nat) :=
  List.filter (fun e => negb (touches 5 e) && negb ((e.1 =? 12) && (e.2 =? 28))) (pegasus_edges 2 pex_off).
Definition pex_run : res (nat * (bool * list (list nat))) :=
  let! c := frag_init (pegasus_spec 2 pex_off) pex_nodes pex_edges in
  let! masks := mask_run 5 c 10 (fun _ l => l) (fun _ _ => true) 0 (mkTS 0 (tc_bad c) ([], [])) in
  let! r := frag_find_clique (pegasus_find_nice 2 pex_off) masks 10 [] in Ok (length masks, r).
Example C65_pegasus_case : lattice_graph (pegasus_total 2) (pegasus_coupler 2 pex_off) pex_nodes pex_edges /\ (forall u i, i < 6 -> pex_off u i <= 6) /\
  pex_run = Ok (2, (true, [[10; 38]; [11; 39]; [12; 30]; [13; 31]; [14; 32]; [15; 33]; [16; 34]; [17; 35]; [8; 36]; [9; 37]])).
Proof.
  split; [|split; [|vm_compute; reflexivity]].
  - apply lattice_graph_sub; [by vm_compute|by vm_compute|]. intros p q H%elem_of_list_In. unfold pex_edges in H. apply filter_In in H as [H _].
    apply pegasus_edges_ok. by apply elem_of_list_In.
  - intros [|] i Hi; do 6 (destruct i as [|i]; [cbn; lia|]); lia.
Qed.
(** the whole lattice: no coupler between directions is missing, and the cell in the middle offers two chains *)
Example C66_case : let nodes := seq 0 12 in let edges := zephyr_edges 1 1 in
  zephyr_crossed 1 1 nodes edges /\ peeling 3 3 1 [mkEll 1 1 1 1 1 1] /\ ells_offer 2 (zephyr_wire 1 1 nodes edges) [mkEll 1 1 1 1 1 1] 2.
Proof.
  cbv zeta. split_and!.
  - intros w k j z w' k' j' z' Hw Hk Hj Hz Hw' Hk' Hj' Hz' C C' _ _. left. unfold zephyr_edges. rewrite !elem_of_app. right. right.
    repeat match goal with |- _ ∈ seq ?a ?b ≫= _ => apply elem_of_list_bind; eexists; split; [|apply elem_of_seq] end.
    1: instantiate (1 := z'); instantiate (1 := j'); instantiate (1 := k'); instantiate (1 := w'); instantiate (1 := z); instantiate (1 := j);
       instantiate (1 := k); instantiate (1 := w).
    2-9: lia.
    match goal with |- _ ∈ (if ?b then _ else _) => replace b with true; [left|] end.
    symmetry. rewrite andb_true_iff, !orb_true_iff, !Nat.eqb_eq. split; [exact C|exact C'].
  - split_and!; [done| | |].
    + intros e ->%elem_of_list_singleton. unfold ell_in. cbn. lia.
    + intros e [= <-]. cbn. lia.
    + intros [|i] a b Ha Hb; done.
  - exists [2]. split; [|done]. constructor; [|constructor]. exists 2, 2.
    assert (G : forall u, count_of (fun k => k < 2 /\ zephyr_wire 1 1 (seq 0 12) (zephyr_edges 1 1) u 1 k 1 1) 2).
    { intros u. exists [0; 1]. split_and!; [apply NoDup_ListNoDup; repeat constructor; set_solver|done|]. intros k. split.
      - intros Hk. assert (k < 2) by (change [0; 1] with (seq 0 2) in Hk; apply elem_of_seq in Hk; lia). split; [done|]. split; [|intros; lia].
        intros pos Hp. assert (pos = 1) as -> by lia. exists 0. unfold zephyr_covers. destruct k as [|[|k]]; [| |lia].
        + split_and!; [lia|right; done|]. apply elem_of_seq. destruct u; cbn; lia.
        + split_and!; [lia|left; done|]. apply elem_of_seq. destruct u; cbn; lia.
      - intros [Hk _]. change [0; 1] with (seq 0 2). apply elem_of_seq. lia. }
    split_and!; [apply G|apply G|done].
Qed.
