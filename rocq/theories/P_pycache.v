(** Property theorems about the clique and biclique caches of busclique.pyx: C45, C46, C50-C54. *)
From stdpp Require Import base list list_numbers numbers gmap.
From Verif Require Import Base BusModel CliqueModel SmallModel BicliqueModel SpecBus SpecCache PyCacheModel PyCacheProofs1 PyCacheProofs2 PyCacheProofs3 PyCacheTop P_bus.

(** C45: the index maps each size to the first embedding (the shortest chain length) that has at
    least that many chains, and holds every size up to the largest *)
Theorem C45_size_index : forall embs n,
  match cc_size (make_clique_cache embs) !! n with
  | Some l => exists emb, embs !! l = Some emb /\ n <= length emb /\
                forall l' emb', l' < l -> embs !! l' = Some emb' -> length emb' < n
  | None => forall emb, emb ∈ embs -> length emb < n
  end.
Proof. exact size_index. Qed.
Print Assumptions C45_size_index.
(** sizes that do not grow with the chain length *)
Example C45_case : let c := make_clique_cache [[]; [[0]; [3]]; [[8; 10]]; [[0; 8; 3]; [12; 10; 14]; [13; 11; 15]; [1; 9; 2]]] in
  (fun i => cc_size c !! i) <$> seq 0 6 = [Some 0; Some 1; Some 1; Some 3; Some 3; None].
Proof. by vm_compute. Qed.

(** C45: requests to the cache of a Chimera graph, whatever is missing in it and whatever the
    random generator does: the answer is a clique on the requested labels, and no collected embedding
    with shorter chains has as many chains; there is no answer only if no embedding is big enough *)
Theorem C45_requests : forall t nodes edges bound shuf coin,
  shore t <= 8 -> good_graph (nqubits (dim_y t) (dim_x t) (shore t)) nodes edges -> (forall p q, (p, q) ∈ edges -> p <> q) ->
  (forall i l, shuf i l ≡ₚ l) -> (1 <= bound)%N -> 1 <= dim_y t -> 1 <= dim_x t ->
  exists c, topo_init t nodes edges = Ok c /\ forall bad, bad ≡ₚ tc_bad c -> exists n, forall fuel, n <= fuel ->
  exists masks embs, mask_run fuel c bound shuf coin 0 (mkTS 0 bad ([], [])) = Ok masks /\
    best_cliques t masks (short_clique 2 nodes edges []) = Ok embs /\
    reached (clique_embedding nodes edges) (make_clique_cache embs) /\
    forall nn, let l := (num_nodes nn 0).2 in exists r, find_clique_embedding (make_clique_cache embs) nn = Ok r /\
      ((exists len, clique_answer nodes edges l r /\ (forall ch, ch ∈ chains_of r -> length ch = len) /\
          forall i emb, i < len -> embs !! i = Some emb -> length emb < length l) \/
       (r = [] /\ forall emb, emb ∈ embs -> length emb < length l)).
Proof. exact chimera_requests. Qed.
Print Assumptions C45_requests.
(** the graph of C39 *)
Definition ex_cliques : res (list (list (list nat))) :=
  let! c := topo_init ex_topo ex_nodes ex_edges in
  let! masks := mask_run 5 c 10 (fun _ l => l) (fun _ _ => true) 0 (mkTS 0 (tc_bad c) ([], [])) in
  best_cliques ex_topo masks (short_clique 2 ex_nodes ex_edges []).
Example C45_requests_case : (let! embs := ex_cliques in
  let! a := find_clique_embedding (make_clique_cache embs) (Names [20; 30; 10]) in
  let! b := find_clique_embedding (make_clique_cache embs) (Count 1) in
  let! c := find_clique_embedding (make_clique_cache embs) (Count 4) in Ok (a, b, c)) =
  Ok ([(20, [0; 8; 3]); (30, [12; 10; 14]); (10, [13; 11; 15])], [(0, [0])], []).
Proof. by vm_compute. Qed.

(** C50: however a cache came about (computed, direct or ordinary insertions of cliques, merges),
    the operations succeed, a request is answered by a clique on its labels or not at all, and
    [largest_clique] is a clique at least as large as any answer *)
Theorem C50_history : forall nodes edges c, reached (clique_embedding nodes edges) c ->
  (forall nn, exists r, find_clique_embedding c nn = Ok r /\ (r = [] \/ clique_answer nodes edges (num_nodes nn 0).2 r)) /\
  (exists r, largest_clique c = Ok r /\ clique_answer nodes edges (seq 0 (length r)) r /\
     forall nn r', find_clique_embedding c nn = Ok r' -> length r' <= length r) /\
  (forall e q d, reached (clique_embedding nodes edges) d -> (exists c', insert_direct c e = Ok c') /\
     (exists c', insert_merge q c e = Ok c') /\ (exists c', merge_clique_cache q c d = Ok c')).
Proof.
  intros nodes edges c H. exact (conj (fun nn => history_answers nodes edges c nn H) (conj (history_largest nodes edges c H)
    (fun e q d Hd => reached_ops _ (clique_submseteq nodes edges) c e q d H Hd))).
Qed.
Print Assumptions C50_history.

(** a history: the cache of the example, a direct insertion, then an ordinary one *)
Definition ex_history : res ccache :=
  let! embs := ex_cliques in
  let! c := insert_direct (make_clique_cache embs) [[12; 10; 14]; [8]] in
  insert_merge None c [[0; 8; 3]; [1; 9; 11]; [13; 12; 10; 14]].
Example C50_case : (let! c := ex_history in
  let! a := find_clique_embedding c (Count 2) in let! b := find_clique_embedding c (Count 3) in let! d := largest_clique c in
  Ok (a, b, length d)) = Ok ([(0, [8]); (1, [12; 10; 14])], [(0, [0; 8; 3]); (1, [12; 10; 14]); (2, [13; 11; 15])], 3).
Proof. by vm_compute. Qed.

(** C51: after a merge a request is answered exactly if one of the two caches answered it; the
    answer is one of theirs, with the smaller longest chain (or the greater value of the caller's
    quality function), our own in a draw *)
Theorem C51_merge_best : forall nodes edges q own other nn,
  reached (clique_embedding nodes edges) own -> reached (clique_embedding nodes edges) other -> (num_nodes nn 0).2 <> [] ->
  exists c r r1 r0, merge_clique_cache q own other = Ok c /\ find_clique_embedding c nn = Ok r /\
    find_clique_embedding own nn = Ok r1 /\ find_clique_embedding other nn = Ok r0 /\
    (r = r1 \/ r = r0) /\ (r = [] <-> r1 = [] /\ r0 = []) /\
    let better a b := match q with None => longest a <= longest b | Some f => (f (chains_of b) <= f (chains_of a))%Z end in
    (r1 <> [] -> better r r1) /\ (r0 <> [] -> better r r0) /\ (r1 <> [] -> better r1 r -> r = r1).
Proof. exact merged. Qed.
Print Assumptions C51_merge_best.
(** C51: after the insertion of [e], requests up to its size are answered with chains no longer
    than before, and no longer than in any selection of that many chains of [e] *)
Theorem C51_insert_best : forall nodes edges c e nn, reached (clique_embedding nodes edges) c -> (num_nodes nn 0).2 <> [] ->
  exists c' r r1, insert_merge None c e = Ok c' /\ find_clique_embedding c' nn = Ok r /\ find_clique_embedding c nn = Ok r1 /\
    (r = [] <-> r1 = [] /\ length e < length (num_nodes nn 0).2) /\
    (r1 <> [] -> longest r <= longest r1) /\
    (forall s, s ⊆+ e -> length s = length (num_nodes nn 0).2 -> longest r <= max_list (length <$> s)) /\
    (r1 <> [] -> longest r1 <= longest r -> r = r1).
Proof. exact inserted. Qed.
Print Assumptions C51_insert_best.

(** C52 does not hold: on a 2 x 2 Chimera graph of which one cell is left, the cache has a K_2 with
    chains of length 2 and answers nothing for a chain length up to 3.  After a direct insertion the
    request raises an exception. *)
Theorem C52_by_chainlength_refuted :
  (exists t nodes edges c masks embs r, shore t <= 8 /\ good_graph (nqubits (dim_y t) (dim_x t) (shore t)) nodes edges /\
     topo_init t nodes edges = Ok c /\ mask_run 5 c 64 (fun _ l => l) (fun _ _ => true) 0 (mkTS 0 (tc_bad c) ([], [])) = Ok masks /\
     best_cliques t masks (short_clique 2 nodes edges []) = Ok embs /\
     largest_clique_by_chainlength (make_clique_cache embs) 2 = Ok r /\ length r = 2 /\
     largest_clique_by_chainlength (make_clique_cache embs) 3 = Ok []) /\
  (exists nodes edges c, reached (clique_embedding nodes edges) c /\ largest_clique c = Ok [(0, [0; 1])] /\
     largest_clique_by_chainlength c 1 = Err BadInit).
Proof.
  split.
  - exists (mkTopo 2 2 2), [0; 1; 2; 3], [(0, 2); (0, 3); (1, 2); (1, 3)]. eexists _, _, _, _.
    split; [vm_compute; lia|]. split.
    { split.
      - assert (H : Forall (fun q => q < 16) [0; 1; 2; 3]) by (apply (bool_decide_unpack _); by vm_compute). rewrite Forall_forall in H. exact H.
      - assert (H : Forall (fun e => e.1 ∈ [0; 1; 2; 3] /\ e.2 ∈ [0; 1; 2; 3]) [(0, 2); (0, 3); (1, 2); (1, 3)]) by (apply (bool_decide_unpack _); by vm_compute).
        rewrite Forall_forall in H. intros p q Hpq. exact (H _ Hpq). }
    split; [vm_compute; reflexivity|]. split; [vm_compute; reflexivity|]. split; [vm_compute; reflexivity|]. split; [vm_compute; reflexivity|]. split; vm_compute; reflexivity.
  - exists [0; 1], [(0, 1)]. eexists. split; [|split].
    + eapply (r_direct _ cc_blank [[0; 1]]); [constructor| |vm_compute; reflexivity].
      split.
      * intros c ->%elem_of_list_singleton. split; [done|]. split; [apply (bool_decide_unpack _); by vm_compute|]. split; [done|].
        intros p q Hp Hq. assert (He : has_edge [(0, 1)] 0 1) by (left; by left). assert (He' : has_edge [(0, 1)] 1 0) by (right; by left).
        apply elem_of_cons in Hp as [->|Hp%elem_of_list_singleton]; apply elem_of_cons in Hq as [->|Hq%elem_of_list_singleton]; subst;
          try reflexivity; apply relations.rtc_once; (split; [set_solver|]); (split; [set_solver|]); done.
      * intros i j c d Hij Hi Hj. apply list_lookup_singleton_Some in Hi as [Hi _], Hj as [Hj _]. lia.
    + by vm_compute.
    + by vm_compute.
Qed.
Print Assumptions C52_by_chainlength_refuted.
(** C52, what does hold: an answer is a clique whose chains are within the length, and in a cache
    just computed it is the embedding collected for that length.  Missing: that it is a largest one,
    and that there is an answer. *)
Theorem C52_by_chainlength_partial :
  (forall nodes edges c n r, reached (clique_embedding nodes edges) c -> largest_clique_by_chainlength c n = Ok r ->
     clique_answer nodes edges (seq 0 (length r)) r /\ longest r <= n) /\
  (forall embs n e, 0 < n -> embs !! n = Some e -> exists r, largest_clique_by_chainlength (make_clique_cache embs) n = Ok r /\ chains_of r = e).
Proof.
  split; [exact by_chainlength|]. intros embs n e Hn He. eexists. split; [exact (by_chainlength_fresh embs n e Hn He)|].
  unfold chains_of, enumerated. apply list_eq. intros i. rewrite list_lookup_fmap, list_lookup_imap. by destruct (e !! i).
Qed.
Print Assumptions C52_by_chainlength_partial.

(** C53: exporting sparse and importing into an empty cache gives the same answers to all requests *)
Theorem C53_sparse_roundtrip : forall nodes edges c, reached (clique_embedding nodes edges) c ->
  exists l c', export_sparse c = Ok l /\ import_embs cc_blank l.*2 = Ok c' /\ forall nn, find_clique_embedding c' nn = find_clique_embedding c nn.
Proof. exact sparse_same. Qed.
Print Assumptions C53_sparse_roundtrip.
(** C53 does not hold for the dense export (the default): the largest size [m] is always lost *)
Theorem C53_dense_refuted : forall nodes edges c, reached (clique_embedding nodes edges) c -> forall r, largest_clique c = Ok r -> r <> [] ->
  exists l c' m, export_dense c = Ok l /\ import_embs cc_blank l = Ok c' /\
    (forall nn, length (num_nodes nn 0).2 < m -> find_clique_embedding c' nn = find_clique_embedding c nn) /\
    (forall nn, length (num_nodes nn 0).2 = m -> find_clique_embedding c' nn = Ok [] /\ exists r, find_clique_embedding c nn = Ok r /\ (1 <= m -> r <> [])) /\
    (forall nn r, m < length (num_nodes nn 0).2 -> find_clique_embedding c nn = Ok r -> r = []).
Proof. exact dense_loses. Qed.
Print Assumptions C53_dense_refuted.
Example C53_case : (let! embs := ex_cliques in let c := make_clique_cache embs in
  let! s := export_sparse c in let! d := export_dense c in
  let! c1 := import_embs cc_blank s.*2 in let! c2 := import_embs cc_blank d in
  let! a := find_clique_embedding c1 (Count 3) in let! b := find_clique_embedding c2 (Count 2) in let! e := find_clique_embedding c2 (Count 3) in
  Ok (length s, length d, a, b, e)) =
  Ok (4, 3, [(0, [0; 8; 3]); (1, [12; 10; 14]); (2, [13; 11; 15])], [(0, [0]); (1, [3])], []).
Proof. by vm_compute. Qed.

(** C46, what does hold, for every Chimera graph: a request with sides [N] and [M] (not both
    empty) is answered by a biclique on these labels exactly if some collected biclique has both
    sides at least as large as the larger of the two; in particular an answer is always right.
    Missing: requests whose larger side fits only one side of the collected bicliques. *)
Theorem C46_lookup_partial : forall t nodes edges bound shuf coin,
  shore t <= 8 -> good_graph (nqubits (dim_y t) (dim_x t) (shore t)) nodes edges ->
  (forall i l, shuf i l ≡ₚ l) -> (1 <= bound)%N -> 1 <= dim_y t -> 1 <= dim_x t ->
  exists c, topo_init t nodes edges = Ok c /\ forall bad, bad ≡ₚ tc_bad c -> exists n, forall fuel, n <= fuel ->
  exists masks embs, mask_run fuel c bound shuf coin 0 (mkTS 0 bad ([], [])) = Ok masks /\
    best_bicliques t (chimera_line t) chimera_biclique_length masks = Ok embs /\ forall lst, lst ≡ₚ map_to_list embs ->
    match make_biclique_cache lst with
    | Err e => e = BadInit /\ embs = ∅
    | Ok bc =>
      (forall nn mm, let N := (num_nodes nn 0).2 in let M := (num_nodes mm (length N)).2 in 1 <= length N `max` length M ->
         exists r, find_biclique_embedding bc nn mm = Ok r /\
           ((biclique_answer nodes edges N M r /\ exists s0 s1, is_Some (embs !! (s0, s1)) /\ length N `max` length M <= s0 `min` s1) \/
            (r = [] /\ forall s0 s1, is_Some (embs !! (s0, s1)) -> s0 `min` s1 < length N `max` length M))) /\
      (** C54: [largest_balanced_biclique] *)
      (exists r k, largest_balanced_biclique bc = Ok r /\ biclique_answer nodes edges (seq 0 k) (seq k k) r /\
         forall s0 s1, is_Some (embs !! (s0, s1)) -> s0 `min` s1 <= k)
    end.
Proof. exact chimera_bicliques. Qed.
Print Assumptions C46_lookup_partial.

Definition ex_bicliques : res (list (nat * nat * list (list nat))) :=
  let! c := topo_init ex_topo ex_nodes ex_edges in
  let! masks := mask_run 5 c 10 (fun _ l => l) (fun _ _ => true) 0 (mkTS 0 (tc_bad c) ([], [])) in
  let! embs := best_bicliques ex_topo (chimera_line ex_topo) chimera_biclique_length masks in Ok (map_to_list embs).
(** C46 does not hold: on the graph of C39 a K_{1,4} and a K_{2,4} are in the cache, but a request
    for K_{1,4} is not answered; and on a graph without couplers the cache raises an exception *)
Theorem C46_lookup_refuted :
  (exists embs bc, ex_bicliques = Ok embs /\ make_biclique_cache embs = Ok bc /\
     (1, 4, [[1; 9]; [2]; [3]; [10]; [11]]) ∈ embs /\ find_biclique_embedding bc (Count 1) (Count 4) = Ok [] /\
     find_biclique_embedding bc (Count 4) (Count 1) = Ok []) /\
  (exists t nodes c masks embs, good_graph (nqubits (dim_y t) (dim_x t) (shore t)) nodes [] /\ topo_init t nodes [] = Ok c /\
     mask_run 5 c 64 (fun _ l => l) (fun _ _ => true) 0 (mkTS 0 (tc_bad c) ([], [])) = Ok masks /\
     best_bicliques t (chimera_line t) chimera_biclique_length masks = Ok embs /\ make_biclique_cache (map_to_list embs) = Err BadInit).
Proof.
  split.
  - eexists _, _. split; [vm_compute; reflexivity|]. split; [vm_compute; reflexivity|]. split; [apply (bool_decide_unpack _); by vm_compute|]. by vm_compute.
  - exists (mkTopo 1 1 2), [0]. eexists _, _, _. split; [|split; [vm_compute; reflexivity|split; [vm_compute; reflexivity|split; [vm_compute; reflexivity|by vm_compute]]]].
    split; [intros q ->%elem_of_list_singleton; vm_compute; lia|]. intros p q H. by apply elem_of_nil in H.
Qed.
Print Assumptions C46_lookup_refuted.
Example C46_case : (let! embs := ex_bicliques in let! bc := make_biclique_cache embs in
  let! a := find_biclique_embedding bc (Names [7; 8; 9]) (Count 2) in let! b := largest_balanced_biclique bc in Ok (a, length b)) =
  Ok ([(3, [3; 7]); (4, [10; 14]); (7, [0; 8]); (8, [1; 9]); (9, [4; 12])], 6).
Proof. by vm_compute. Qed.

(** C54: the largest balanced biclique of a Chimera graph: valid, and no collected biclique has a
    larger smaller side *)
Theorem C54_largest_balanced : forall t nodes edges bound shuf coin,
  shore t <= 8 -> good_graph (nqubits (dim_y t) (dim_x t) (shore t)) nodes edges ->
  (forall i l, shuf i l ≡ₚ l) -> (1 <= bound)%N -> 1 <= dim_y t -> 1 <= dim_x t ->
  exists c, topo_init t nodes edges = Ok c /\ forall bad, bad ≡ₚ tc_bad c -> exists n, forall fuel, n <= fuel ->
  exists masks embs, mask_run fuel c bound shuf coin 0 (mkTS 0 bad ([], [])) = Ok masks /\
    best_bicliques t (chimera_line t) chimera_biclique_length masks = Ok embs /\ forall lst bc, lst ≡ₚ map_to_list embs -> make_biclique_cache lst = Ok bc ->
    exists r k, largest_balanced_biclique bc = Ok r /\ biclique_answer nodes edges (seq 0 k) (seq k k) r /\
      forall s0 s1, is_Some (embs !! (s0, s1)) -> s0 `min` s1 <= k.
Proof.
  intros t nodes edges bound shuf coin H1 H2 H4 H5 H6 H7. destruct (chimera_bicliques t nodes edges bound shuf coin H1 H2 H4 H5 H6 H7) as (c & Hc & H). exists c. split; [exact Hc|].
  intros bad Hbad. destruct (H bad Hbad) as (n & Hn). exists n. intros fuel Hfuel. destruct (Hn fuel Hfuel) as (masks & embs & Hm & He & Hv).
  exists masks, embs. split; [exact Hm|]. split; [exact He|]. intros lst bc Hl Hb. specialize (Hv lst Hl). rewrite Hb in Hv. exact (proj2 Hv).
Qed.
Print Assumptions C54_largest_balanced.
