(** Property theorems about minorminer/utils: C68, C69. *)
From stdpp Require Import base list numbers gmap.
From Verif Require Import Base BusModel CliqueModel SmallModel BicliqueModel SpecBus SpecCache SpecUtil PyCacheModel PyCacheProofs3 PyCacheTop UtilModel UtilProofs P_bus P_pycache.

(** C68: [find_grid_embedding] returns an embedding of the grid with chains of two qubits exactly if the
    sizes fit *)
Theorem C68_grid : forall dim m n t, grid_fits dim m n t ->
  exists d, find_grid_embedding dim m n t = Ok d /\ (forall x C, (x, C) ∈ d -> length C = 2) /\
  let '(m, n, t) := lattice_size m n t in
  dict_embedding (grid_point dim) (grid_adj dim) (fun q => q < nqubits (Z.to_nat m) (Z.to_nat n) (Z.to_nat t))
    (chimera_adj (Z.to_nat m) (Z.to_nat n) (Z.to_nat t)) d.
Proof.
  intros dim m n t H. destruct (find_grid_embedding dim m n t) as [d|e] eqn:E.
  - exists d. split; [done|]. destruct (grid_found _ _ _ _ _ E) as [_ H']. destruct (lattice_size m n t) as [[? ?] ?]. destruct H'. done.
  - by apply grid_refused in E.
Qed.
Print Assumptions C68_grid.
Theorem C68_refused : forall dim m n t, ~ grid_fits dim m n t -> exists e, find_grid_embedding dim m n t = Err e.
Proof.
  intros dim m n t H. destruct (find_grid_embedding dim m n t) as [d|e] eqn:E; [|by exists e]. by apply grid_found in E as [? _].
Qed.
Print Assumptions C68_refused.
Example C68_case : grid_fits [2; 1; 2]%Z 3 (Some 2%Z) None /\ find_grid_embedding [2; 1; 2]%Z 3 (Some 2%Z) None =
  Ok [([0; 0; 0], [0; 4]); ([0; 0; 1], [1; 5]); ([1; 0; 0], [16; 20]); ([1; 0; 1], [17; 21])].
Proof.
  split; [|by vm_compute]. unfold grid_fits, lattice_size; cbn. split; [lia|]. split; [lia|]. split; [lia|]. split; [lia|].
  intros [|[|[|i]]] d s; cbn; intros [= <-] [= <-]; lia.
Qed.

(** C69: [find_clique_embedding] of the three modules, on any cache that arises: an embedding on the
    requested labels, or [ValueError] because a label is repeated or the cache has no such clique *)
Theorem C69_clique : forall nodes edges c k, reached (clique_embedding nodes edges) c -> let l := requested k in
  match util_clique c k with
  | Ok d => d.*1 = l /\ clique_dict_on nodes edges l d
  | Err e => e = BadInit /\ (~ NoDup l \/ (l <> [] /\ find_clique_embedding c (Names l) = Ok []))
  end.
Proof. intros nodes edges c k. destruct k; exact (util_clique_ok nodes edges c _). Qed.
Print Assumptions C69_clique.

(** C69: for a Chimera graph, whatever is missing in it: [ValueError] only for a repeated label or if no
    embedding collected is large enough *)
Theorem C69_chimera_clique : forall t nodes edges bound shuf coin,
  shore t <= 8 -> good_graph (nqubits (dim_y t) (dim_x t) (shore t)) nodes edges -> (forall p q, (p, q) ∈ edges -> p <> q) ->
  (forall i l, shuf i l ≡ₚ l) -> (1 <= bound)%N -> 1 <= dim_y t -> 1 <= dim_x t ->
  exists c, topo_init t nodes edges = Ok c /\ forall bad, bad ≡ₚ tc_bad c -> exists n, forall fuel, n <= fuel ->
  exists masks embs, mask_run fuel c bound shuf coin 0 (mkTS 0 bad ([], [])) = Ok masks /\
    best_cliques t masks (short_clique 2 nodes edges []) = Ok embs /\
    forall k, let l := requested k in
      match util_clique (make_clique_cache embs) k with
      | Ok d => d.*1 = l /\ clique_dict_on nodes edges l d
      | Err e => e = BadInit /\ (~ NoDup l \/ forall emb, emb ∈ embs -> length emb < length l)
      end.
Proof.
  intros t nodes edges bound shuf coin H1 H2 H3 H4 H5 H6 H7.
  destruct (C45_requests t nodes edges bound shuf coin H1 H2 H3 H4 H5 H6 H7) as (c & Hc & H). exists c. split; [exact Hc|].
  intros bad Hbad. destruct (H bad Hbad) as (n & Hn). exists n. intros fuel Hfuel. destruct (Hn fuel Hfuel) as (masks & embs & Hm & He & Hr & Hq).
  exists masks, embs. split; [exact Hm|]. split; [exact He|]. intros k l. pose proof (C69_clique nodes edges (make_clique_cache embs) k Hr) as HU. cbv zeta in HU.
  fold l in HU. destruct (util_clique (make_clique_cache embs) k) as [d|e]; [exact HU|]. destruct HU as [-> HU]. split; [reflexivity|].
  destruct HU as [HU|[Hl HU]]; [left; exact HU|]. right. destruct (Hq (Names l)) as (r & Hr' & HH). cbn [num_nodes snd] in HH.
  rewrite HU in Hr'. injection Hr' as <-. destruct HH as [(len & [Hk _] & _)|[_ HH]]; [|exact HH]. exfalso. apply Hl. symmetry. exact Hk.
Qed.
Print Assumptions C69_chimera_clique.
(** the graph of C39: three labels, a repeated label, too many labels *)
Example C69_clique_case : (let! embs := ex_cliques in Ok (util_clique (make_clique_cache embs) (Names [20; 30; 10]),
    util_clique (make_clique_cache embs) (Names [20; 30; 20]), util_clique (make_clique_cache embs) (Count 4))) =
  Ok (Ok [(20, [0; 8; 3]); (30, [12; 10; 14]); (10, [13; 11; 15])], Err BadInit, Err BadInit).
Proof. by vm_compute. Qed.

(** C69: [find_biclique_embedding] of the three modules, on the cache made from any table of bicliques in
    any order (C41 and C67: the tables of all three topologies are such): an embedding on the requested
    labels; [ValueError] because a label is on both sides, or nothing is requested, or no entry has room
    for the larger side on both of its sides *)
Theorem C69_biclique : forall nodes edges (embs : gmap (nat * nat) (list (list nat))) lst c a b,
  (forall s0 s1 e, embs !! (s0, s1) = Some e -> 1 <= s0 /\ 1 <= s1 /\ biclique_embedding nodes edges s0 s1 e) ->
  lst ≡ₚ map_to_list embs -> make_biclique_cache lst = Ok c ->
  let l := requested a in let r := requested_second a b in
  match util_biclique c a b with
  | Ok (dl, dr) => biclique_dicts_on nodes edges l r dl dr
  | Err e => e = BadInit /\ ((exists x, x ∈ l /\ x ∈ r) \/ (l = [] /\ r = []) \/
      forall s0 s1, is_Some (embs !! (s0, s1)) -> s0 `min` s1 < length l `max` length r)
  end.
Proof.
  intros nodes edges embs lst c a b H1 H2 H3. pose proof (util_biclique_requests nodes edges embs lst c a b H1 H2 H3) as H.
  assert (E1 : nodes_or_number a = requested a) by (by destruct a).
  assert (E2 : match a, b with Count _, Count n => seq (length (nodes_or_number a)) n | _, _ => nodes_or_number b end = requested_second a b).
  { destruct a as [m|], b as [n|]; try done. cbn. by rewrite seq_length. }
  cbv zeta in H. rewrite E1, E2 in H || (rewrite E1 in E2; rewrite E1, E2 in H). exact H.
Qed.
Print Assumptions C69_biclique.
Example C69_biclique_case : (let! embs := ex_bicliques in let! c := make_biclique_cache embs in
    Ok (util_biclique c (Names [7; 5]) (Count 1), util_biclique c (Count 1) (Count 2), util_biclique c (Names [7; 0]) (Count 1),
        util_biclique c (Count 1) (Count 4))) =
  Ok (Ok ([(7, [8]); (5, [9])], [(0, [10])]), Ok ([(0, [10])], [(1, [8]); (2, [9])]), Err BadInit, Err BadInit).
Proof. by vm_compute. Qed.
