(** Properties of minorminer.utils.polynomialembedder: C74 (cliques), C75 (bicliques) and C76 (how large).
    See SpecPoly.v and SpecBus.v for the vocabulary. *)
From stdpp Require Import base list numbers gmap.
From Verif Require Import Base NxModel PyCacheModel PolyModel SpecBus SpecPoly PolyProofs6 PolyProofs9.

(** the sources of randomness: [shuffle] permutes, [sample] takes that many, a set is listed in any order *)
Definition shuffles (shuf : nat -> list (list cq) -> list (list cq)) : Prop := forall i l, shuf i l ≡ₚ l.
Definition samples (samp : nat -> list (gset cq) -> list (gset cq)) : Prop :=
  forall k l, k <= length l -> length (samp k l) = k /\ forall x, x ∈ samp k l -> x ∈ l.
Definition lists (ord : list (nat * nat) -> list (nat * nat)) : Prop := forall l, ord l ≡ₚ l.
(** the hypotheses for the claims on sizes *)
Definition regular (M N L limit : nat) (edges : list (nat * nat)) : Prop :=
  few_missing M N L edges limit /\ (forall q, q ∈ ends edges -> q < nqubits M N L) /\ lines_intact M N L edges.

(** ** C74 *)
Theorem C74_native_clique : forall M N L limit edges rnd shuf rb samp picks width,
  0 < M -> 0 < N -> 0 < L -> 0 < limit -> shuffles shuf -> samples samp ->
  exists emb, proc_native rnd shuf rb samp picks (make_proc M N L limit edges) width = Ok emb /\
    clique_embedding (ends edges) edges emb /\ forall c, c ∈ emb -> wire edges c /\ length c = S width.
Proof.
  intros M N L limit edges rnd shuf rb samp picks width HM HN HL Hl Hs Hp.
  destruct (proc_native_ok M N L limit edges HM HN HL Hl rnd shuf rb Hs samp picks Hp width) as (emb & ? & ? & ? & _). by exists emb.
Qed.
Print Assumptions C74_native_clique.

Theorem C74_largest_clique : forall M N L limit edges rnd shuf rb samp picks mcl,
  0 < M -> 0 < N -> 0 < L -> 0 < limit -> shuffles shuf -> samples samp -> (forall l, mcl = Some l -> l <= M + N) ->
  exists emb len, proc_largest rnd shuf rb samp picks (make_proc M N L limit edges) mcl = Ok emb /\
    clique_embedding (ends edges) edges emb /\ (forall c, c ∈ emb -> wire edges c /\ length c = len) /\ (forall l, mcl = Some l -> len <= l).
Proof.
  intros M N L limit edges rnd shuf rb samp picks mcl HM HN HL Hl Hs Hp Hm.
  destruct (proc_largest_ok M N L limit edges HM HN HL Hl rnd shuf rb Hs samp picks Hp mcl Hm) as (emb & len & ? & ? & ? & Hlen & _). exists emb, len.
  split_and!; try done. by intros l ->.
Qed.
Print Assumptions C74_largest_clique.

(** a bound above M + N is an exception: a score is compared with None *)
Theorem C74_largest_clique_refuted : forall M N L limit edges rnd shuf rb samp picks l,
  0 < M -> 0 < N -> 0 < L -> 0 < limit -> shuffles shuf -> samples samp -> M + N < l ->
  proc_largest rnd shuf rb samp picks (make_proc M N L limit edges) (Some l) = Err BadInit.
Proof. intros M N L limit edges rnd shuf rb samp picks l HM HN HL Hl Hs Hp. exact (proc_largest_raises M N L limit edges HM HN HL Hl rnd shuf rb Hs samp picks Hp l). Qed.
Print Assumptions C74_largest_clique_refuted.

Theorem C74_tightest_clique : forall M N L limit edges rnd shuf rb samp picks n,
  0 < M -> 0 < N -> 0 < L -> 0 < limit -> shuffles shuf -> samples samp ->
  exists emb len, proc_tightest rnd shuf rb samp picks (make_proc M N L limit edges) n = Ok emb /\
    clique_embedding (ends edges) edges emb /\ (forall c, c ∈ emb -> wire edges c /\ length c = len) /\ (emb = [] \/ length emb = n).
Proof.
  intros M N L limit edges rnd shuf rb samp picks n HM HN HL Hl Hs Hp.
  destruct (proc_tightest_ok M N L limit edges HM HN HL Hl rnd shuf rb Hs samp picks Hp n) as (emb & len & ? & ? & ? & ? & _). by exists emb, len.
Qed.
Print Assumptions C74_tightest_clique.

(** ** C75 *)
Theorem C75_largest_biclique : forall M N L limit edges ord samp picks imb mcl,
  0 < M -> 0 < N -> 0 < L -> 0 < limit -> lists ord -> samples samp -> mcl <> Some 0 ->
  exists A B la lb, proc_largest_biclique ord samp picks (make_proc M N L limit edges) imb mcl = Ok (A, B) /\
    biclique_embedding (ends edges) edges (length A) (length B) (A ++ B) /\
    (forall c, c ∈ A -> wire edges c /\ length c = la) /\ (forall c, c ∈ B -> wire edges c /\ length c = lb) /\ allowed imb mcl la lb.
Proof.
  intros M N L limit edges ord samp picks imb mcl HM HN HL Hl Ho Hp Hm.
  destruct (proc_largest_biclique_ok M N L limit edges HM HN HL Hl ord Ho samp picks Hp imb mcl Hm) as (A & B & la & lb & ? & ? & ? & ? & ? & _). by exists A, B, la, lb.
Qed.
Print Assumptions C75_largest_biclique.

(** a bound of 0 is an exception: there is no largest size *)
Theorem C75_largest_biclique_refuted : forall M N L limit edges ord samp picks imb,
  0 < M -> 0 < N -> 0 < L -> 0 < limit -> lists ord -> samples samp ->
  proc_largest_biclique ord samp picks (make_proc M N L limit edges) imb (Some 0) = Err BadInit.
Proof. intros M N L limit edges ord samp picks imb HM HN HL Hl Ho Hp. exact (proc_largest_biclique_raises M N L limit edges HM HN HL Hl ord Ho samp picks Hp imb). Qed.
Print Assumptions C75_largest_biclique_refuted.

Theorem C75_tightest_biclique : forall M N L limit edges ord samp picks n m imb mcl,
  0 < M -> 0 < N -> 0 < L -> 0 < limit -> lists ord -> samples samp ->
  exists r, proc_tightest_biclique ord samp picks (make_proc M N L limit edges) n m imb mcl = Ok r /\
    forall A B, r = Some (A, B) -> length A = n /\ length B = default n m /\ biclique_embedding (ends edges) edges n (default n m) (A ++ B) /\
      exists la lb, (forall c, c ∈ A -> wire edges c /\ length c = la) /\ (forall c, c ∈ B -> wire edges c /\ length c = lb) /\ allowed imb mcl la lb.
Proof.
  intros M N L limit edges ord samp picks n m imb mcl HM HN HL Hl Ho Hp.
  destruct (proc_tightest_biclique_ok M N L limit edges HM HN HL Hl ord Ho samp picks Hp n m imb mcl) as (r & ? & ? & _). by exists r.
Qed.
Print Assumptions C75_tightest_biclique.

(** ** C76 *)
(** the cliques have as many chains as any sequence of ells of one length gives room for, for any choice of
    the ends of missing couplers *)
Theorem C76_native_most_partial : forall M N L limit edges rnd shuf rb samp picks width emb,
  0 < M -> 0 < N -> 0 < L -> 0 < limit -> shuffles shuf -> samples samp -> regular M N L limit edges ->
  proc_native rnd shuf rb samp picks (make_proc M N L limit edges) width = Ok emb ->
  forall R Ls c, covers M N L edges R -> is_ells M N (S width) Ls ->
    capacity N L (without R (ends edges)) (edges_without R edges) Ls c -> c <= length emb.
Proof.
  intros M N L limit edges rnd shuf rb samp picks width emb HM HN HL Hl Hs Hp (R1 & R2 & R3) E.
  destruct (proc_native_ok M N L limit edges HM HN HL Hl rnd shuf rb Hs samp picks Hp width) as (emb' & E' & _ & _ & H). rewrite E in E'. injection E' as <-. by apply H.
Qed.
Print Assumptions C76_native_most_partial.

Theorem C76_largest_most_partial : forall M N L limit edges rnd shuf rb samp picks mcl emb,
  0 < M -> 0 < N -> 0 < L -> 0 < limit -> shuffles shuf -> samples samp -> regular M N L limit edges -> (forall l, mcl = Some l -> l <= M + N) ->
  proc_largest rnd shuf rb samp picks (make_proc M N L limit edges) mcl = Ok emb ->
  forall len R Ls c, 1 <= len -> len <= match mcl with Some l => l | None => S (M `min` N) end -> covers M N L edges R -> is_ells M N len Ls ->
    capacity N L (without R (ends edges)) (edges_without R edges) Ls c -> c <= length emb.
Proof.
  intros M N L limit edges rnd shuf rb samp picks mcl emb HM HN HL Hl Hs Hp (R1 & R2 & R3) Hm E.
  destruct (proc_largest_ok M N L limit edges HM HN HL Hl rnd shuf rb Hs samp picks Hp mcl Hm) as (emb' & len' & E' & _ & _ & _ & H). rewrite E in E'. injection E' as <-.
  intros [|w] R Ls c Hlen Hlen'; [lia|]. by apply (H w).
Qed.
Print Assumptions C76_largest_most_partial.

(** if ells with chains of length w + 1 give room for n chains, then n chains are found, and none of them is longer *)
Theorem C76_tightest_shortest_partial : forall M N L limit edges rnd shuf rb samp picks n emb,
  0 < M -> 0 < N -> 0 < L -> 0 < limit -> shuffles shuf -> samples samp -> regular M N L limit edges ->
  proc_tightest rnd shuf rb samp picks (make_proc M N L limit edges) n = Ok emb ->
  forall w R Ls c, 1 <= w -> w <= M `min` N -> covers M N L edges R -> is_ells M N (S w) Ls ->
    capacity N L (without R (ends edges)) (edges_without R edges) Ls c -> n <= c ->
    length emb = n /\ forall ch, ch ∈ emb -> length ch <= S w.
Proof.
  intros M N L limit edges rnd shuf rb samp picks n emb HM HN HL Hl Hs Hp (R1 & R2 & R3) E.
  destruct (proc_tightest_ok M N L limit edges HM HN HL Hl rnd shuf rb Hs samp picks Hp n) as (emb' & len & E' & _ & Hlen & _ & H). rewrite E in E'. injection E' as <-.
  intros w R Ls c Hw1 Hw2 Hcov HLs Hcap Hn. destruct (H R1 R2 R3 w R Ls c (conj Hw1 Hw2) Hcov HLs Hcap Hn) as [E1 E2]. split; [done|].
  intros ch Hch. destruct (Hlen ch Hch) as [_ ->]. apply E2. rewrite <- E1. destruct emb; [by apply elem_of_nil in Hch|simpl; lia].
Qed.
Print Assumptions C76_tightest_shortest_partial.

(** the smaller side is as large as any rectangle allows, and then the larger side *)
Theorem C76_biclique_most_partial : forall M N L limit edges ord samp picks imb mcl A B,
  0 < M -> 0 < N -> 0 < L -> 0 < limit -> lists ord -> samples samp -> regular M N L limit edges ->
  proc_largest_biclique ord samp picks (make_proc M N L limit edges) imb mcl = Ok (A, B) ->
  forall R r0 r1 c0 c1 a b, covers M N L edges R -> r0 <= r1 -> r1 < M -> c0 <= c1 -> c1 < N -> allowed imb mcl (S (r1 - r0)) (S (c1 - c0)) ->
    rectangle_offers N L (without R (ends edges)) (edges_without R edges) r0 r1 c0 c1 a b -> 0 < a -> 0 < b ->
    lex_le (a `min` b, a `max` b) (length A `min` length B, length A `max` length B).
Proof.
  intros M N L limit edges ord samp picks imb mcl A B HM HN HL Hl Ho Hp (R1 & R2 & R3) E.
  assert (Hm : mcl <> Some 0). { intros ->. by rewrite (proc_largest_biclique_raises M N L limit edges HM HN HL Hl ord Ho samp picks Hp imb) in E. }
  destruct (proc_largest_biclique_ok M N L limit edges HM HN HL Hl ord Ho samp picks Hp imb mcl Hm) as (A' & B' & la & lb & E' & _ & _ & _ & _ & H).
  rewrite E in E'. injection E' as <- <-. by apply H.
Qed.
Print Assumptions C76_biclique_most_partial.

(** if a rectangle has n and m lines, a biclique is found; if no coupler inside a cell is missing, its chains are
    not longer than the rectangle's *)
Theorem C76_biclique_tightest_partial : forall M N L limit edges ord samp picks n m imb mcl r,
  0 < M -> 0 < N -> 0 < L -> 0 < limit -> lists ord -> samples samp -> regular M N L limit edges -> 0 < n -> 0 < default n m ->
  proc_tightest_biclique ord samp picks (make_proc M N L limit edges) n m imb mcl = Ok r ->
  forall R r0 r1 c0 c1 a b, covers M N L edges R -> r0 <= r1 -> r1 < M -> c0 <= c1 -> c1 < N -> allowed imb mcl (S (r1 - r0)) (S (c1 - c0)) ->
    rectangle_offers N L (without R (ends edges)) (edges_without R edges) r0 r1 c0 c1 a b -> (default n m <= a /\ n <= b \/ n <= a /\ default n m <= b) ->
    exists A B, r = Some (A, B) /\
      ((forall x y, ~ missing_coupler M N L (ends edges) edges x y) -> forall c, c ∈ A ++ B -> length c <= S (r1 - r0) `max` S (c1 - c0)).
Proof.
  intros M N L limit edges ord samp picks n m imb mcl r HM HN HL Hl Ho Hp (R1 & R2 & R3) Hn Hm E.
  destruct (proc_tightest_biclique_ok M N L limit edges HM HN HL Hl ord Ho samp picks Hp n m imb mcl) as (r' & E' & _ & H). rewrite E in E'. injection E' as <-. by apply H.
Qed.
Print Assumptions C76_biclique_tightest_partial.

(** ** Examples *)
Definition full (M N L : nat) : list (nat * nat) :=
  (x ← seq 0 M; y ← seq 0 N; k ← seq 0 L; l ← seq 0 L; [(qubit N L x y false k, qubit N L x y true l)]) ++
  (x ← seq 0 M; y ← seq 0 N; k ← seq 0 L; (if S x <? M then [(qubit N L x y false k, qubit N L (S x) y false k)] else []) ++
                                          (if S y <? N then [(qubit N L x y true k, qubit N L x (S y) true k)] else [])).
Definition dropped (bad : list (nat * nat)) (e : list (nat * nat)) : list (nat * nat) := filter (fun p => p ∉ bad) e.
Notation no_rnd := (fun _ : nat => 0).
Notation no_shuf := (fun (_ : nat) (l : list (list cq)) => l).
Notation first_samp := (fun (k : nat) (l : list (gset cq)) => take k l).
Notation first_pick := (fun (_ : nat) (_ : cq * cq) => true).
Notation no_ord := (fun l : list (nat * nat) => l).
Lemma first_samples : samples first_samp.
Proof. intros k l Hk. split; [by apply take_length_le|]. intros x Hx. by eapply elem_of_take in Hx as (i & ?%elem_of_list_lookup_2 & _). Qed.
(** a 2 x 2 grid of cells of shore 2, without a coupler inside the first cell *)
Definition chip := dropped [(0, 2)] (full 2 2 2).
Example chip_regular : regular 2 2 2 4 chip.
Proof.
  assert (Hm : forall a b, missing_coupler 2 2 2 (ends chip) chip a b -> (a, b) = (0, 2)).
  { intros a b (y & x & k & l & Hy & Hx & Hk & Hl & -> & -> & _ & _ & Hno).
    destruct y as [|[|y]]; [| |lia]; (destruct x as [|[|x]]; [| |lia]); (destruct k as [|[|k]]; [| |lia]); (destruct l as [|[|l]]; [| |lia]);
      first [done|exfalso; apply Hno; apply (bool_decide_unpack _); by vm_compute]. }
  split; [|split].
  - intros bad Hnd Hbad. assert (length bad <= length [(0, 2)]).
    { apply submseteq_length, NoDup_submseteq; [done|]. intros [a b] Hab. apply elem_of_list_singleton. by apply Hm, Hbad. }
    simpl in *. destruct (length bad) as [|[|]]; simpl; lia.
  - intros q Hq. assert (H : Forall (fun q => q < nqubits 2 2 2) (ends chip)) by (apply (bool_decide_unpack _); by vm_compute).
    by apply (proj1 (Forall_forall _ _) H).
  - intros u w z k Hw Hz Hk _ _. assert (w < 2) by (by destruct u). assert (S z < 2) by (by destruct u).
    destruct z as [|z]; [|lia]. destruct u; (destruct w as [|[|w]]; [| |lia]); (destruct k as [|[|k]]; [| |lia]); apply (bool_decide_unpack _); by vm_compute.
Qed.
Example C74_case :
  proc_native no_rnd no_shuf false first_samp first_pick (make_proc 2 2 2 4 chip) 1 = Ok [[14; 12]; [15; 13]] /\
  proc_largest no_rnd no_shuf false first_samp first_pick (make_proc 2 2 2 4 chip) None = Ok [[6; 4; 12]; [7; 5; 13]; [14; 10; 8]; [15; 11; 9]] /\
  proc_largest no_rnd no_shuf false first_samp first_pick (make_proc 2 2 2 4 chip) (Some 5) = Err BadInit /\
  proc_tightest no_rnd no_shuf false first_samp first_pick (make_proc 2 2 2 4 chip) 3 = Ok [[6; 4; 12]; [7; 5; 13]; [14; 10; 8]] /\
  proc_tightest no_rnd no_shuf false first_samp first_pick (make_proc 2 2 2 4 chip) 5 = Ok [].
Proof. split_and!; by vm_compute. Qed.
Example C75_case :
  proc_largest_biclique no_ord first_samp first_pick (make_proc 2 2 2 4 chip) (Some 0) None = Ok ([[1; 9]; [4; 12]; [5; 13]], [[6; 2]; [7; 3]; [14; 10]; [15; 11]]) /\
  proc_tightest_biclique no_ord first_samp first_pick (make_proc 2 2 2 4 chip) 2 (Some 1) (Some 0) None = Ok (Some ([[2]; [3]], [[1]])) /\
  proc_tightest_biclique no_ord first_samp first_pick (make_proc 2 2 2 4 chip) 5 None (Some 0) None = Ok None.
Proof. split_and!; by vm_compute. Qed.
(** the whole cell at row 1, column 1 gives room for two chains of two qubits *)
Example C76_case : covers 2 2 2 chip [0] /\ is_ells 2 2 2 [mkEll 1 1 1 1 1 1] /\
  capacity 2 2 (without [0] (ends chip)) (edges_without [0] chip) [mkEll 1 1 1 1 1 1] 2 /\ rectangle_offers 2 2 (without [0] (ends chip)) (edges_without [0] chip) 1 1 1 1 2 2.
Proof.
  assert (Hseg : forall u k, k < 2 -> segment_present 2 2 (without [0] (ends chip)) (edges_without [0] chip) u 1 1 1 k).
  { intros u k Hk. split; [|intros; lia]. intros z Hz. assert (z = 1) as -> by lia. destruct u; (destruct k as [|[|k]]; [| |lia]); apply (bool_decide_unpack _); by vm_compute. }
  assert (Hcount : forall u, count_of (fun k => k < 2 /\ segment_present 2 2 (without [0] (ends chip)) (edges_without [0] chip) u 1 1 1 k) 2).
  { intros u. exists [0; 1]. split; [apply (bool_decide_unpack _); by vm_compute|]. split; [done|]. intros k. split.
    - intros Hk. assert (k < 2) by (apply elem_of_cons in Hk as [->|Hk]; [lia|apply elem_of_list_singleton in Hk; lia]). split; [done|by apply Hseg].
    - intros [Hk _]. destruct k as [|[|k]]; [left|right; left|lia]. }
  assert (Hthru : forall u, lines_through 2 2 (without [0] (ends chip)) (edges_without [0] chip) u 1 1 1 1 2).
  { intros u. exists [(1, 0); (1, 1)]. split; [apply (bool_decide_unpack _); by vm_compute|]. split; [done|]. intros w k. split.
    - intros Hk. apply elem_of_cons in Hk as [[= -> ->]|Hk]; [split; [lia|]; split; [lia|apply Hseg; lia]|].
      apply elem_of_list_singleton in Hk as [= -> ->]. split; [lia|]. split; [lia|apply Hseg; lia].
    - intros (Hw & Hk & _). assert (w = 1) as -> by lia. destruct k as [|[|k]]; [left|right; left|lia]. }
  split; [|split; [|split]].
  - intros a b (y & x & k & l & Hy & Hx & Hk & Hl & -> & -> & _ & _ & Hno). left.
    destruct y as [|[|y]]; [| |lia]; (destruct x as [|[|x]]; [| |lia]); (destruct k as [|[|k]]; [| |lia]); (destruct l as [|[|l]]; [| |lia]);
      first [left|exfalso; apply Hno; apply (bool_decide_unpack _); by vm_compute].
  - split; [intros e ->%elem_of_list_singleton; unfold ell_in, ell_len; simpl; lia|]. intros [|i] a b Ha Hb; done.
  - exists [2]. split; [|done]. constructor; [|constructor]. exists 2, 2. split; [apply Hcount|]. split; [apply Hcount|done].
  - split; apply Hthru.
Qed.

(** A cell of shore 3 below a smaller cell, without the couplers between them: the lines that only begin after
    a missing coupler are not counted, and the two chains of the smaller cell are returned although the other
    cell has three. *)
Definition broken : list (nat * nat) := [(0, 3); (0, 4); (1, 3); (1, 4); (6, 9); (6, 10); (6, 11); (7, 9); (7, 10); (7, 11); (8, 9); (8, 10); (8, 11)].
Theorem C76_native_most_refuted : exists M N L limit edges emb better,
  0 < M /\ 0 < N /\ 0 < L /\ few_missing M N L edges limit /\ (forall q, q ∈ ends edges -> q < nqubits M N L) /\
  proc_native no_rnd no_shuf false first_samp first_pick (make_proc M N L limit edges) 1 = Ok emb /\
  clique_embedding (ends edges) edges better /\ (forall c, c ∈ better -> wire edges c /\ length c = 2) /\ length emb < length better.
Proof.
  exists 2, 1, 3, 1, broken, [[3; 0]; [4; 1]], [[9; 6]; [10; 7]; [11; 8]].
  split; [lia|]. split; [lia|]. split; [lia|]. split; [|split; [|split; [by vm_compute|split; [split|split]]]].
  - assert (Hneg : forall q (l : list nat), q ∈ l -> bool_decide (q ∈ l) = false -> False) by (intros q l Hq Hd; by apply bool_decide_eq_false in Hd).
    intros bad Hnd Hbad. destruct bad as [|[a b] bad]; [simpl; lia|]. exfalso.
    destruct (Hbad a b) as (y & x & k & l & Hy & Hx & Hk & Hl & -> & -> & Ha & Hb & Hno); [left|]. assert (x = 0) as -> by lia.
    destruct y as [|[|y]]; [| |lia]; (destruct k as [|[|[|k]]]; [| | |lia]); (destruct l as [|[|[|l]]]; [| | |lia]);
      first [apply Hno; apply (bool_decide_unpack _); by vm_compute|apply (Hneg _ _ Ha); by vm_compute|apply (Hneg _ _ Hb); by vm_compute].
  - intros q Hq. assert (H : Forall (fun q => q < nqubits 2 1 3) (ends broken)) by (apply (bool_decide_unpack _); by vm_compute).
    by apply (proj1 (Forall_forall _ _) H).
  - assert (Hpair : forall p q, has_edge broken p q -> p <> q -> p ∈ ends broken -> q ∈ ends broken -> good_chain (ends broken) broken [p; q]).
    { intros p q He Hpq Hp Hq. split; [done|]. split; [by apply NoDup_cons; split; [intros ?%elem_of_list_singleton|apply NoDup_singleton]|]. split.
      - intros x Hx. apply elem_of_cons in Hx as [->|Hx]; [done|]. by apply elem_of_list_singleton in Hx as ->.
      - apply PolyProofs4.wire_connected. intros [|[|i]] a b Ha Hb; [|done|done]. by injection Ha as <-; injection Hb as <-. }
    intros c Hc. apply elem_of_cons in Hc as [->|Hc]; [|apply elem_of_cons in Hc as [->|Hc]; [|apply elem_of_list_singleton in Hc as ->]];
      (apply Hpair; [apply (bool_decide_unpack _); by vm_compute|done|apply (bool_decide_unpack _); by vm_compute|apply (bool_decide_unpack _); by vm_compute]).
  - intros i j c d Hij Hc Hd. destruct i as [|[|[|i]]], j as [|[|[|j]]]; try done; injection Hc as <-; injection Hd as <-;
      (split; [intros x; rewrite !elem_of_cons, !elem_of_nil; lia|]);
      first [exists 6, 10; split_and!; [set_solver|set_solver|apply (bool_decide_unpack _); by vm_compute]|exists 6, 11; split_and!; [set_solver|set_solver|apply (bool_decide_unpack _); by vm_compute]
        |exists 7, 9; split_and!; [set_solver|set_solver|apply (bool_decide_unpack _); by vm_compute]|exists 7, 11; split_and!; [set_solver|set_solver|apply (bool_decide_unpack _); by vm_compute]
        |exists 8, 9; split_and!; [set_solver|set_solver|apply (bool_decide_unpack _); by vm_compute]|exists 8, 10; split_and!; [set_solver|set_solver|apply (bool_decide_unpack _); by vm_compute]].
  - intros c Hc. apply elem_of_cons in Hc as [->|Hc]; [|apply elem_of_cons in Hc as [->|Hc]; [|apply elem_of_list_singleton in Hc as ->]];
      (split; [|done]); intros [|[|i]] a b Ha Hb; [|done|done| |done|done| |done|done]; injection Ha as <-; injection Hb as <-; apply (bool_decide_unpack _); by vm_compute.
  - simpl. lia.
Qed.
Print Assumptions C76_native_most_refuted.
