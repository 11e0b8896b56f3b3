(** API-level statements about the Chimera clique search. *)
From stdpp Require Import base list list_numbers numbers gmap relations.
From Verif Require Import Base BusModel CliqueModel SpecBus CoordProofs BitProofs BundleProofs MaskProofs MaskProofs2 TopoProofs BusTop
  CliqueProofs1 CliqueProofs2 CliqueProofs3 CliqueProofs4 CliqueProofs5 CliqueProofs6 CliqueProofs7 SmallModel SmallProofs.

(** a mask of a run removes [R] as soon as it shows the graph without [R] *)
Lemma shows_removed t nodes edges nm em R R0 : shore t <= 8 -> removed t nodes edges (nm, em) R0 ->
  (forall a b, missing_coupler (dim_y t) (dim_x t) (shore t) nodes edges a b -> a ∈ R \/ b ∈ R) ->
  shows (dim_y t) (dim_x t) (shore t) nm em (without R nodes) (edges_without R edges) -> removed t nodes edges (nm, em) R.
Proof.
  intros Hsh [_ (L1 & L2 & B1 & B2 & _)] HR Hs. split.
  - intros a b Hab. apply HR. by apply missing_is_bad.
  - apply shows_represents; done.
Qed.
Lemma removed_shows t nodes edges nm em R : removed t nodes edges (nm, em) R ->
  (forall a b, missing_coupler (dim_y t) (dim_x t) (shore t) nodes edges a b -> a ∈ R \/ b ∈ R) /\
  shows (dim_y t) (dim_x t) (shore t) nm em (without R nodes) (edges_without R edges).
Proof.
  intros [H1 H2]. split.
  - intros a b Hab. apply H1. by apply missing_is_bad.
  - by apply represents_shows in H2 as (_ & _ & _ & _ & ?).
Qed.

Section run.
Context (t : topo) (nodes : list nat) (edges : list (nat * nat)) (bound : N).
Context (shuf : nat -> list (nat * nat) -> list (nat * nat)) (coin : nat -> nat -> bool).
Context (Hsh : shore t <= 8) (Hg : good_graph (nqubits (dim_y t) (dim_x t) (shore t)) nodes edges) (Hp : forall i l, shuf i l ≡ₚ l) (Hbd : (1 <= bound)%N).

Lemma run_masks : exists c, topo_init t nodes edges = Ok c /\
  forall bad, bad ≡ₚ tc_bad c -> exists n, forall fuel, n <= fuel ->
  exists masks, mask_run fuel c bound shuf coin 0 (mkTS 0 bad ([], [])) = Ok masks /\ masks <> [] /\
    Forall (fun cells => exists R, removed t nodes edges cells R) masks.
Proof.
  pose proof Hg as Hg'. rewrite nqubits_t in Hg'.
  destruct (topo_init_ok t Hsh nodes edges Hg') as (c & Ec & Ht & Hr & Hb).
  exists c. split; [done|]. intros bad HP. exists (S (N.to_nat (mask_count c bound))). intros fuel HF.
  destruct (mask_run_ok t Hsh nodes edges c Ht Hr Hb bound shuf coin fuel 0 (mkTS 0 bad ([], [])) HP Hp) as (l & El & Hm & Hl).
  { cbn [ts_num]. lia. }
  exists l. split; [done|]. split.
  - intros ->. cbn [ts_num length] in Hl. unfold mask_count in Hl. destruct (tc_bad c); [done|]. 
    assert (0 < 2 ^ N.of_nat (length (p :: l)))%N by (apply N.neq_0_lt_0, N.pow_nonzero; done).
    destruct (2 ^ N.of_nat (length (p :: l)) <=? bound)%N; lia.
  - eapply Forall_impl; [exact Hm|]. intros cells (R & _ & H2 & H3). exists R. by split.
Qed.

(** C35, C36 *)
Lemma best_cliques_top emb_1 : 1 <= dim_y t -> 1 <= dim_x t ->
  clique_embedding nodes edges emb_1 -> (forall ch, ch ∈ emb_1 -> length ch = 1) ->
  exists c, topo_init t nodes edges = Ok c /\ forall bad, bad ≡ₚ tc_bad c -> exists n, forall fuel, n <= fuel ->
  exists masks embs, mask_run fuel c bound shuf coin 0 (mkTS 0 bad ([], [])) = Ok masks /\ best_cliques t masks emb_1 = Ok embs /\
    length embs = 2 + dim_y t `min` dim_x t /\ embs !! 1 = Some emb_1 /\
    (forall i emb, embs !! i = Some emb -> clique_embedding nodes edges emb /\ forall ch, ch ∈ emb -> length ch = i) /\
    forall w, 1 <= w <= dim_y t `min` dim_x t -> exists emb, embs !! S w = Some emb /\
      (emb = [] \/ exists nm em R L, (nm, em) ∈ masks /\
         (forall a b, missing_coupler (dim_y t) (dim_x t) (shore t) nodes edges a b -> a ∈ R \/ b ∈ R) /\
         shows (dim_y t) (dim_x t) (shore t) nm em (without R nodes) (edges_without R edges) /\
         peeling (dim_y t) (dim_x t) w L /\
         capacity (dim_x t) (shore t) (without R nodes) (edges_without R edges) L (length emb)) /\
      (forall nm em R L n, (nm, em) ∈ masks ->
         (forall a b, missing_coupler (dim_y t) (dim_x t) (shore t) nodes edges a b -> a ∈ R \/ b ∈ R) ->
         shows (dim_y t) (dim_x t) (shore t) nm em (without R nodes) (edges_without R edges) ->
         peeling (dim_y t) (dim_x t) w L ->
         capacity (dim_x t) (shore t) (without R nodes) (edges_without R edges) L n -> n <= length emb).
Proof.
  intros Hy1 Hx1 H1 H1l. destruct run_masks as (c & Ec & Hrun). exists c. split; [done|]. intros bad HP.
  destruct (Hrun bad HP) as [n0 Hn]. exists n0. intros fuel HF. destruct (Hn fuel HF) as (masks & Em & Hne & HM).
  pose proof Hg as Hg'. rewrite nqubits_t in Hg'.
  destruct (best_run t Hsh nodes edges Hg' Hy1 Hx1 masks emb_1 HM Hne H1 H1l) as (embs & Eb & Hl & He1 & Hv & Hw).
  exists masks, embs. split_and!; [done..|]. intros w Hww. destruct (Hw w Hww) as (emb & Ee & Ho & Hmax). exists emb. split_and!; [done| |].
  - destruct Ho as [->|([nm em] & R & L & Hin & HR & HL & Hc)]; [by left|]. right. exists nm, em, R, L.
    apply removed_shows in HR as [? ?]. done.
  - intros nm em R L n Hin HR Hs HL Hc. rewrite Forall_forall in HM. destruct (HM _ Hin) as [R0 HR0].
    eapply Hmax; [exact Hin| |exact HL|exact Hc]. by eapply shows_removed.
Qed.

Lemma find_clique_top size fuel0 : 1 <= dim_y t -> 1 <= dim_x t -> 1 <= shore t -> shore t < size ->
  exists c, topo_init t nodes edges = Ok c /\ forall bad, bad ≡ₚ tc_bad c -> exists n, forall fuel, n <= fuel ->
  exists masks b emb, mask_run fuel c bound shuf coin 0 (mkTS 0 bad ([], [])) = Ok masks /\ find_clique fuel0 t masks size [] = Ok (b, emb) /\
    if b : bool then exists w, clique_embedding nodes edges emb /\ size <= length emb /\ (forall ch, ch ∈ emb -> length ch = S w) /\
        forall nm em R L n w', (nm, em) ∈ masks ->
         (forall a b, missing_coupler (dim_y t) (dim_x t) (shore t) nodes edges a b -> a ∈ R \/ b ∈ R) ->
         shows (dim_y t) (dim_x t) (shore t) nm em (without R nodes) (edges_without R edges) ->
         peeling (dim_y t) (dim_x t) w' L ->
         capacity (dim_x t) (shore t) (without R nodes) (edges_without R edges) L n -> size <= n -> w <= w'
    else emb = [] /\ forall nm em R L n w', (nm, em) ∈ masks ->
         (forall a b, missing_coupler (dim_y t) (dim_x t) (shore t) nodes edges a b -> a ∈ R \/ b ∈ R) ->
         shows (dim_y t) (dim_x t) (shore t) nm em (without R nodes) (edges_without R edges) ->
         w' <= dim_y t `min` dim_x t ->
         peeling (dim_y t) (dim_x t) w' L ->
         capacity (dim_x t) (shore t) (without R nodes) (edges_without R edges) L n -> n < size.
Proof.
  intros Hy1 Hx1 Hs1 Hsize. destruct run_masks as (c & Ec & Hrun). exists c. split; [done|]. intros bad HP.
  destruct (Hrun bad HP) as [n0 Hn]. exists n0. intros fuel HF. destruct (Hn fuel HF) as (masks & Em & Hne & HM).
  pose proof Hg as Hg'. rewrite nqubits_t in Hg'.
  destruct (find_run t Hsh nodes edges Hg' Hy1 Hx1 size Hsize Hs1 fuel0 masks HM) as (b & emb & Ef & H).
  exists masks, b, emb. split_and!; [done..|]. destruct b.
  - destruct H as (w & Hw & Hc & Hsz & Hl & Hsm). exists w. split_and!; [done..|].
    intros nm em R L n w' Hin HR Hs HL Hcap Hle. destruct (decide (w <= w')) as [?|?]; [done|]. rewrite Forall_forall in HM.
    destruct (HM _ Hin) as [R0 HR0].
    specialize (Hsm (nm, em) R w' Hin (shows_removed _ _ _ _ _ _ _ Hsh HR0 HR Hs) ltac:(lia) L n HL Hcap). lia.
  - destruct H as (-> & Hsm). split; [done|]. intros nm em R L n w' Hin HR Hs Hw HL Hcap. rewrite Forall_forall in HM. destruct (HM _ Hin) as [R0 HR0].
    exact (Hsm (nm, em) R w' Hin (shows_removed _ _ _ _ _ _ _ Hsh HR0 HR Hs) Hw L n HL Hcap).
Qed.
End run.

(** C37 *)
Lemma clique_cache_safe t nm em check width : length nm = num_cells t -> length em = num_cells t ->
  Forall (fun b => (b < 256)%N) nm -> 2 <= width -> width <= dim_y t -> width <= dim_x t ->
  exists lm mem r, compute_line_masks t (nm, em) = Ok lm /\ clique_cache t lm check width = Ok mem /\
    forall line, extract_solution t line lm width mem = Ok (r line).
Proof.
  intros L1 L2 B1 Hw Hwy Hwx. destruct (compute_line_masks_ok t nm em L1 L2 B1) as (lm & E & Hl & Hb & _).
  destruct (clique_cache_ok t width lm check Hw Hwy Hwx Hl Hb) as (mem & Em & HF).
  exists lm, mem, (fun line => match extract_solution t line lm width mem with Ok r => r | Err _ => None end). split_and!; [done..|].
  intros line. by destruct (extract_ok t width lm check line Hw Hwy Hwx Hl Hb mem HF) as (r & -> & _).
Qed.

(** the whole of [best_cliques] after [short_clique], as busclique.pyx 1077 and 1105 call them *)
Section calls.
Context (t : topo) (nodes : list nat) (edges : list (nat * nat)) (bound : N).
Context (shuf : nat -> list (nat * nat) -> list (nat * nat)) (coin : nat -> nat -> bool).
Context (Hsh : shore t <= 8) (Hg : good_graph (nqubits (dim_y t) (dim_x t) (shore t)) nodes edges).
Context (Hl : forall p q, (p, q) ∈ edges -> p <> q) (Hp : forall i l, shuf i l ≡ₚ l) (Hbd : (1 <= bound)%N).
Context (Hy1 : 1 <= dim_y t) (Hx1 : 1 <= dim_x t).

Lemma loops : Forall (fun e : nat * nat => e.1 <> e.2) edges.
Proof. apply Forall_forall. intros [p q]. apply Hl. Qed.

Lemma cliques_valid :
  exists c, topo_init t nodes edges = Ok c /\ forall bad, bad ≡ₚ tc_bad c -> exists n, forall fuel, n <= fuel ->
  exists masks embs, mask_run fuel c bound shuf coin 0 (mkTS 0 bad ([], [])) = Ok masks /\
    best_cliques t masks (short_clique 2 nodes edges []) = Ok embs /\
    length embs = 2 + dim_y t `min` dim_x t /\
    forall i emb, embs !! i = Some emb -> clique_embedding nodes edges emb /\ forall ch, ch ∈ emb -> length ch = i.
Proof.
  destruct (short_clique_ok nodes edges loops (proj2 Hg) 2 ltac:(lia)) as (H1 & H2 & _).
  destruct (best_cliques_top t nodes edges bound shuf coin Hsh Hg Hp Hbd _ Hy1 Hx1 H1 H2) as (c & Ec & H).
  exists c. split; [done|]. intros bad HP. destruct (H bad HP) as [n Hn]. exists n. intros fuel HF.
  destruct (Hn fuel HF) as (masks & embs & ? & ? & ? & _ & ? & _). by exists masks, embs.
Qed.

Lemma cliques_best :
  exists c, topo_init t nodes edges = Ok c /\ forall bad, bad ≡ₚ tc_bad c -> exists n, forall fuel, n <= fuel ->
  exists masks embs, mask_run fuel c bound shuf coin 0 (mkTS 0 bad ([], [])) = Ok masks /\
    best_cliques t masks (short_clique 2 nodes edges []) = Ok embs /\
    (exists emb, embs !! 1 = Some emb /\ forall k, k <= 2 -> has_single_clique nodes edges k -> k <= length emb) /\
    forall w, 1 <= w <= dim_y t `min` dim_x t -> exists emb, embs !! S w = Some emb /\
    (emb = [] \/ exists nm em R L, (nm, em) ∈ masks /\
    (forall a b, missing_coupler (dim_y t) (dim_x t) (shore t) nodes edges a b -> a ∈ R \/ b ∈ R) /\
    shows (dim_y t) (dim_x t) (shore t) nm em (without R nodes) (edges_without R edges) /\
    peeling (dim_y t) (dim_x t) w L /\
    capacity (dim_x t) (shore t) (without R nodes) (edges_without R edges) L (length emb)) /\
    (forall nm em R L n, (nm, em) ∈ masks ->
         (forall a b, missing_coupler (dim_y t) (dim_x t) (shore t) nodes edges a b -> a ∈ R \/ b ∈ R) ->
         shows (dim_y t) (dim_x t) (shore t) nm em (without R nodes) (edges_without R edges) ->
         peeling (dim_y t) (dim_x t) w L ->
         capacity (dim_x t) (shore t) (without R nodes) (edges_without R edges) L n -> n <= length emb).
Proof.
  destruct (short_clique_ok nodes edges loops (proj2 Hg) 2 ltac:(lia)) as (H1 & H2 & _ & H3).
  destruct (best_cliques_top t nodes edges bound shuf coin Hsh Hg Hp Hbd _ Hy1 Hx1 H1 H2) as (c & Ec & H).
  exists c. split; [done|]. intros bad HP. destruct (H bad HP) as [n Hn]. exists n. intros fuel HF.
  destruct (Hn fuel HF) as (masks & embs & ? & ? & ? & He1 & ? & ?). exists masks, embs. split_and!; try done. eexists. done.
Qed.
End calls.

(** there is always a peeling: the staircase *)
Definition staircase (w : nat) : list ell := map (fun i => mkEll i i i (w - 1) 0 i) (seq 0 w).
Lemma staircase_peeling m n w : 1 <= w -> w <= m -> w <= n -> peeling m n w (staircase w).
Proof.
  intros H1 Hm Hn. unfold staircase. split_and!.
  - by rewrite map_length, seq_length.
  - intros e (i & -> & Hi)%elem_of_list_fmap. apply elem_of_seq in Hi. unfold ell_in. cbn. lia.
  - intros e He. rewrite list_lookup_fmap in He. destruct (seq 0 w !! 0) as [i|] eqn:E; [|done]. apply lookup_seq in E. injection He as <-. cbn. lia.
  - intros i a b Ha Hb. rewrite list_lookup_fmap in Ha, Hb.
    destruct (seq 0 w !! i) as [i0|] eqn:E; [|done]. destruct (seq 0 w !! S i) as [i1|] eqn:E'; [|done].
    apply lookup_seq in E. apply lookup_seq in E'. injection Ha as <-. injection Hb as <-. unfold peels. cbn. lia.
Qed.
Lemma caps t nodes edges lm (Hrd : ready t nodes edges lm) L : (forall e, e ∈ L -> ell_in (dim_y t) (dim_x t) e) ->
  exists n, capacity (dim_x t) (shore t) nodes edges L n.
Proof.
  induction L as [|e L IH]; intros H; [exists 0, []; split; [constructor|done]|].
  destruct IH as (n & l & Hl & Hn). { intros e' He'. apply H. by right. }
  eexists _, (_ :: l). split; [constructor; [|exact Hl]|done]. apply (ell_cap t nodes edges lm Hrd). apply H. by left.
Qed.

Lemma one_width t nm em nodes edges width :
  shore t <= 8 -> length nm = num_cells t -> length em = num_cells t ->
  Forall (fun b => (b < 256)%N) nm -> Forall (fun b => (b < 256)%N) em ->
  good_graph (nqubits (dim_y t) (dim_x t) (shore t)) nodes edges ->
  shows (dim_y t) (dim_x t) (shore t) nm em nodes edges ->
  (forall a b, ~ missing_coupler (dim_y t) (dim_x t) (shore t) nodes edges a b) ->
  2 <= width -> width <= dim_y t -> width <= dim_x t ->
  exists lm mem r, compute_line_masks t (nm, em) = Ok lm /\ clique_cache t lm nocheck width = Ok mem /\
    extract_solution t (chimera_line t) lm width mem = Ok r /\
    let emb := match r with Some emb => emb | None => [] end in
    clique_embedding nodes edges emb /\ (forall ch, ch ∈ emb -> length ch = S width) /\
    (exists L, peeling (dim_y t) (dim_x t) width L /\ capacity (dim_x t) (shore t) nodes edges L (length emb)) /\
    (forall L n, peeling (dim_y t) (dim_x t) width L -> capacity (dim_x t) (shore t) nodes edges L n -> n <= length emb).
Proof.
  intros Hsh L1 L2 B1 B2 Hg Hs Hmiss Hw Hwy Hwx. rewrite nqubits_t in Hg.
  assert (Hr : represents t nm em nodes edges) by (by apply shows_represents).
  assert (Hf : full t nodes edges).
  { intros y x k l Hy Hx Hk Hll Ha Hb.
    destruct (decide ((qubit (dim_x t) (shore t) y x false k, qubit (dim_x t) (shore t) y x true l) ∈ edges)) as [?|N1]; [by left|].
    destruct (decide ((qubit (dim_x t) (shore t) y x true l, qubit (dim_x t) (shore t) y x false k) ∈ edges)) as [?|N2]; [by right|].
    exfalso. apply (Hmiss (qubit (dim_x t) (shore t) y x false k) (qubit (dim_x t) (shore t) y x true l)).
    exists y, x, k, l. split_and!; try done. unfold has_edge. tauto. }
  destruct (represents_ready t nm em nodes edges _ Hr Hg Hf) as (lm & Elm & Hrd).
  destruct (width_ok t nodes edges lm Hrd width Hw Hwy Hwx) as (mem & r & Em & Er & H1 & H2).
  exists lm, mem, r. split_and!; [done..|]. cbv zeta. destruct r as [emb|].
  - destruct (H1 emb eq_refl) as (? & ? & ? & ?). split_and!; done.
  - split_and!; [apply empty_clique|by intros ? ?%elem_of_nil| |done].
    pose proof (staircase_peeling (dim_y t) (dim_x t) width ltac:(lia) Hwy Hwx) as Hpe. exists (staircase width). split; [done|].
    destruct (caps t nodes edges lm Hrd (staircase width)) as [n Hn]; [apply Hpe|]. specialize (H2 _ _ Hpe Hn). simpl.
    assert (n = 0) as -> by lia. done.
Qed.
