(** Pegasus and Zephyr are lattices of lines of segments; API-level statements. *)
From Coq Require Import Arith.
From stdpp Require Import base list list_numbers numbers gmap relations.
From Verif Require Import Base BusModel CliqueModel FragModel SpecBus SpecFrag CoordProofs BitProofs BundleProofs MaskProofs MaskProofs2 TopoProofs BusTop
  CliqueProofs1 CliqueProofs2 CliqueProofs3 CliqueProofs4 CliqueProofs5 CliqueProofs6 CliqueProofs7 CliqueTop SmallModel SmallProofs
  FragProofs1 FragProofs2 FragProofs3 FragProofs4 FragProofs5.

(** ** Zephyr *)
Lemma zephyr_num d t u w k j z : zephyr_number d t u w k j z = snum (2 * d + 1) (2 * t) d u w (2 * k + j) z.
Proof. unfold zephyr_number, linemajor_linear, bit, b2n. destruct u; ring. Qed.
Lemma zephyr_coords_num d t u w k j : w < 2 * d + 1 -> k < 2 * t -> j < d ->
  zephyr_coords d t (snum (2 * d + 1) (2 * t) d u w k j) = (u, w, k, j).
Proof. intros. unfold zephyr_coords. by apply linemajor_roundtrip. Qed.
Lemma zephyr_first_num d t u w k j : w < 2 * d + 1 -> k < 2 * t -> j < d ->
  zephyr_first d t (snum (2 * d + 1) (2 * t) d u w k j) = (u, w, k, k mod 2 + 2 * j).
Proof. intros. unfold zephyr_first. rewrite zephyr_coords_num by done. f_equal. lia. Qed.
Lemma eqb_refl_nat n : (n =? n) = true.
Proof. apply Nat.eqb_refl. Qed.
Lemma ltb_false a b : a <= b -> (b <? a) = false.
Proof. intros. apply Nat.ltb_ge. done. Qed.

Lemma mod2_even k : (2 * k) mod 2 = 0.
Proof. rewrite Nat.mul_comm. apply Nat.mod_mul. lia. Qed.
Lemma mod2_j k j : j < 2 -> (2 * k + j) mod 2 = j.
Proof. intros. rewrite Nat.add_comm, Nat.mul_comm, Nat.mod_add by lia. by apply Nat.mod_small. Qed.

Lemma zephyr_striped d t : t <= 4 -> striped (zephyr_spec d t) (2 * d + 1) (2 * t) d (fun _ _ k => k mod 2) (zephyr_coupler d t).
Proof.
  intros Ht. split.
  - done.
  - lia.
  - cbn. lia.
  - intros u w k Hw Hk. cbn [fs_len zephyr_spec]. pose proof (Nat.mod_upper_bound k 2). lia.
  - intros u w k j Hw Hk Hj. cbn [fs_first fs_len zephyr_spec]. by apply zephyr_first_num.
  - intros u w z0 z1 k Hw Hk Hz. cbn [fs_line fs_len zephyr_spec]. unfold zephyr_line. rewrite ltb_false by done. done.
  - intros p q Hc. destruct Hc as [u w k j z Hw Hk Hj Hz|u w k z z' Hw Hk Hz Hz' Hzz|w k j z w' k' j' z' Hw Hk Hj Hz Hw' Hk' Hj' Hz' C C'].
    + left. exists u, w, (2 * k + j), z. split_and!; try done; try lia; apply zephyr_num.
    + right. left. rewrite !zephyr_num, Nat.add_0_r.
      assert (Hlt : snum (2 * d + 1) (2 * t) d u w (2 * k) z < snum (2 * d + 1) (2 * t) d u w (2 * k + 1) z').
      { unfold linemajor_linear. set (X := 2 * t * (w + (2 * d + 1) * b2n u)).
        replace (d * (2 * k + 1 + X)) with (d * (2 * k + X) + d) by lia. destruct Hzz; lia. }
      split_and!; [done| |].
      * exists u, w, (2 * k), z, (2 * k + 1), z'. split_and!; try done; lia.
      * intros s. unfold frag_edge. cbn [fst snd fs_coords fs_first fs_odd fs_topo zephyr_spec]. rewrite ltb_false by lia.
        rewrite !zephyr_coords_num, !zephyr_first_num by (done || lia). destruct s as [em bm].
        rewrite eqb_reflx, !eqb_refl_nat. cbn [andb]. destruct (Nat.eqb_spec (2 * k) (2 * k + 1)) as [|_]; [lia|]. cbn [andb].
        unfold flip. rewrite mod2_j by lia. cbn [Nat.eqb]. rewrite Nat.add_sub, eqb_refl_nat. cbn [andb].
        destruct Hzz as [->| ->].
        -- by rewrite eqb_refl_nat.
        -- rewrite (Nat.add_1_r z'), (eqb_refl_nat (S z')), orb_true_r. done.
    + right. right. exists w, (2 * k + j), z, w', (2 * k' + j'), z'. cbn [fs_len zephyr_spec]. rewrite !mod2_j by done.
      unfold zephyr_covers in *. split_and!; try done; try lia; apply zephyr_num.
  - intros u w k j s Hw Hk Hj. unfold frag_edge. cbn [fst snd fs_coords fs_first fs_odd fs_topo fs_len zephyr_spec].
    rewrite ltb_false by (unfold linemajor_linear; lia). rewrite !zephyr_coords_num, !zephyr_first_num by (done || lia). destruct s as [em bm].
    rewrite eqb_reflx, !eqb_refl_nat. rewrite (Nat.add_1_r j), eqb_refl_nat. cbn [andb fst snd]. done.
  - intros w k j w' k' j' s Hw Hk Hj Hw' Hk' Hj'. unfold frag_edge. cbn [fst snd fs_coords fs_first fs_odd fs_topo fs_len zephyr_spec].
    rewrite ltb_false by (apply Nat.lt_le_incl, snum_dir; done). rewrite !zephyr_coords_num, !zephyr_first_num by (done || lia). destruct s as [em bm].
    cbn [eqb fst snd]. done.
Qed.

(** ** Pegasus *)
Section pegasus.
Context (d : nat) (offs : bool -> nat -> nat).
Lemma pegasus_split w k : k < 2 -> (w * 2 + k) mod 12 = 2 * (w mod 6) + k /\ (w * 2 + k) / 12 = w / 6.
Proof.
  intros Hk. pose proof (Nat.div_mod w 6 ltac:(lia)). pose proof (Nat.mod_upper_bound w 6 ltac:(lia)).
  assert (E : w * 2 + k = 12 * (w / 6) + (2 * (w mod 6) + k)) by lia. split.
  - symmetry. eapply Nat.mod_unique; [|exact E]. lia.
  - symmetry. eapply Nat.div_unique; [|exact E]. lia.
Qed.
Lemma half m k : k < 2 -> (2 * m + k) / 2 = m /\ (2 * m + k) mod 2 = k.
Proof. intros Hk. split; [symmetry; eapply Nat.div_unique; [exact Hk|done]|symmetry; eapply Nat.mod_unique; [exact Hk|done]]. Qed.
Lemma pegasus_num u w k z : pegasus_number d u w k z = snum (6 * d) 2 (d - 1) u (6 * w + k / 2) (k mod 2) z.
Proof.
  unfold pegasus_number, linemajor_linear, bit, b2n. pose proof (Nat.div_mod k 2 ltac:(lia)) as E.
  set (a := k / 2) in *. set (b := k mod 2) in *. rewrite E. set (y := d - 1). destruct u; ring.
Qed.
Lemma pegasus_linear_num u w k z : k < 2 -> pegasus_linear d u (w / 6) (2 * (w mod 6) + k) z = snum (6 * d) 2 (d - 1) u w k z.
Proof.
  intros Hk. unfold pegasus_linear, linemajor_linear. pose proof (Nat.div_mod w 6 ltac:(lia)) as E.
  set (a := w / 6) in *. set (b := w mod 6) in *. rewrite E. set (y := d - 1). destruct u; unfold b2n; ring.
Qed.
Lemma pegasus_coords_num u w k z : w < 6 * d -> k < 2 -> z < d - 1 ->
  pegasus_coords d (snum (6 * d) 2 (d - 1) u w k z) = (u, w / 6, 2 * (w mod 6) + k, z).
Proof.
  intros Hw Hk Hz. rewrite <- pegasus_linear_num by done. unfold pegasus_coords, pegasus_linear.
  pose proof (Nat.mod_upper_bound w 6 ltac:(lia)).
  apply linemajor_roundtrip; [apply Nat.div_lt_upper_bound; lia|lia|done].
Qed.
Lemma pegasus_first_num u w k z : w < 6 * d -> k < 2 -> z < d - 1 ->
  pegasus_first d offs (snum (6 * d) 2 (d - 1) u w k z) = (u, w, k, offs u (w mod 6) + 6 * z).
Proof.
  intros Hw Hk Hz. unfold pegasus_first. rewrite pegasus_coords_num by done.
  destruct (half (w mod 6) k Hk) as [-> ->]. replace (w / 6 * 6 + w mod 6) with w by (pose proof (Nat.div_mod w 6 ltac:(lia)); lia). f_equal. lia.
Qed.

Lemma pegasus_striped : 1 <= d -> (forall u i, i < 6 -> offs u i <= 6) ->
  striped (pegasus_spec d offs) (6 * d) 2 (d - 1) (fun u w _ => offs u (w mod 6)) (pegasus_coupler d offs).
Proof.
  intros Hd Hoff. split.
  - done.
  - lia.
  - cbn. lia.
  - intros u w k Hw Hk. cbn [fs_len pegasus_spec]. specialize (Hoff u (w mod 6) (Nat.mod_upper_bound w 6 ltac:(lia))). lia.
  - intros u w k j Hw Hk Hj. cbn [fs_first fs_len pegasus_spec]. by apply pegasus_first_num.
  - intros u w z0 z1 k Hw Hk Hz. cbn [fs_line fs_len pegasus_spec]. unfold pegasus_line. destruct (pegasus_split w k Hk) as [-> ->].
    destruct (half (w mod 6) k Hk) as [-> _]. cbn zeta. rewrite ltb_false by done. apply list_fmap_ext.
    intros i x _. by apply pegasus_linear_num.
  - assert (P : forall w k, w < d -> k < 12 -> 6 * w + k / 2 < 6 * d /\ k mod 2 < 2 /\ (6 * w + k / 2) mod 6 = k / 2).
    { intros w k Hw Hk. assert (k / 2 < 6) by (apply Nat.div_lt_upper_bound; lia). split_and!; [lia|apply Nat.mod_upper_bound; lia|].
      symmetry. eapply Nat.mod_unique; [|reflexivity]. lia. }
    intros p q Hc. destruct Hc as [u w k z Hw Hk Hz|u w k z Hw Hk Hz|w k z w' k' z' Hw Hk Hz Hw' Hk' Hz' C C'].
    + left. destruct (P w k Hw Hk) as (P1 & P2 & P3). exists u, (6 * w + k / 2), (k mod 2), z. split_and!; try done; apply pegasus_num.
    + right. left. rewrite !pegasus_num. replace (2 * k) with (2 * k + 0) by lia.
      destruct (half k 0 ltac:(lia)) as [-> ->]. rewrite Nat.add_0_r. destruct (half k 1 ltac:(lia)) as [-> ->].
      split_and!.
      * unfold linemajor_linear. set (X := 2 * (6 * w + k + 6 * d * b2n u)).
        replace ((d - 1) * (1 + X)) with ((d - 1) * (0 + X) + (d - 1)) by lia. lia.
      * exists u, (6 * w + k), 0, z, 1, z. split_and!; try done; lia.
      * intros s. unfold frag_edge. cbn [fst snd fs_coords fs_first fs_odd fs_topo pegasus_spec].
        rewrite ltb_false. 2:{ unfold linemajor_linear. set (X := 2 * (6 * w + k + 6 * d * b2n u)).
          replace ((d - 1) * (1 + X)) with ((d - 1) * (0 + X) + (d - 1)) by lia. lia. }
        rewrite !pegasus_coords_num, !pegasus_first_num by (done || lia). destruct s as [em bm].
        rewrite eqb_reflx, !eqb_refl_nat. cbn [andb].
        match goal with |- context [?a + 0 =? ?b + 1] => destruct (Nat.eqb_spec (a + 0) (b + 1)) as [|_]; [lia|] end. cbn [andb].
        unfold flip. rewrite mod2_j by lia. cbn [Nat.eqb]. rewrite Nat.add_sub, Nat.add_0_r, !eqb_refl_nat. done.
    + right. right. destruct (P w k Hw Hk) as (P1 & P2 & P3). destruct (P w' k' Hw' Hk') as (Q1 & Q2 & Q3).
      exists (6 * w + k / 2), (k mod 2), z, (6 * w' + k' / 2), (k' mod 2), z'. cbn [fs_len pegasus_spec]. rewrite P3, Q3.
      unfold pegasus_covers, pegasus_position in *. split_and!; try done; try lia; apply pegasus_num.
  - intros u w k j s Hw Hk Hj. unfold frag_edge. cbn [fst snd fs_coords fs_first fs_odd fs_topo fs_len pegasus_spec].
    rewrite ltb_false by (unfold linemajor_linear; lia). rewrite !pegasus_coords_num, !pegasus_first_num by (done || lia). destruct s as [em bm].
    rewrite eqb_reflx, !eqb_refl_nat. rewrite (Nat.add_1_r j), eqb_refl_nat. cbn [andb fst snd]. done.
  - intros w k j w' k' j' s Hw Hk Hj Hw' Hk' Hj'. unfold frag_edge. cbn [fst snd fs_coords fs_first fs_odd fs_topo fs_len pegasus_spec].
    rewrite ltb_false by (apply Nat.lt_le_incl, snum_dir; done). rewrite !pegasus_coords_num, !pegasus_first_num by (done || lia). destruct s as [em bm].
    cbn [eqb fst snd]. done.
Qed.
End pegasus.

(** ** statements about the API *)
Lemma no_loops {fs D sh nz off coupler} (St : striped fs D sh nz off coupler) (edges : list (nat * nat)) :
  geometric coupler edges -> Forall (fun e => e.1 <> e.2) edges.
Proof.
  intros Hg. apply Forall_forall. intros [p q] H. cbn [fst snd]. destruct (Hg p q H) as [[? _]%(coupler_kind _ _ _ _ _ _ St)|[? _]%(coupler_kind _ _ _ _ _ _ St)]; lia.
Qed.
Lemma of_lattice_graph D sh nz total coupler nodes edges : total = 2 * D * sh * nz -> lattice_graph total coupler nodes edges ->
  lattice D sh nz coupler nodes edges.
Proof.
  intros -> [H1 H2]. split_and!.
  - exact H1.
  - intros p q H. destruct (H2 p q H) as (? & ? & _). done.
  - intros p q H. by destruct (H2 p q H) as (_ & _ & ?).
Qed.

Definition table_ok (nodes : list nat) (edges : list (nat * nat)) (embs : list (list (list nat))) : Prop :=
  forall i emb, embs !! i = Some emb -> clique_embedding nodes edges emb /\ (forall ch, ch ∈ emb -> 1 <= length ch <= i) /\
    (emb = [] \/ exists ch, ch ∈ emb /\ length ch = i).

Section best.
Context (fs : fspec) (D sh nz : nat) (off : bool -> nat -> nat -> nat) (coupler : nat -> nat -> Prop).
Context (St : striped fs D sh nz off coupler).
Context (nodes : list nat) (edges : list (nat * nat)) (HLt : lattice D sh nz coupler nodes edges).
Context (ys : list N * list N -> res yields) (bound minw : nat) (Hb2 : 2 <= bound).
Context (Hys : forall cells R, removed (fs_topo fs) (fnodes fs D sh nodes) (fedges fs D sh nodes edges) cells R ->
  exists y, ys cells = Ok y /\ good_slots nodes edges bound y /\ peel_holds fs D sh nodes edges R minw y.2).
Context (wire : bool -> nat -> nat -> nat -> nat -> Prop).
Context (Hwire : forall u w k z0 z1, w < D -> k < sh -> z1 < D -> wire u w k z0 z1 <->
     wire_complete (fun j => snum D sh nz u w k j) (fun j pos => off u w k + fs_len fs * j <= pos < off u w k + fs_len fs * S j) nz nodes edges z0 z1).

Lemma frag_best_top mb shuf coin : (forall i l, shuf i l ≡ₚ l) -> (1 <= mb)%N ->
  exists c, frag_init fs nodes edges = Ok c /\ forall bad, bad ≡ₚ tc_bad c -> exists n, forall fuel, n <= fuel ->
  exists masks embs, mask_run fuel c mb shuf coin 0 (mkTS 0 bad ([], [])) = Ok masks /\
    frag_best_cliques ys masks (short_clique 4 nodes edges []) = Ok embs /\ length embs = bound /\ table_ok nodes edges embs /\
    (crossed fs D sh nz off nodes edges -> forall w Ls k, minw <= w <= D -> peeling D D w Ls -> ells_offer sh wire Ls k ->
       k = 0 \/ exists i emb, embs !! i = Some emb /\ k <= length emb).
Proof.
  intros Hp Hmb. destruct (frag_masked _ _ _ _ _ _ St _ _ HLt mb shuf coin Hp Hmb) as (c & Ec & H). exists c. split; [done|].
  intros bad HP. destruct (H bad HP) as [n Hn]. exists n. intros fuel HF. destruct (Hn fuel HF) as (masks & Em & Hne & HM & Hcr).
  pose proof (no_loops St edges) as HL. destruct HLt as (H1 & H2 & H3). specialize (HL H3).
  destruct (short_clique_ok nodes edges HL H2 4 ltac:(lia)) as (S1 & S2 & _ & _).
  destruct (frag_best_run _ _ _ _ _ _ St _ _ HLt ys bound minw masks (short_clique 4 nodes edges []) Hb2 Hys HM Hne S1 S2)
    as (embs & Eb & Hl & He1 & Hv & Hpe).
  exists masks, embs. split_and!; [done|done|done| |].
  - intros i emb Hi. destruct (decide (i = 1)) as [->|Hi1].
    + rewrite He1 in Hi. injection Hi as <-. split_and!; [done| |].
      * intros ch Hch. rewrite (S2 ch Hch). lia.
      * destruct (short_clique 4 nodes edges []) as [|ch e] eqn:E; [by left|]. right. exists ch. split; [left|]. apply S2. left.
    + destruct (Hv i emb Hi Hi1) as (V1 & V2 & V3). split_and!; [done| |done]. intros ch Hch. specialize (V2 ch Hch). lia.
  - intros Hc w Ls k Hw HLs Hk. specialize (Hcr Hc). destruct masks as [|cells masks]; [done|].
    inversion Hcr as [|? ? Hc1 _]; subst.
    pose proof (offer_capacity _ _ _ _ _ _ St _ _ HLt wire w Ls k Hwire HLs Hk) as Hcap.
    exact (Hpe cells [] ltac:(left) Hc1 w Ls k Hw HLs Hcap).
Qed.
End best.

Lemma zephyr_wire_ok d t nodes edges u w k z0 z1 :
  zephyr_wire d t nodes edges u w k z0 z1 <->
  wire_complete (fun j => snum (2 * d + 1) (2 * t) d u w k j) (fun j pos => k mod 2 + 2 * j <= pos < k mod 2 + 2 * S j) d nodes edges z0 z1.
Proof.
  unfold zephyr_wire, wire_complete, zephyr_covers.
  assert (E : forall j, zephyr_number d t u w (k / 2) (k mod 2) j = snum (2 * d + 1) (2 * t) d u w k j).
  { intros j. rewrite zephyr_num. pose proof (Nat.div_mod k 2 ltac:(lia)). f_equal. lia. }
  split; intros [H1 H2]; split.
  - intros pos Hp. destruct (H1 pos Hp) as (j & Hj & Hc & Hin). exists j. rewrite E in Hin. split_and!; [done|lia|lia|done].
  - intros j pos Hj Hp0 Hp1 Hc Hc'. rewrite <- !E. eapply H2; [done|done|done|lia|lia].
  - intros pos Hp. destruct (H1 pos Hp) as (j & Hj & Hc & Hin). exists j. rewrite E. split_and!; [done|lia|done].
  - intros j pos Hj Hp0 Hp1 Hc Hc'. rewrite !E. eapply H2; [done|done|done|lia|lia].
Qed.
Lemma zephyr_crossed_ok d t nodes edges : zephyr_crossed d t nodes edges ->
  crossed (zephyr_spec d t) (2 * d + 1) (2 * t) d (fun _ _ k => k mod 2) nodes edges.
Proof.
  intros H w k j w' k' j' Hw Hk Hj Hw' Hk' Hj' C C'. cbn [fs_len zephyr_spec] in *.
  pose proof (Nat.mod_upper_bound k 2 ltac:(lia)). pose proof (Nat.mod_upper_bound k' 2 ltac:(lia)).
  assert (k / 2 < t) by (apply Nat.div_lt_upper_bound; lia). assert (k' / 2 < t) by (apply Nat.div_lt_upper_bound; lia).
  pose proof (H w (k / 2) (k mod 2) j w' (k' / 2) (k' mod 2) j') as G. rewrite !zephyr_num in G.
  rewrite <- (Nat.div_mod k 2), <- (Nat.div_mod k' 2) in G by lia. apply G; try done; unfold zephyr_covers; lia.
Qed.

Lemma zephyr_cliques_top d t nodes edges mb shuf coin : t <= 4 ->
  lattice_graph (zephyr_total d t) (zephyr_coupler d t) nodes edges -> (forall i l, shuf i l ≡ₚ l) -> (1 <= mb)%N ->
  exists c, frag_init (zephyr_spec d t) nodes edges = Ok c /\ forall bad, bad ≡ₚ tc_bad c -> exists n, forall fuel, n <= fuel ->
  exists masks embs, mask_run fuel c mb shuf coin 0 (mkTS 0 bad ([], [])) = Ok masks /\
    frag_best_cliques (zephyr_yields d t) masks (short_clique 4 nodes edges []) = Ok embs /\ length embs = 4 + d /\ table_ok nodes edges embs /\
    (zephyr_crossed d t nodes edges -> forall w Ls k, 1 <= w <= 2 * d + 1 -> peeling (2 * d + 1) (2 * d + 1) w Ls ->
       ells_offer (2 * t) (zephyr_wire d t nodes edges) Ls k -> k = 0 \/ exists i emb, embs !! i = Some emb /\ k <= length emb).
Proof.
  intros Ht Hg Hp Hmb. pose proof (zephyr_striped d t Ht) as St.
  assert (HLt : lattice (2 * d + 1) (2 * t) d (zephyr_coupler d t) nodes edges) by (eapply of_lattice_graph; [|exact Hg]; unfold zephyr_total; ring).
  destruct (frag_best_top _ _ _ _ _ _ St nodes edges HLt (zephyr_yields d t) (4 + d) 1 ltac:(lia)
    (zephyr_yields_ok d t d _ _ St nodes edges HLt) (zephyr_wire d t nodes edges)) with (mb := mb) (shuf := shuf) (coin := coin) as (c & Ec & H); [|done|done|].
  { intros u w k z0 z1 _ _ _. apply zephyr_wire_ok. }
  exists c. split; [done|]. intros bad HP. destruct (H bad HP) as [n Hn]. exists n. intros fuel HF. destruct (Hn fuel HF) as (masks & embs & ? & ? & ? & ? & HO).
  exists masks, embs. split_and!; [done..|]. intros Hc%zephyr_crossed_ok. by apply HO.
Qed.

Lemma pegasus_wire_ok d offs nodes edges u w k z0 z1 : k < 2 ->
  pegasus_wire d offs nodes edges u w k z0 z1 <->
  wire_complete (fun j => snum (6 * d) 2 (d - 1) u w k j) (fun j pos => offs u (w mod 6) + 6 * j <= pos < offs u (w mod 6) + 6 * S j) (d - 1) nodes edges z0 z1.
Proof.
  intros Hk. unfold pegasus_wire, wire_complete, pegasus_covers. destruct (half (w mod 6) k Hk) as [E0 E1]. rewrite E0.
  assert (E : forall j, pegasus_number d u (w / 6) (2 * (w mod 6) + k) j = snum (6 * d) 2 (d - 1) u w k j).
  { intros j. rewrite pegasus_num, E0, E1. f_equal. by rewrite <- Nat.div_mod. }
  split; intros [H1 H2]; split.
  - intros pos Hp. destruct (H1 pos Hp) as (j & Hj & Hc & Hin). exists j. rewrite E in Hin. split_and!; [done|lia|lia|done].
  - intros j pos Hj Hp0 Hp1 Hc Hc'. rewrite <- !E. eapply H2; [done|done|done|lia|lia].
  - intros pos Hp. destruct (H1 pos Hp) as (j & Hj & Hc & Hin). exists j. rewrite E. split_and!; [done|lia|lia|done].
  - intros j pos Hj Hp0 Hp1 Hc Hc'. rewrite !E. eapply H2; [done|done|done|lia|lia].
Qed.
Lemma pegasus_crossed_ok d offs nodes edges : pegasus_crossed d offs nodes edges ->
  crossed (pegasus_spec d offs) (6 * d) 2 (d - 1) (fun u w _ => offs u (w mod 6)) nodes edges.
Proof.
  intros H w k j w' k' j' Hw Hk Hj Hw' Hk' Hj' C C'. cbn [fs_len pegasus_spec] in *.
  pose proof (Nat.mod_upper_bound w 6 ltac:(lia)). pose proof (Nat.mod_upper_bound w' 6 ltac:(lia)).
  assert (w / 6 < d) by (apply Nat.div_lt_upper_bound; lia). assert (w' / 6 < d) by (apply Nat.div_lt_upper_bound; lia).
  pose proof (H (w / 6) (2 * (w mod 6) + k) j (w' / 6) (2 * (w' mod 6) + k') j') as G. rewrite !pegasus_num in G.
  unfold pegasus_covers, pegasus_position in G.
  destruct (half (w mod 6) k Hk) as [E0 E1]. destruct (half (w' mod 6) k' Hk') as [E0' E1']. rewrite E0, E1, E0', E1' in G.
  rewrite <- (Nat.div_mod w 6), <- (Nat.div_mod w' 6) in G by lia. apply G; try done; lia.
Qed.

Lemma pegasus_cliques_top d offs nodes edges mb shuf coin : 1 <= d -> (forall u i, i < 6 -> offs u i <= 6) ->
  lattice_graph (pegasus_total d) (pegasus_coupler d offs) nodes edges -> (forall i l, shuf i l ≡ₚ l) -> (1 <= mb)%N ->
  exists c, frag_init (pegasus_spec d offs) nodes edges = Ok c /\ forall bad, bad ≡ₚ tc_bad c -> exists n, forall fuel, n <= fuel ->
  exists masks embs, mask_run fuel c mb shuf coin 0 (mkTS 0 bad ([], [])) = Ok masks /\
    frag_best_cliques (pegasus_yields d offs) masks (short_clique 4 nodes edges []) = Ok embs /\ length embs = 5 + d /\ table_ok nodes edges embs /\
    (pegasus_crossed d offs nodes edges -> forall w Ls k, 2 <= w <= 6 * d -> peeling (6 * d) (6 * d) w Ls ->
       ells_offer 2 (pegasus_wire d offs nodes edges) Ls k -> k = 0 \/ exists i emb, embs !! i = Some emb /\ k <= length emb).
Proof.
  intros Hd Hoff Hg Hp Hmb. pose proof (pegasus_striped d offs Hd Hoff) as St.
  assert (HLt : lattice (6 * d) 2 (d - 1) (pegasus_coupler d offs) nodes edges) by (eapply of_lattice_graph; [|exact Hg]; unfold pegasus_total; ring).
  destruct (frag_best_top _ _ _ _ _ _ St nodes edges HLt (pegasus_yields d offs) (5 + d) 2 ltac:(lia)
    (pegasus_yields_ok d (d - 1) offs _ _ St nodes edges HLt) (pegasus_wire d offs nodes edges)) with (mb := mb) (shuf := shuf) (coin := coin) as (c & Ec & H); [|done|done|].
  { intros u w k z0 z1 _ Hk _. by apply pegasus_wire_ok. }
  exists c. split; [done|]. intros bad HP. destruct (H bad HP) as [n Hn]. exists n. intros fuel HF. destruct (Hn fuel HF) as (masks & embs & ? & ? & ? & ? & HO).
  exists masks, embs. split_and!; [done..|]. intros Hc%pegasus_crossed_ok. by apply HO.
Qed.

(** ** searching for a clique *)
Lemma zephyr_find_top d t nodes edges mb shuf coin size fuel0 : 1 <= t <= 4 -> 2 * t < size ->
  lattice_graph (zephyr_total d t) (zephyr_coupler d t) nodes edges -> (forall i l, shuf i l ≡ₚ l) -> (1 <= mb)%N ->
  exists c, frag_init (zephyr_spec d t) nodes edges = Ok c /\ forall bad, bad ≡ₚ tc_bad c -> exists n, forall fuel, n <= fuel ->
  exists masks b emb, mask_run fuel c mb shuf coin 0 (mkTS 0 bad ([], [])) = Ok masks /\
    frag_find_clique (zephyr_find_nice fuel0 d t) masks size [] = Ok (b, emb) /\
    if b : bool then clique_embedding nodes edges emb /\ size <= length emb
    else emb = [] /\ (zephyr_crossed d t nodes edges -> forall w Ls k, w <= 2 * d + 1 -> peeling (2 * d + 1) (2 * d + 1) w Ls ->
       ells_offer (2 * t) (zephyr_wire d t nodes edges) Ls k -> k < size).
Proof.
  intros Ht Hs Hg Hp Hmb. pose proof (zephyr_striped d t ltac:(lia)) as St.
  assert (HLt : lattice (2 * d + 1) (2 * t) d (zephyr_coupler d t) nodes edges) by (eapply of_lattice_graph; [|exact Hg]; unfold zephyr_total; ring).
  destruct (frag_masked _ _ _ _ _ _ St _ _ HLt mb shuf coin Hp Hmb) as (c & Ec & H). exists c. split; [done|].
  intros bad HP. destruct (H bad HP) as [n Hn]. exists n. intros fuel HF. destruct (Hn fuel HF) as (masks & Em & Hne & HM & Hcr).
  destruct (zephyr_find_run d t d _ _ St nodes edges HLt size Hs ltac:(lia) fuel0 masks HM) as (b & emb & Ef & Hb).
  exists masks, b, emb. split_and!; [done|done|]. destruct b; [done|]. destruct Hb as [-> Hb]. split; [done|].
  intros Hc%zephyr_crossed_ok w Ls k Hw HLs Hk. specialize (Hcr Hc). destruct masks as [|cells masks]; [done|].
  inversion Hcr as [|? ? Hc1 _]; subst.
  pose proof (offer_capacity _ _ _ _ _ _ St _ _ HLt (zephyr_wire d t nodes edges) w Ls k (fun u w k z0 z1 _ _ _ => zephyr_wire_ok d t nodes edges u w k z0 z1) HLs Hk) as Hcap.
  exact (Hb cells [] ltac:(left) Hc1 w Ls k Hw HLs Hcap).
Qed.
Lemma pegasus_find_top d offs nodes edges mb shuf coin size : 1 <= d -> (forall u i, i < 6 -> offs u i <= 6) -> 3 <= size ->
  lattice_graph (pegasus_total d) (pegasus_coupler d offs) nodes edges -> (forall i l, shuf i l ≡ₚ l) -> (1 <= mb)%N ->
  exists c, frag_init (pegasus_spec d offs) nodes edges = Ok c /\ forall bad, bad ≡ₚ tc_bad c -> exists n, forall fuel, n <= fuel ->
  exists masks b emb, mask_run fuel c mb shuf coin 0 (mkTS 0 bad ([], [])) = Ok masks /\
    frag_find_clique (pegasus_find_nice d offs) masks size [] = Ok (b, emb) /\
    if b : bool then clique_embedding nodes edges emb /\ size <= length emb
    else emb = [] /\ (pegasus_crossed d offs nodes edges -> forall w Ls k, w <= 6 * d -> peeling (6 * d) (6 * d) w Ls ->
       ells_offer 2 (pegasus_wire d offs nodes edges) Ls k -> k < size).
Proof.
  intros Hd Hoff Hs Hg Hp Hmb. pose proof (pegasus_striped d offs Hd Hoff) as St.
  assert (HLt : lattice (6 * d) 2 (d - 1) (pegasus_coupler d offs) nodes edges) by (eapply of_lattice_graph; [|exact Hg]; unfold pegasus_total; ring).
  destruct (frag_masked _ _ _ _ _ _ St _ _ HLt mb shuf coin Hp Hmb) as (c & Ec & H). exists c. split; [done|].
  intros bad HP. destruct (H bad HP) as [n Hn]. exists n. intros fuel HF. destruct (Hn fuel HF) as (masks & Em & Hne & HM & Hcr).
  destruct (pegasus_find_run d (d - 1) offs _ _ St nodes edges HLt size Hs masks HM) as (b & emb & Ef & Hb).
  exists masks, b, emb. split_and!; [done|done|]. destruct b; [done|]. destruct Hb as [-> Hb]. split; [done|].
  intros Hc%pegasus_crossed_ok w Ls k Hw HLs Hk. specialize (Hcr Hc). destruct masks as [|cells masks]; [done|].
  inversion Hcr as [|? ? Hc1 _]; subst.
  pose proof (offer_capacity _ _ _ _ _ _ St _ _ HLt (pegasus_wire d offs nodes edges) w Ls k (fun u w k z0 z1 _ Hk _ => pegasus_wire_ok d offs nodes edges u w k z0 z1 Hk) HLs Hk) as Hcap.
  exact (Hb cells [] ltac:(left) Hc1 w Ls k Hw HLs Hcap).
Qed.
