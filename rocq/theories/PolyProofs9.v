(** The biclique methods of [processor], over all subprocessors. *)
From stdpp Require Import base list numbers gmap.
From Verif Require Import Base NxModel PyCacheModel PolyModel SpecBus SpecPoly PolyProofs1 PolyProofs2 PolyProofs3 PolyProofs4 PolyProofs5 PolyProofs7 PolyProofs8.

Section offers.
  Context (M N L limit : nat) (edges : list (nat * nat)) (HN : 0 < N) (HL : 0 < L).
  Notation p := (make_proc M N L limit edges).
  Lemma through_lines R D u w0 w1 z0 z1 c a b : z0 <= z1 -> w1 < nlines M N u -> z1 < npositions M N u -> (forall q, q ∈ D -> poly_to_linear N L q ∈ R) ->
    a = Z.of_nat z0 /\ b = Z.of_nat z1 \/ a = Z.of_nat z1 /\ b = Z.of_nat z0 ->
    lines_through N L (without R (ends edges)) (edges_without R edges) u w0 w1 z0 z1 c ->
    (forall w k, w0 <= w <= w1 -> k < L -> segment_present N L (without R (ends edges)) (edges_without R edges) u w z0 z1 k ->
      exists z, z0 <= z <= z1 /\ has_qubit (subprocessor p D) (lq u w z k) = true) ->
    c <= length (lines (subprocessor p D) u (Z.of_nat w0) (S (w1 - w0)) a b).
  Proof using HN HL.
    intros Hz Hw Hzp HD Hab (l & Hnd & <- & Hl) Hq.
    assert (Hmm : Z.to_nat (Z.min a b) = z0 /\ Z.to_nat (Z.max a b) = z1) by lia.
    rewrite <- (fmap_length (fun wk : nat * nat => line_of u (Z.of_nat wk.1) a b wk.2) l). apply submseteq_length, NoDup_submseteq.
    - apply NoDup_fmap_2; [|done]. intros [w k] [w' k'] E. simpl in E.
      assert (E0 : line_of u (Z.of_nat w) a b k !! 0 = line_of u (Z.of_nat w') a b k' !! 0) by congruence.
      rewrite !line_first, !Nat2Z.id in E0. injection E0 as E0. destruct u; simpl in E0; congruence.
    - intros x ([w k] & -> & Hwk)%elem_of_list_fmap. apply Hl in Hwk as (Hw' & Hk & Hs). apply elem_of_lines; [lia|lia|].
      exists (Z.of_nat w), k. split_and!; [lia|lia|done|done|]. rewrite Nat2Z.id. destruct Hmm as [-> ->].
      apply (segment_seg M N L limit edges HN HL R D); [done|done|done|lia|done|done|by apply Hq].
  Qed.
  Lemma offers_size R D r0 r1 c0 c1 a b : covers M N L edges R -> (forall q, q ∈ D -> poly_to_linear N L q ∈ R) -> r0 <= r1 -> r1 < M -> c0 <= c1 -> c1 < N ->
    rectangle_offers N L (without R (ends edges)) (edges_without R edges) r0 r1 c0 c1 a b -> 0 < a -> 0 < b ->
    let Q := (Z.of_nat r0, Z.of_nat r1, Z.of_nat c0, Z.of_nat c1) in
    rin (subprocessor p D) Q /\ rect_lengths Q = (S (r1 - r0), S (c1 - c0)) /\
    a <= length (biclique (subprocessor p D) Q).1 /\ b <= length (biclique (subprocessor p D) Q).2.
  Proof using HN HL.
    intros Hcov HD Hr Hr1 Hc Hc1 [Ha Hb] Pa Pb Q. assert (HQ : rin (subprocessor p D) Q) by (unfold rin, Q; simpl; lia).
    split; [done|]. split; [unfold Q; simpl; f_equal; lia|].
    unfold Q. rewrite (biclique_lines _ _ _ _ _ HQ). cbn [fst snd].
    assert (Ea : exists w k, c0 <= w <= c1 /\ k < L /\ segment_present N L (without R (ends edges)) (edges_without R edges) false w r0 r1 k).
    { destruct Ha as ([|[w k] l] & _ & E & Hl); [simpl in E; lia|]. exists w, k. apply Hl. left. }
    assert (Eb : exists w k, r0 <= w <= r1 /\ k < L /\ segment_present N L (without R (ends edges)) (edges_without R edges) true w c0 c1 k).
    { destruct Hb as ([|[w k] l] & _ & E & Hl); [simpl in E; lia|]. exists w, k. apply Hl. left. }
    destruct Ea as (wa & ka & Hwa & Hka & Sa), Eb as (wb & kb & Hwb & Hkb & Sb).
    replace (Z.to_nat (Z.of_nat c1 - Z.of_nat c0)) with (c1 - c0) by lia. replace (Z.to_nat (Z.of_nat r1 - Z.of_nat r0)) with (r1 - r0) by lia. split.
    - apply (through_lines R D false c0 c1 r0 r1); [done|done|done|done|by left|done|].
      intros w k Hw Hk Sk. exists wb. split; [done|]. simpl. eapply (proj1 (crossing M N L limit edges HN HL R D wb w k kb Hcov HD ltac:(lia) ltac:(lia) Hk Hkb
        (proj1 Sk wb ltac:(lia)) (proj1 Sb w ltac:(lia)))).
    - apply (through_lines R D true r0 r1 c0 c1); [done|done|done|done|by right|done|].
      intros w k Hw Hk Sk. exists wa. split; [done|]. simpl. eapply (proj2 (crossing M N L limit edges HN HL R D w wa ka k Hcov HD ltac:(lia) ltac:(lia) Hka Hk
        (proj1 Sa w ltac:(lia)) (proj1 Sk wa ltac:(lia)))).
  Qed.
  Lemma subs_only samp picks P : 0 < limit -> find_evil p = [] -> P ∈ subprocessors samp picks p -> P = subprocessor p ∅.
  Proof using HN HL.
    intros Hlim E. unfold subprocessors. rewrite E. simpl length. simpl pr_limit. change (2 ^ 0) with 1. rewrite (proj2 (Nat.leb_le 1 limit)) by lia.
    intros (D & -> & HD)%elem_of_list_fmap. apply elem_of_list_singleton in HD as ->. done.
  Qed.
End offers.

Section tops.
  Context (M N L limit : nat) (edges : list (nat * nat)) (HM : 0 < M) (HN : 0 < N) (HL : 0 < L) (Hlimit : 0 < limit).
  Context (ord : list (nat * nat) -> list (nat * nat)) (Hord : forall l, ord l ≡ₚ l).
  Context (samp : nat -> list (gset cq) -> list (gset cq)) (picks : nat -> cq * cq -> bool).
  Context (Hsamp : forall k l, k <= length l -> length (samp k l) = k /\ forall x, x ∈ samp k l -> x ∈ l).
  Notation p := (make_proc M N L limit edges).

  Lemma proc_largest_biclique_ok imb mcl : mcl <> Some 0 -> exists A B la lb, proc_largest_biclique ord samp picks p imb mcl = Ok (A, B) /\
    biclique_embedding (ends edges) edges (length A) (length B) (A ++ B) /\
    (forall c, c ∈ A -> wire edges c /\ length c = la) /\ (forall c, c ∈ B -> wire edges c /\ length c = lb) /\ allowed imb mcl la lb /\
    (few_missing M N L edges limit -> (forall q, q ∈ ends edges -> q < nqubits M N L) -> lines_intact M N L edges ->
      forall R r0 r1 c0 c1 a b, covers M N L edges R -> r0 <= r1 -> r1 < M -> c0 <= c1 -> c1 < N -> allowed imb mcl (S (r1 - r0)) (S (c1 - c0)) ->
        rectangle_offers N L (without R (ends edges)) (edges_without R edges) r0 r1 c0 c1 a b -> 0 < a -> 0 < b ->
        lex_le (a `min` b, a `max` b) (length A `min` length B, length A `max` length B)).
  Proof using HM HN HL Hlimit Hord Hsamp.
    intros Hmcl. unfold proc_largest_biclique.
    destruct (map_processors_ok (subprocessors samp picks p) (fun P g => let! b := largest_native_biclique ord P imb mcl in Ok ((Some b.1, b.2), g)) (better_score pair_lt)
      (fun P r => exists r', r = (Some r'.1, r'.2) /\ lb_post P imb mcl r') (fun a b => match a.1, b.1 with None, _ => True | Some _, None => False | Some x, Some y => lex_le x y end) 0)
      as (r & g' & -> & (P & HP & Hpost) & Hall).
    - by apply subs_nonempty.
    - intros P g HPin. destruct (subs_hit M N L limit edges HN HL samp picks Hsamp P HPin) as (D & -> & _).
      destruct (largest_biclique_ok ord Hord (subprocessor p D) imb mcl HM HN Hmcl) as (r & -> & Hr). cbn [rbind]. eexists _, g. split; [done|]. by exists r.
    - intros [[s|] ?]; simpl; [apply lex_le_refl|done].
    - intros [[a|] ?] [[b|] ?] [[c|] ?]; simpl; try done. apply lex_le_trans.
    - intros [[s|] ?] [[x|] ?]; simpl; try done. intros E. apply pair_lt_true in E. unfold lex_le in *. lia.
    - intros [[s|] ?] [[x|] ?]; simpl; try done. intros E. by apply pair_lt_false.
    - cbn [rbind]. destruct Hpost as ([sz0 AB] & -> & R & sz & HR & Hal & HAB & Hsz & Hkey & _). simpl in HAB, Hkey. subst AB sz0. cbn [fst snd].
      destruct (subs_hit M N L limit edges HN HL samp picks Hsamp P HP) as (D & -> & HD).
      pose proof (sub_cell_ok M N L limit edges HN HL D HD) as Hcell.
      destruct (biclique_lin _ edges _ _ _ _ (sub_sub_graph M N L limit edges HN HL D) (rect_biclique _ R Hcell HR)) as (V1 & V2 & V3).
      eexists _, _, _, _. split; [done|]. unfold translate at 1 2. rewrite !map_length. split; [exact V1|]. split; [exact V2|]. split; [exact V3|]. split; [done|].
      intros Hfew Hrange Hint R0 r0 r1 c0 c1 a b Hcov Hr Hr1 Hc Hc1 Hall' Hoff Pa Pb. unfold translate. rewrite !map_length.
      destruct (subs_cover M N L limit edges HN HL samp picks Hsamp R0 Hfew Hcov) as (D' & HD'in & HD' & HDR).
      destruct (Hall _ HD'in) as (r' & ([sz' AB'] & -> & R' & szR & _ & _ & _ & _ & _ & Hbest) & Hle). simpl in Hle, Hbest.
      pose proof (sub_intact M N L limit edges HN HL D' Hrange Hint) as Hi'.
      destruct (offers_size M N L limit edges HN HL R0 D' r0 r1 c0 c1 a b Hcov HDR Hr Hr1 Hc Hc1 Hoff Pa Pb) as (Q1 & Q2 & Q3 & Q4).
      set (Q := (Z.of_nat r0, Z.of_nat r1, Z.of_nat c0, Z.of_nat c1)) in *. destruct (size_ok _ Q Q1) as (h & v & Hs & _ & _ & Heq). destruct (Heq Hi') as [Eh Ev].
      assert (Hb : lex_le (sortedpair (h, v)) sz') by (apply (Hbest Q); [done|by rewrite Q2|done]).
      destruct (size_ok _ R HR) as (h1 & v1 & Hs1 & L1 & L2 & _). rewrite Hsz in Hs1. injection Hs1 as ->.
      eapply lex_le_trans; [|exact (lex_le_mono h1 v1 _ _ L1 L2)]. eapply lex_le_trans; [|exact Hle]. eapply lex_le_trans; [|exact Hb].
      apply (lex_le_mono a b h v); lia.
  Qed.
  Lemma proc_largest_biclique_raises imb : proc_largest_biclique ord samp picks p imb (Some 0) = Err BadInit.
  Proof using HM HN HL Hlimit Hord Hsamp.
    unfold proc_largest_biclique. destruct (subprocessors samp picks p) as [|P ps] eqn:Es; [by destruct (subs_nonempty M N L limit edges HN HL samp picks Hsamp Hlimit)|].
    unfold map_to_processors. by rewrite (largest_biclique_raises ord Hord P imb).
  Qed.

  Lemma proc_tightest_biclique_ok n mo imb mcl : let m := default n mo in
    exists r, proc_tightest_biclique ord samp picks p n mo imb mcl = Ok r /\
    (forall A B, r = Some (A, B) -> length A = n /\ length B = m /\ biclique_embedding (ends edges) edges n m (A ++ B) /\
      exists la lb, (forall c, c ∈ A -> wire edges c /\ length c = la) /\ (forall c, c ∈ B -> wire edges c /\ length c = lb) /\ allowed imb mcl la lb) /\
    (few_missing M N L edges limit -> (forall q, q ∈ ends edges -> q < nqubits M N L) -> lines_intact M N L edges -> 0 < n -> 0 < m ->
      forall R r0 r1 c0 c1 a b, covers M N L edges R -> r0 <= r1 -> r1 < M -> c0 <= c1 -> c1 < N -> allowed imb mcl (S (r1 - r0)) (S (c1 - c0)) ->
        rectangle_offers N L (without R (ends edges)) (edges_without R edges) r0 r1 c0 c1 a b -> (m <= a /\ n <= b \/ n <= a /\ m <= b) ->
        exists A B, r = Some (A, B) /\
          ((forall x y, ~ missing_coupler M N L (ends edges) edges x y) -> forall c, c ∈ A ++ B -> length c <= S (r1 - r0) `max` S (c1 - c0))).
  Proof using HM HN HL Hlimit Hord Hsamp.
    intros m. unfold proc_tightest_biclique.
    set (rk := fun r : option ((nat * nat) * (list (list cq) * list (list cq))) => match r with None => None | Some (_, o) => Some (measure o.1 + measure o.2) end).
    destruct (map_processors_ok (subprocessors samp picks p) (fun P g => let! b := tightest_native_biclique ord P n mo imb mcl in Ok (b, g)) fewer_qubits2
      (fun P r => tb_post P n m imb mcl r) (fun a b => match rk a, rk b with None, _ => True | Some _, None => False | Some x, Some y => y <= x end) 0)
      as (r & g' & -> & (P & HP & Hpost) & Hall).
    - by apply subs_nonempty.
    - intros P g HPin. destruct (subs_hit M N L limit edges HN HL samp picks Hsamp P HPin) as (D & -> & _).
      destruct (tightest_biclique_ok ord Hord (subprocessor p D) n mo imb mcl HM HN) as (r & -> & Hr). cbn [rbind]. by exists r, g.
    - intros s. by destruct (rk s).
    - intros a b c. destruct (rk a), (rk b), (rk c); try done; lia.
    - intros [[? s]|] [[? x]|]; unfold rk, fewer_qubits2; try done. intros E%Nat.ltb_lt. lia.
    - intros [[? s]|] [[? x]|]; unfold rk, fewer_qubits2; try done. intros E%Nat.ltb_ge. lia.
    - cbn [rbind]. cbn [fst]. destruct (subs_hit M N L limit edges HN HL samp picks Hsamp P HP) as (D & EP & HD).
      pose proof (sub_cell_ok M N L limit edges HN HL D HD) as Hcell.
      eexists. split; [done|]. split.
      + intros A B HAB. destruct r as [[sz [A' B']]|]; [|done]. injection HAB as <- <-. simpl in Hpost. subst P.
        destruct Hpost as (R & la & lb & HR & Hal & _ & LA & LB & Hok & _). specialize (Hok Hcell).
        destruct (biclique_lin _ edges _ _ _ _ (sub_sub_graph M N L limit edges HN HL D) Hok) as (V1 & V2 & V3). rewrite LA, LB in V1.
        unfold translate. rewrite !map_length. split_and!; try done. by exists la, lb.
      + intros Hfew Hrange Hint Hn Hm R0 r0 r1 c0 c1 a b Hcov Hr Hr1 Hc Hc1 Hall' Hoff Hfit.
        destruct (subs_cover M N L limit edges HN HL samp picks Hsamp R0 Hfew Hcov) as (D' & HD'in & HD' & HDR).
        assert (Pa : 0 < a) by lia. assert (Pb : 0 < b) by lia.
        pose proof (sub_intact M N L limit edges HN HL D' Hrange Hint) as Hi'.
        destruct (offers_size M N L limit edges HN HL R0 D' r0 r1 c0 c1 a b Hcov HDR Hr Hr1 Hc Hc1 Hoff Pa Pb) as (Q1 & Q2 & Q3 & Q4).
        set (Q := (Z.of_nat r0, Z.of_nat r1, Z.of_nat c0, Z.of_nat c1)) in *. destruct (size_ok _ Q Q1) as (h & v & Hs & _ & _ & Heq). destruct (Heq Hi') as [Eh Ev].
        assert (HfQ : fit n m (h, v)) by (unfold fit; simpl; lia).
        assert (Hsome : exists sz A' B', r = Some (sz, (A', B'))).
        { destruct (Hall _ HD'in) as (r' & Hp' & Hle). destruct r as [[sz [A' B']]|]; [by exists sz, A', B'|]. exfalso.
          destruct r' as [[sz' [A' B']]|]; [done|]. simpl in Hp'. apply (Hp' Q (h, v)); [done|by rewrite Q2|done|done]. }
        destruct Hsome as (sz & A' & B' & ->). eexists _, _. split; [done|]. intros Hno c Hc'.
        assert (Hevil : find_evil p = []).
        { destruct (find_evil p) as [|[x y] ev] eqn:Ev'; [done|]. exfalso. eapply Hno. apply (evil_missing M N L limit edges HN HL x y). rewrite Ev'. left. }
        apply (subs_only M N L limit edges HN HL samp picks _ Hlimit Hevil) in HP. apply (subs_only M N L limit edges HN HL samp picks _ Hlimit Hevil) in HD'in.
        rewrite HD'in in *. rewrite EP in HP. rewrite EP, HP in Hpost. rewrite HP in Hcell. clear EP. simpl in Hpost. destruct Hpost as (R & la & lb & HR & _ & Hlf & _ & _ & Hok & Hmin).
        specialize (Hmin Q (h, v) Q1 ltac:(by rewrite Q2) Hs HfQ). rewrite <- Hlf, Q2 in Hmin. unfold lex_le, largefirst in Hmin. simpl in Hmin.
        destruct (Hok Hcell) as (K1 & K2 & _). apply elem_of_app in Hc' as [(c' & -> & Hc')%elem_of_list_fmap|(c' & -> & Hc')%elem_of_list_fmap]; rewrite map_length.
        * destruct (K1 _ Hc') as [_ ->]. lia.
        * destruct (K2 _ Hc') as [_ ->]. lia.
  Qed.
End tops.
