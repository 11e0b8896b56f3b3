(** The clique methods of [processor]. *)
From stdpp Require Import base list numbers gmap.
From Verif Require Import Base NxModel PyCacheModel PolyModel SpecBus SpecPoly PolyProofs1 PolyProofs2 PolyProofs3 PolyProofs4 PolyProofs5.

Definition ole (a b : option nat) : Prop := match a, b with None, _ => True | Some _, None => False | Some x, Some y => x <= y end.
Lemma ole_refl a : ole a a. Proof. by destruct a; simpl. Qed.
Lemma ole_trans a b c : ole a b -> ole b c -> ole a c. Proof. destruct a, b, c; simpl; try done; lia. Qed.
Lemma better_score_true {T} (s x : option nat * T) : better_score Nat.ltb s x = true -> ole s.1 x.1.
Proof. unfold better_score. destruct s as [[a|] ?], x as [[b|] ?]; simpl; try done. intros H%Nat.ltb_lt. lia. Qed.
Lemma better_score_false {T} (s x : option nat * T) : better_score Nat.ltb s x = false -> ole x.1 s.1.
Proof. unfold better_score. destruct s as [[a|] ?], x as [[b|] ?]; simpl; try done. intros H%Nat.ltb_ge. lia. Qed.

Definition native_post (P : eden) (width : nat) (r : option nat * list (list cq)) : Prop :=
  exists L bs, is_ells (ed_M P) (ed_N P) (S width) L /\ Forall2 (bundle_of P) L bs /\ r.2 = concat bs /\
    (r.1 = None <-> forall e, ~ (ell_in (ed_M P) (ed_N P) e /\ ell_len e = S width)) /\
    (r.1 = None -> L = []) /\
    (forall s, r.1 = Some s -> s <= isum P L /\
      (intact P -> s = isum P L /\ forall L', is_ells (ed_M P) (ed_N P) (S width) L' -> isum P L' <= s)).
Lemma native_clique P width r : cell_ok P -> native_post P width r ->
  (forall c, c ∈ r.2 -> cchain P c /\ length c = S width) /\ pairwise (crel P) r.2 /\
  (forall s, r.1 = Some s -> s <= length r.2) /\
  (intact P -> forall L', is_ells (ed_M P) (ed_N P) (S width) L' -> isum P L' <= length r.2 /\ (L' <> [] -> exists s, r.1 = Some s /\ isum P L' <= s)) /\
  (intact P -> forall s, r.1 = Some s -> s = length r.2).
Proof.
  intros Hcell (L & bs & HL & HF & -> & Hnone & _ & Hs).
  destruct (ells_clique P (S width) L bs Hcell HL HF) as (H1 & H2 & H3). rewrite H3. split_and!; [done|done| | |].
  - intros s Hr. by apply Hs.
  - intros Hi L' HL'. destruct (decide (L' = [])) as [-> |Hne]; [split; [unfold isum; simpl; lia|done]|].
    destruct r.1 as [s|].
    + destruct (Hs s eq_refl) as [Hle [-> Hopt]]; [done|]. split; [by apply Hopt|]. intros _. exists (isum P L). split; [done|by apply Hopt].
    + exfalso. destruct L' as [|e L']; [done|]. apply (proj1 Hnone eq_refl e). apply HL'. left.
  - intros Hi s Hr. by apply Hs.
Qed.
Lemma ell_exists M N w : 1 <= w -> w < M + N -> 0 < M -> 0 < N -> exists e, ell_in M N e /\ ell_len e = S w.
Proof.
  intros. exists (mkEll 0 0 0 (w `min` M - 1) 0 (w - w `min` M)). unfold ell_in, ell_len. simpl. lia.
Qed.
Lemma no_ell M N w : w = 0 \/ M + N <= w -> forall e, ~ (ell_in M N e /\ ell_len e = S w).
Proof. intros H [row col top bot left right]. unfold ell_in, ell_len. simpl. lia. Qed.

(** *** Largest *)
Section largest.
  Context (rnd : nat -> nat) (shuf : nat -> list (list cq) -> list (list cq)) (rb : bool) (Hshuf : forall i l, shuf i l ≡ₚ l).
  Definition largest_post (P : eden) (W : nat) (r : option nat * list (list cq)) : Prop :=
    (W = 0 /\ r = (None, [])) \/
    exists w, w < W /\ native_post P w r /\
      forall w', w' < W -> exists r', native_post P w' r' /\ ole r'.1 r.1 /\ (w' < w -> ~ ole r.1 r'.1).
  Definition widths (P : eden) (max_chain_length : option nat) : nat := match max_chain_length with None => S (ed_M P `min` ed_N P) | Some l => l end.
  Definition largest_step (P : eden) := fun (s : option nat * list (list cq) * nat) w =>
      let '(bestscore, bigclique, g) := s in
      let! r := native_clique_embed rnd shuf rb P w g in
      let '(score, clique, g) := r in
      match bestscore, score with
      | None, _ => Ok (score, clique, g)
      | Some b, None => Err BadInit
      | Some b, Some sc => if b <? sc then Ok (score, clique, g) else Ok (bestscore, bigclique, g)
      end.
  Lemma native_run P w g : exists r g', native_clique_embed rnd shuf rb P w g = Ok (r.1, r.2, g') /\ native_post P w r.
  Proof using Hshuf.
    destruct (native_ok rnd shuf rb P w g Hshuf) as (score & cl & g' & L & bs & H & ?). exists (score, cl), g'. split; [done|]. exists L, bs. done.
  Qed.
  Lemma native_none P w r : native_post P w r -> r.1 = None <-> forall e, ~ (ell_in (ed_M P) (ed_N P) e /\ ell_len e = S w).
  Proof using. intros (L & bs & _ & _ & _ & H & _). done. Qed.
  Lemma largest_fold P W g : 0 < ed_M P -> 0 < ed_N P -> W <= ed_M P + ed_N P ->
    exists r g', foldM (largest_step P) (seq 0 W) (None, [], g) = Ok (r.1, r.2, g') /\ largest_post P W r /\ (2 <= W -> r.1 <> None).
  Proof using Hshuf.
    intros HM HN. induction W as [|W IH]; intros HW.
    - exists (None, []), g. split; [done|]. split; [by left|lia].
    - destruct IH as (r & g1 & Hr & Hpost & Hsome); [lia|].
      rewrite seq_S, foldM_app, Hr. cbn [rbind foldM]. unfold largest_step at 1. simpl (0 + W).
      destruct (native_run P W g1) as (r' & g2 & -> & Hn). cbn [rbind].
      assert (HWn : r'.1 = None -> W = 0).
      { intros E. rewrite (native_none _ _ _ Hn) in E. destruct (decide (W = 0)); [done|]. exfalso.
        destruct (ell_exists (ed_M P) (ed_N P) W) as (e & He); [lia..|]. by apply (E e). }
      destruct r.1 as [b|] eqn:Eb.
      + destruct r'.1 as [sc|] eqn:Esc.
        2:{ exfalso. assert (W = 0) as -> by by apply HWn. simpl in Hr. injection Hr as E _ _. congruence. }
        destruct (Nat.ltb_spec b sc) as [Hlt|Hge].
        * exists r', g2. split; [cbn [rbind]; by rewrite Esc|]. split; [|by rewrite Esc].
          destruct Hpost as [[_ ->]|(w & Hw & Hpw & Hall)]; [done|].
          right. exists W. split; [lia|]. split; [done|]. intros w' Hw'. destruct (decide (w' = W)) as [-> |].
          -- exists r'. split; [done|]. split; [apply ole_refl|lia].
          -- destruct (Hall w') as (r1 & H1 & H2 & H3); [lia|]. exists r1. split; [done|]. rewrite Eb in H2. rewrite Esc.
             destruct r1.1 as [s1|]; simpl in *; [|by split; [|intros _ []]]. split; [lia|]. intros _. lia.
        * exists r, g2. split; [cbn [rbind]; by rewrite Eb|]. split; [|by rewrite Eb].
          destruct Hpost as [[_ ->]|(w & Hw & Hpw & Hall)]; [done|].
          right. exists w. split; [lia|]. split; [done|]. intros w' Hw'. destruct (decide (w' = W)) as [-> |].
          -- exists r'. split; [done|]. rewrite Eb, Esc. simpl. split; [lia|lia].
          -- apply Hall. lia.
      + exists r', g2. split; [done|]. assert (HW1 : W <= 1) by (destruct (decide (2 <= W)); [by destruct (Hsome l)|lia]).
        split; [|intros HW2 E; specialize (HWn E); lia].
        right. exists W. split; [lia|]. split; [done|]. intros w' Hw'. destruct (decide (w' = W)) as [-> |].
        * exists r'. split; [done|]. split; [apply ole_refl|lia].
        * assert (w' = 0 /\ W = 1) as [-> ->] by lia. destruct (native_run P 0 0) as (r0 & g0 & _ & H0). exists r0. split; [done|].
          assert (r0.1 = None) as -> by (apply (native_none _ _ _ H0), no_ell; by left). split; [done|]. intros _.
          destruct r'.1; [by intros []|]. specialize (HWn eq_refl). lia.
  Qed.
  Lemma largest_ok P mcl g : 0 < ed_M P -> 0 < ed_N P -> (forall l, mcl = Some l -> l <= ed_M P + ed_N P) ->
    exists r g', largest_native_clique rnd shuf rb P mcl g = Ok (r, g') /\ largest_post P (widths P mcl) r.
  Proof using Hshuf.
    intros HM HN Hl. destruct (largest_fold P (widths P mcl) g HM HN) as (r & g' & Hr & Hp & _).
    { unfold widths. destruct mcl; [by apply Hl|lia]. }
    exists r, g'. split; [|done]. unfold largest_native_clique. etrans; [exact Hr|]. by destruct r.
  Qed.
  Lemma largest_raises P l g : 0 < ed_M P -> 0 < ed_N P -> ed_M P + ed_N P < l -> largest_native_clique rnd shuf rb P (Some l) g = Err BadInit.
  Proof using Hshuf.
    intros HM HN Hl. unfold largest_native_clique. change (foldM (largest_step P) (seq 0 l) (None, [], g) = Err BadInit).
    destruct (largest_fold P (ed_M P + ed_N P) g HM HN) as (r & g' & Hr & _ & Hs); [lia|].
    replace l with ((ed_M P + ed_N P) + S (l - S (ed_M P + ed_N P))) by lia.
    rewrite seq_app, foldM_app, Hr. cbn [rbind]. simpl seq. cbn [foldM]. unfold largest_step at 1. simpl (0 + _).
    destruct (native_run P (ed_M P + ed_N P) g') as (r' & g2 & -> & Hn). cbn [rbind].
    assert (r'.1 = None) as -> by (apply (native_none _ _ _ Hn), no_ell; by right).
    destruct r.1; [done|]. destruct Hs; [lia|done].
  Qed.

  (** *** Tightest *)
  Definition tight_post (P : eden) (n : nat) (r : option nat * list (list cq)) : Prop :=
    (exists w r', 1 <= w <= ed_M P `min` ed_N P /\ native_post P w r' /\ n <= length r'.2 /\ r = (r'.1, take n r'.2) /\
       forall w', 1 <= w' < w -> exists r'', native_post P w' r'' /\ length r''.2 < n) \/
    (r = (None, []) /\ forall w', 1 <= w' <= ed_M P `min` ed_N P -> exists r'', native_post P w' r'' /\ length r''.2 < n).
  Lemma tightest_ok P n g : exists r g', tightest_native_clique rnd shuf rb P n g = Ok (r, g') /\ tight_post P n r.
  Proof using Hshuf.
    unfold tightest_native_clique.
    assert (H : forall k a g, a + k = S (ed_M P `min` ed_N P) -> 1 <= a -> (forall w', 1 <= w' < a -> exists r'', native_post P w' r'' /\ length r''.2 < n) ->
      exists r g', tightest_loop rnd shuf rb P n (seq a k) g = Ok (r, g') /\ tight_post P n r).
    { induction k as [|k IH]; intros a g0 Ha Ha1 Hall; simpl.
      - exists (None, []), g0. split; [done|]. right. split; [done|]. intros w' Hw'. apply Hall. lia.
      - destruct (native_run P a g0) as (r' & g2 & -> & Hn). cbn [rbind]. destruct (Nat.leb_spec n (length r'.2)).
        + exists (r'.1, take n r'.2), g2. split; [done|]. left. exists a, r'. split_and!; try done; lia.
        + apply IH; [lia|lia|]. intros w' Hw'. destruct (decide (w' = a)) as [-> |]; [by exists r'|apply Hall; lia]. }
    apply H; [lia|lia|intros; lia].
  Qed.
End largest.

Definition rank (r : option nat * list (list cq)) : option nat := match r.1, r.2 with Some _, _ :: _ => Some (measure r.2) | _, _ => None end.
Definition rle (a b : option nat * list (list cq)) : Prop := match rank a, rank b with None, _ => True | Some _, None => False | Some x, Some y => y <= x end.
Lemma fewer_true s x : fewer_qubits s x = true -> rle s x.
Proof.
  unfold fewer_qubits, rle, rank. destruct s as [[a|] [|c s]], x as [[b|] [|d x]]; cbn [fst snd]; try done. intros H%Nat.ltb_lt. lia.
Qed.
Lemma fewer_false s x : fewer_qubits s x = false -> rle x s.
Proof.
  unfold fewer_qubits, rle, rank. destruct s as [[a|] [|c s]], x as [[b|] [|d x]]; cbn [fst snd]; try done. intros H%Nat.ltb_ge. lia.
Qed.
Lemma measure_const cl len : (forall c, c ∈ cl -> length c = len) -> measure cl = length cl * len.
Proof.
  unfold measure. induction cl as [|c cl IH]; intros H; [done|]. rewrite fmap_cons. change (length c + sum_list (length <$> cl) = S (length cl) * len).
  rewrite IH by (intros; apply H; by right). rewrite (H c) by left. lia.
Qed.

  Lemma tight_good P n r : cell_ok P -> 0 < ed_M P -> 0 < ed_N P -> tight_post P n r ->
    (forall c, c ∈ r.2 -> cchain P c) /\ pairwise (crel P) r.2 /\
    (r = (None, []) \/ exists w, 1 <= w /\ (forall c, c ∈ r.2 -> length c = S w) /\ length r.2 = n /\ r.1 <> None).
  Proof.
    intros Hcell HMP HNP [(w & r' & Hw & Hp & Hn & -> & _)|[-> _]].
    - destruct (native_clique _ _ _ Hcell Hp) as (C1 & C2 & _). simpl. split_and!.
      + intros c Hc. apply C1. by eapply elem_of_take in Hc as (i & ?%elem_of_list_lookup_2 & _).
      + by apply pairwise_take.
      + right. exists w. split; [lia|]. split; [intros c Hc; apply C1; by eapply elem_of_take in Hc as (i & ?%elem_of_list_lookup_2 & _)|].
        split; [rewrite take_length; lia|]. intros E. rewrite (native_none _ _ _ Hp) in E.
        destruct (ell_exists (ed_M P) (ed_N P) w) as (e & He); [lia..|]. by apply (E e).
    - simpl. split_and!; [intros c Hc; by apply elem_of_nil in Hc|apply pairwise_nil|by left].
  Qed.

(** ** The methods of [processor] *)
Section tops.
  Context (M N L limit : nat) (edges : list (nat * nat)) (HM : 0 < M) (HN : 0 < N) (HL : 0 < L) (Hlimit : 0 < limit).
  Context (rnd : nat -> nat) (shuf : nat -> list (list cq) -> list (list cq)) (rb : bool) (Hshuf : forall i l, shuf i l ≡ₚ l).
  Context (samp : nat -> list (gset cq) -> list (gset cq)) (picks : nat -> cq * cq -> bool).
  Context (Hsamp : forall k l, k <= length l -> length (samp k l) = k /\ forall x, x ∈ samp k l -> x ∈ l).
  Notation p := (make_proc M N L limit edges).
  Notation optimal c len := (few_missing M N L edges limit -> (forall q, q ∈ ends edges -> q < nqubits M N L) -> lines_intact M N L edges ->
    forall R Ls c', covers M N L edges R -> is_ells M N len Ls -> capacity N L (without R (ends edges)) (edges_without R edges) Ls c' -> c' <= c).

  Lemma proc_native_ok width : exists emb, proc_native rnd shuf rb samp picks p width = Ok emb /\
    clique_embedding (ends edges) edges emb /\ (forall c, c ∈ emb -> wire edges c /\ length c = S width) /\ optimal (length emb) (S width).
  Proof using HM HN HL Hlimit Hshuf Hsamp.
    unfold proc_native.
    destruct (map_processors_ok (subprocessors samp picks p) (fun P g => native_clique_embed rnd shuf rb P width g) (better_score Nat.ltb)
      (fun P r => native_post P width r) (fun a b => ole a.1 b.1) 0) as (r & g' & -> & (P & HP & Hpost) & Hall).
    - by apply subs_nonempty.
    - intros P g _. destruct (native_run rnd shuf rb Hshuf P width g) as (r & g' & H & Hp). exists r, g'. rewrite H. by destruct r.
    - intros; apply ole_refl.
    - intros a b c. apply ole_trans.
    - intros s x. apply better_score_true.
    - intros s x. apply better_score_false.
    - cbn [rbind]. simpl. destruct (subs_hit M N L limit edges HN HL samp picks Hsamp P HP) as (D & -> & HD).
      pose proof (sub_cell_ok M N L limit edges HN HL D HD) as Hcell.
      destruct (native_clique _ _ _ Hcell Hpost) as (C1 & C2 & C3 & C4 & C5).
      destruct (clique_lin (subprocessor p D) edges r.2 (sub_sub_graph M N L limit edges HN HL D)) as [V1 V2]; [intros c Hc; by apply C1|done|].
      exists (translate p r.2). split; [done|]. split; [exact V1|]. split.
      + intros c Hc. split; [by apply V2|]. apply elem_of_list_fmap in Hc as (c0 & -> & Hc0). rewrite map_length. by apply C1.
      + intros Hfew Hrange Hint R Ls c Hcov HLs Hcap. unfold translate. rewrite map_length.
        destruct (subs_cover M N L limit edges HN HL samp picks Hsamp R Hfew Hcov) as (D' & HD'in & HD' & HDR).
        destruct (Hall _ HD'in) as (r' & Hpost' & Hle).
        pose proof (sub_intact M N L limit edges HN HL D' Hrange Hint) as Hi'.
        destruct (native_clique _ _ _ (sub_cell_ok M N L limit edges HN HL D' HD') Hpost') as (_ & _ & _ & C4' & _).
        pose proof (capacity_isum M N L limit edges HN HL R D' (S width) Ls c Hcov HDR HLs Hcap) as Hc.
        destruct (C4' Hi' Ls HLs) as [_ Hex]. destruct (decide (Ls = [])) as [-> |Hne]; [unfold isum in Hc; simpl in Hc; lia|].
        destruct (Hex Hne) as (s & Hs & Hle'). rewrite Hs in Hle. destruct r.1 as [s'|] eqn:Er; [|done]. simpl in Hle. specialize (C3 s' eq_refl). lia.
  Qed.

  Definition nwidths (mcl : option nat) : nat := match mcl with None => S (M `min` N) | Some l => l end.
  Lemma proc_largest_ok mcl : (forall l, mcl = Some l -> l <= M + N) -> exists emb len, proc_largest rnd shuf rb samp picks p mcl = Ok emb /\
    clique_embedding (ends edges) edges emb /\ (forall c, c ∈ emb -> wire edges c /\ length c = len) /\ len <= nwidths mcl /\
    (forall w, w < nwidths mcl -> optimal (length emb) (S w)).
  Proof using HM HN HL Hlimit Hshuf Hsamp.
    intros Hl. unfold proc_largest.
    destruct (map_processors_ok (subprocessors samp picks p) (fun P g => largest_native_clique rnd shuf rb P mcl g) (better_score Nat.ltb)
      (fun P r => largest_post P (nwidths mcl) r) (fun a b => ole a.1 b.1) 0) as (r & g' & -> & (P & HP & Hpost) & Hall).
    - by apply subs_nonempty.
    - intros P g HPin. destruct (subs_hit M N L limit edges HN HL samp picks Hsamp P HPin) as (D & -> & _). by apply (largest_ok rnd shuf rb Hshuf (subprocessor p D) mcl g).
    - intros; apply ole_refl.
    - intros a b c. apply ole_trans.
    - intros s x. apply better_score_true.
    - intros s x. apply better_score_false.
    - cbn [rbind]. simpl. destruct (subs_hit M N L limit edges HN HL samp picks Hsamp P HP) as (D & -> & HD).
      pose proof (sub_cell_ok M N L limit edges HN HL D HD) as Hcell.
      destruct Hpost as [[HW ->]|(w & Hw & Hpost & Hsh)].
      { exists [], 0. split; [done|]. split; [split; [intros c Hc; by apply elem_of_nil in Hc|by intros i j c d _ Hc]|].
        split; [intros c Hc; by apply elem_of_nil in Hc|]. split; [lia|]. intros; lia. }
      destruct (native_clique _ _ _ Hcell Hpost) as (C1 & C2 & C3 & C4 & C5).
      destruct (clique_lin (subprocessor p D) edges r.2 (sub_sub_graph M N L limit edges HN HL D)) as [V1 V2]; [intros c Hc; by apply C1|done|].
      exists (translate p r.2), (S w). split; [done|]. split; [exact V1|]. split; [|split; [done|]].
      + intros c Hc. split; [by apply V2|]. apply elem_of_list_fmap in Hc as (c0 & -> & Hc0). rewrite map_length. by apply C1.
      + intros w' Hw' Hfew Hrange Hint R Ls c Hcov HLs Hcap. unfold translate. rewrite map_length.
        destruct (subs_cover M N L limit edges HN HL samp picks Hsamp R Hfew Hcov) as (D' & HD'in & HD' & HDR).
        destruct (Hall _ HD'in) as (r' & Hpost' & Hle). destruct Hpost' as [[HW _]|(w1 & _ & _ & Hall')]; [lia|].
        destruct (Hall' w' Hw') as (r'' & Hpost'' & Hle2 & _).
        pose proof (sub_intact M N L limit edges HN HL D' Hrange Hint) as Hi'.
        destruct (native_clique _ _ _ (sub_cell_ok M N L limit edges HN HL D' HD') Hpost'') as (_ & _ & _ & C4' & _).
        pose proof (capacity_isum M N L limit edges HN HL R D' (S w') Ls c Hcov HDR HLs Hcap) as Hc.
        destruct (C4' Hi' Ls HLs) as [_ Hex]. destruct (decide (Ls = [])) as [-> |Hne]; [unfold isum in Hc; simpl in Hc; lia|].
        destruct (Hex Hne) as (s & Hs & Hle'). assert (Hle3 : ole r''.1 r.1) by (eapply ole_trans; eauto).
        rewrite Hs in Hle3. destruct r.1 as [s'|] eqn:Er; [|done]. simpl in Hle3. specialize (C3 s' eq_refl). lia.
  Qed.

  Lemma proc_largest_raises l : M + N < l -> proc_largest rnd shuf rb samp picks p (Some l) = Err BadInit.
  Proof using HM HN HL Hlimit Hshuf Hsamp.
    intros Hl. unfold proc_largest. destruct (subprocessors samp picks p) as [|P ps] eqn:Es; [by destruct (subs_nonempty M N L limit edges HN HL samp picks Hsamp Hlimit)|].
    destruct (subs_hit M N L limit edges HN HL samp picks Hsamp P) as (D & -> & _); [rewrite Es; left|].
    unfold map_to_processors. by rewrite (largest_raises rnd shuf rb Hshuf (subprocessor p D) l 0 HM HN Hl).
  Qed.

  Lemma proc_tightest_ok n : exists emb len, proc_tightest rnd shuf rb samp picks p n = Ok emb /\
    clique_embedding (ends edges) edges emb /\ (forall c, c ∈ emb -> wire edges c /\ length c = len) /\ (emb = [] \/ length emb = n) /\
    (few_missing M N L edges limit -> (forall q, q ∈ ends edges -> q < nqubits M N L) -> lines_intact M N L edges ->
      forall w R Ls c', 1 <= w <= M `min` N -> covers M N L edges R -> is_ells M N (S w) Ls ->
        capacity N L (without R (ends edges)) (edges_without R edges) Ls c' -> n <= c' -> length emb = n /\ (0 < n -> len <= S w)).
  Proof using HM HN HL Hlimit Hshuf Hsamp.
    unfold proc_tightest.
    destruct (map_processors_ok (subprocessors samp picks p) (fun P g => tightest_native_clique rnd shuf rb P n g) fewer_qubits
      (fun P r => tight_post P n r) rle 0) as (r & g' & -> & (P & HP & Hpost) & Hall).
    - by apply subs_nonempty.
    - intros P g _. apply tightest_ok, Hshuf.
    - intros s. unfold rle. by destruct (rank s).
    - intros a b c. unfold rle. destruct (rank a), (rank b), (rank c); try done; lia.
    - apply fewer_true.
    - apply fewer_false.
    - cbn [rbind]. simpl. destruct (subs_hit M N L limit edges HN HL samp picks Hsamp P HP) as (D & -> & HD).
      pose proof (sub_cell_ok M N L limit edges HN HL D HD) as Hcell.
      destruct (tight_good _ _ _ Hcell HM HN Hpost) as (C1 & C2 & C3).
      destruct (clique_lin (subprocessor p D) edges r.2 (sub_sub_graph M N L limit edges HN HL D)) as [V1 V2]; [intros c Hc; by apply C1|done|].
      assert (Hlen : exists len, (forall c, c ∈ r.2 -> length c = len) /\ (r = (None, []) \/ (length r.2 = n /\ r.1 <> None))).
      { destruct C3 as [-> |(w & _ & H1 & H2 & H3)]; [exists 0; split; [intros c Hc; by apply elem_of_nil in Hc|by left]|exists (S w); tauto]. }
      destruct Hlen as (len & Hlen & Hcase).
      exists (translate p r.2), len. split; [done|]. split; [exact V1|]. split; [|split].
      + intros c Hc. split; [by apply V2|]. apply elem_of_list_fmap in Hc as (c0 & -> & Hc0). rewrite map_length. by apply Hlen.
      + unfold translate. rewrite map_length. destruct Hcase as [-> |[? _]]; [by left|by right].
      + intros Hfew Hrange Hint w R Ls c Hw Hcov HLs Hcap Hn. unfold translate. rewrite map_length.
        destruct (decide (n = 0)) as [-> |Hn0]; [split; [|lia]; destruct Hcase as [-> |[? _]]; done|].
        destruct (subs_cover M N L limit edges HN HL samp picks Hsamp R Hfew Hcov) as (D' & HD'in & HD' & HDR).
        destruct (Hall _ HD'in) as (r' & Hpost' & Hle).
        pose proof (sub_intact M N L limit edges HN HL D' Hrange Hint) as Hi'.
        pose proof (sub_cell_ok M N L limit edges HN HL D' HD') as Hcell'.
        pose proof (capacity_isum M N L limit edges HN HL R D' (S w) Ls c Hcov HDR HLs Hcap) as Hc.
        assert (Henough : forall r'', native_post (subprocessor p D') w r'' -> n <= length r''.2).
        { intros r'' Hp''. destruct (native_clique _ _ _ Hcell' Hp'') as (_ & _ & _ & C4' & _). destruct (C4' Hi' Ls HLs) as [? _]. lia. }
        destruct Hpost' as [(w' & r'' & Hw' & Hp' & Hn' & -> & Hmin)|[_ Hmin]].
        2:{ destruct (Hmin w) as (r'' & Hp'' & Hlt); [done|]. specialize (Henough _ Hp''). lia. }
        assert (Hww : w' <= w).
        { destruct (decide (w' <= w)); [done|]. destruct (Hmin w) as (r3 & Hp3 & Hlt); [lia|]. specialize (Henough _ Hp3). lia. }
        destruct (native_clique _ _ _ Hcell' Hp') as (C1' & _).
        assert (Hrank : rank (r''.1, take n r''.2) = Some (n * S w')).
        { unfold rank. cbn [fst snd]. assert (Hs : r''.1 <> None).
          { intros E. rewrite (native_none _ _ _ Hp') in E. destruct (ell_exists M N w') as (e & He); [lia..|]. by apply (E e). }
          destruct r''.1; [|done]. rewrite (measure_const _ (S w')).
          - rewrite take_length_le by lia. destruct (take n r''.2) eqn:Et; [|done]. apply (f_equal length) in Et. rewrite take_length_le in Et by lia. simpl in Et. lia.
          - intros c0 Hc0. apply C1'. by eapply elem_of_take in Hc0 as (i & ?%elem_of_list_lookup_2 & _). }
        unfold rle in Hle. rewrite Hrank in Hle.
        destruct (rank r) as [m|] eqn:Er; [|done]. unfold rank in Er. destruct Hcase as [-> |[Hrn Hr1]]; [done|].
        split; [done|]. intros _. destruct r.1; [|done]. destruct r.2 eqn:E2; [done|]. injection Er as <-. rewrite <- E2 in *.
        rewrite (measure_const _ len Hlen), Hrn in Hle. apply Nat.mul_le_mono_pos_l in Hle; lia.
  Qed.
End tops.
