(** The improvement check over any sequence of candidate embeddings. *)
From stdpp Require Import base list numbers gmap.
From Verif Require Import Base ChainModel ChainProofs ChainProofs2 EmbModel Spec SpecEmb EmbProofs EmbProofs2
  EmbProofs3 EmbProofs4 EmbOps EmbProofs7 EmbProofs8 QueueModel PathModel Wp RunProofs3 SpecImprove.
Local Open Scope Z_scope.

Lemma hist_less_iff n : forall new old b, hist_less n new old = Ok b -> (n <= length new)%nat -> (n <= length old)%nat ->
  b = true <-> exists i x y, (i < n)%nat /\ new !! i = Some x /\ old !! i = Some y /\ x < y /\
     forall j, (i < j < n)%nat -> new !! j = old !! j.
Proof.
  induction n as [|n IH]; intros new old b H L1 L2; simpl in H.
  { injection H as <-. split; [done|]. intros (i & _ & _ & Hi & _). lia. }
  destruct (lookup_lt_is_Some_2 new n) as [x Hx]; [lia|]. destruct (lookup_lt_is_Some_2 old n) as [y Hy]; [lia|].
  rewrite (vget_ok _ _ _ Hx), (vget_ok _ _ _ Hy) in H. cbn [rbind] in H. case_decide as Hd.
  - subst y. rewrite (IH _ _ _ H) by lia. split; intros (i & x' & y' & Li & H1 & H2 & H3 & Hj).
    + exists i, x', y'. split; [lia|]. do 3 (split; [done|]).
      intros j Lj. destruct (decide (j = n)) as [->|]; [congruence|]. apply Hj. lia.
    + destruct (decide (i = n)) as [->|]; [assert (x' = y') by congruence; lia|].
      exists i, x', y'. split; [lia|]. do 3 (split; [done|]). intros j Lj. apply Hj. lia.
  - injection H as <-. rewrite bool_decide_eq_true. split.
    + intros Lt. exists n, x, y. split; [lia|]. do 3 (split; [done|]). lia.
    + intros (i & x' & y' & Li & H1 & H2 & H3 & Hj). destruct (decide (i = n)) as [->|]; [congruence|].
      assert (X : new !! n = old !! n) by (apply Hj; lia). congruence.
Qed.

Lemma check_improvement_exact e s em bn tmp bst : statistics (pb e) em = Ok (bn, tmp) -> tmp <> [] ->
  emb_assign (best s) em = Ok bst ->
  exists b s', check_improvement e s em = Ok (b, s') /\
    (b = true <-> (bn = true /\ embedded (md s) = false) \/
                  (bn = embedded (md s) /\ (stats s = [] \/ hist_lt tmp (stats s)))) /\
    embedded (md s') = embedded (md s) || bn /\
    (if b then best s' = bst /\ stats s' = tmp else best s' = best s /\ stats s' = stats s).
Proof.
  intros Es Nt Ea. unfold check_improvement. rewrite Es. cbn [rbind].
  set (better := bn && negb (embedded (md s))).
  set (s1 := if better then set_embedded s true else s).
  assert (B1 : best s1 = best s /\ stats s1 = stats s) by (unfold s1; by destruct better).
  assert (E1 : embedded (md s1) = embedded (md s) || bn).
  { unfold s1, better. destruct (embedded (md s)) eqn:Q, bn; simpl; rewrite ?Q; done. }
  destruct (negb bn && embedded (md s1)) eqn:Q1.
  { exists false, s1. split; [done|]. rewrite E1 in Q1. destruct bn; [done|]. simpl in Q1. rewrite orb_false_r in Q1.
    rewrite Q1. split; [naive_solver|]. by rewrite E1, Q1. }
  destruct (last tmp) as [mst|] eqn:Lt; [|by apply last_None in Lt]. cbn [rbind]. rewrite (proj2 B1).
  set (major := Z.of_nat (length (stats s)) - Z.of_nat (length tmp)).
  set (minor := match last (stats s) with None => 0 | Some x => x - mst end).
  set (bt2 := better || bool_decide (0 < major) || bool_decide (length (stats s) = 0%nat)).
  set (s2 := if bt2 && embedded (md s1) then set_target s1 (length tmp - 1) else s1).
  assert (B2 : best s2 = best s /\ stats s2 = stats s /\ embedded (md s2) = embedded (md s) || bn).
  { destruct B1. unfold s2. destruct (bt2 && embedded (md s1)); simpl; auto. }
  destruct B2 as (Bb2 & Bs2 & Be2). rewrite Bs2.
  set (bt3 := bt2 || (bool_decide (major = 0) && bool_decide (0 < minor))).
  assert (Eb : bn = true \/ embedded (md s) = false).
  { rewrite E1 in Q1. destruct bn; [by left|]. right. simpl in Q1. by destruct (embedded (md s)). }
  assert (G : forall b : bool, (b = true <-> better = true \/ stats s = [] \/ hist_lt tmp (stats s)) ->
     exists b' s', (if b then let! b0 := emb_assign (best s2) em in Ok (true, set_best s2 b0 tmp) else Ok (false, s2)) = Ok (b', s') /\
    (b' = true <-> (bn = true /\ embedded (md s) = false) \/
                  (bn = embedded (md s) /\ (stats s = [] \/ hist_lt tmp (stats s)))) /\
    embedded (md s') = embedded (md s) || bn /\
    (if b' then best s' = bst /\ stats s' = tmp else best s' = best s /\ stats s' = stats s)).
  { intros b Hb.
    assert (Hb' : b = true <-> (bn = true /\ embedded (md s) = false) \/
                  (bn = embedded (md s) /\ (stats s = [] \/ hist_lt tmp (stats s)))).
    { rewrite Hb. unfold better. destruct bn, (embedded (md s)); simpl; naive_solver. }
    exists b. destruct b.
    - rewrite Bb2, Ea. cbn [rbind]. eexists. split; [done|]. split; [done|]. split; [done|]. done.
    - exists s2. done. }
  assert (Z : length (stats s) = 0%nat <-> stats s = []) by (destruct (stats s); naive_solver).
  assert (Hlast : length tmp = length (stats s) -> exists y, last (stats s) = Some y /\ tmp !! (length tmp - 1)%nat = Some mst /\ stats s !! (length tmp - 1)%nat = Some y).
  { intros L. destruct (last (stats s)) as [y|] eqn:Ly.
    - exists y. split; [done|]. rewrite last_lookup in Ly, Lt. split; [by replace (length tmp - 1)%nat with (pred (length tmp)) by lia|].
      by replace (length tmp - 1)%nat with (pred (length (stats s))) by lia.
    - apply last_None in Ly. rewrite Ly in L. destruct tmp; [done|simpl in L; lia]. }
  destruct (negb bt3 && bool_decide (major = 0) && bool_decide (minor = 0)) eqn:Q3.
  - apply andb_prop in Q3 as [[Q3 Hm]%andb_prop Hmin]. apply bool_decide_eq_true in Hm.
    apply negb_true_iff in Q3. unfold major in Hm.
    destruct (hist_less_spec (length tmp) tmp (stats s)) as (b & Hl & _); [lia..|]. rewrite Hl. cbn [rbind]. apply G.
    apply hist_less_iff in Hl; [|lia..]. rewrite Hl. unfold bt3, bt2 in Q3. apply orb_false_elim in Q3 as [[[Qb _]%orb_false_elim Qs]%orb_false_elim _].
    apply bool_decide_eq_false in Qs. split.
    + intros (i & x & y & Li & H1 & H2 & H3 & Hj). right. right. right. split; [lia|]. exists i, x, y. do 3 (split; [done|]).
      intros j Lj. destruct (decide (j < length tmp)%nat); [apply Hj; lia|]. rewrite !lookup_ge_None_2; [done|lia|lia].
    + intros [?|[?|[?|(L & i & x & y & H1 & H2 & H3 & Hj)]]]; [congruence|tauto|lia|].
      exists i, x, y. split; [by eapply lookup_lt_Some|]. do 3 (split; [done|]). intros j Lj. apply Hj. lia.
  - cbn [rbind]. apply G. unfold bt3, bt2. rewrite !orb_true_iff, andb_true_iff, !bool_decide_eq_true. split.
    + intros [[[?|Hm]|Hz]|[Hm Hmi]]; [by left|right; right; left; unfold major in Hm; lia|right; left; tauto|].
      right. right. right. unfold major in Hm. split; [lia|]. destruct Hlast as (y & Ly & H1 & H2); [lia|].
      unfold minor in Hmi. rewrite Ly in Hmi. exists (length tmp - 1)%nat, mst, y. do 2 (split; [done|]). split; [lia|].
      intros j Lj. rewrite !lookup_ge_None_2; [done|lia|lia].
    + intros [?|[?|[Hl|(L & i & x & y & H1 & H2 & H3 & Hj)]]]; [tauto|tauto|left; left; right; unfold major; lia|].
      destruct Hlast as (z & Ly & H1' & H2'); [lia|]. assert (Hm0 : major = 0) by (unfold major; lia).
      assert (Hmi : 0 <= minor).
      { unfold minor. rewrite Ly. destruct (decide (i = length tmp - 1)%nat) as [->|Ne].
        - assert (x = mst) by congruence. assert (y = z) by congruence. lia.
        - pose proof (lookup_lt_Some _ _ _ H1). assert (X : tmp !! (length tmp - 1)%nat = stats s !! (length tmp - 1)%nat) by (apply Hj; lia).
          assert (mst = z) by congruence. lia. }
      destruct (decide (minor = 0)) as [Hz|Hz]; [|right; split; lia].
      destruct bt3 eqn:Hb3.
      * unfold bt3, bt2 in Hb3. rewrite !orb_true_iff, andb_true_iff, !bool_decide_eq_true in Hb3. done.
      * rewrite (bool_decide_eq_true_2 _ Hm0), (bool_decide_eq_true_2 _ Hz) in Q3. done.
Qed.

Lemma histogram_unique (f : nat -> nat) xs g g' : g <> [] -> g' <> [] -> histogram f xs g -> histogram f xs g' -> g = g'.
Proof.
  intros N N' (A1 & A2 & A3) (B1 & B2 & B3).
  assert (0 < length g)%nat by (destruct g; [done|simpl; lia]). assert (0 < length g')%nat by (destruct g'; [done|simpl; lia]).
  assert (L : length g = length g').
  { destruct (decide (1 < length g)%nat) as [L|]; destruct (decide (1 < length g')%nat) as [L'|]; [| | |lia].
    - destruct (A3 L) as (a & Ha & Ea). destruct (B3 L') as (a' & Ha' & Ea'). apply A2 in Ha'. apply B2 in Ha. lia.
    - destruct (A3 L) as (a & Ha & Ea). apply B2 in Ha. lia.
    - destruct (B3 L') as (a & Ha & Ea). apply A2 in Ha. lia. }
  apply list_eq_same_length with (length g'); [done|done|]. intros i x y Hi Hx Hy.
  rewrite (A1 i x Hx), (B1 i y Hy). done.
Qed.

Section offers.
Context (e : env) (E : nat -> nat -> Prop) (PW : pb_wf (pb e)).
Notation P := (pb e).

Lemma assign_reach dst src : reach P E dst -> reach P E src -> exists em, emb_assign dst src = Ok em /\ chains em = chains src.
Proof.
  intros R1 R2. destruct (reach_inv P E dst PW R1) as (F1 & I1 & W1). destruct (reach_inv P E src PW R2) as (F2 & I2 & W2).
  pose proof (einv_abl e E F1 dst I1 W1) as A1. pose proof (einv_abl e E F2 src I2 W2) as A2.
  destruct (assign_ok e dst src A1 A2) as (em & ? & ? & _). eauto.
Qed.

Lemma same_reach_stats a b : chains a = chains b -> reach P E a -> reach P E b -> statistics P a = statistics P b.
Proof.
  intros C R1 R2. destruct (reach_inv P E a PW R1) as (F1 & I1 & W1). destruct (reach_inv P E b PW R2) as (F2 & I2 & W2).
  apply same_stats; [done|]. apply (wexact_det a b W1 W2); [|done].
  by rewrite (ei_wlen _ _ _ _ I1), (ei_wlen _ _ _ _ I2).
Qed.

(** the recorded statistics are those of the recorded embedding *)
Definition tracked (s : st) : Prop := reach P E (best s) /\
  ((stats s = [] /\ embedded (md s) = false) \/ statistics P (best s) = Ok (embedded (md s), stats s)).

Lemma tracked_step s em b s' : tracked s -> reach P E em -> check_improvement e s em = Ok (b, s') -> tracked s'.
Proof.
  intros [R T] Re H. destruct (statistics_props P E em PW Re) as (bn & h & Es & Nh & _).
  destruct (assign_reach (best s) em R Re) as (bst & Ea & Ec).
  destruct (check_improvement_exact e s em bn h bst Es Nh Ea) as (b' & s2 & H' & Hb & He & Hs).
  rewrite H in H'. injection H' as -> ->.
  assert (Rb : reach P E bst) by (exact (r_copy _ _ _ _ _ R Re Ea)).
  destruct b'.
  - unfold tracked. destruct Hs as [-> ->]. split; [done|]. right. rewrite (same_reach_stats bst em) by done. rewrite Es, He.
    destruct (proj1 Hb eq_refl) as [[-> ->]|[-> _]]; [done|]. by rewrite orb_diag.
  - unfold tracked. destruct Hs as [-> ->]. split; [done|]. rewrite He.
    destruct bn; [|by rewrite orb_false_r].
    destruct (embedded (md s)); [done|]. assert (false = true) by (apply Hb; by left). done.
Qed.
Lemma offered_tracked s : offered e E s -> tracked s.
Proof.
  induction 1 as [s Hb Hs He|s em b s' _ IH Re H|s s' _ [R T] Hb Hs He|s s' _ [R T] Em Hb Hs He].
  - split; [|by left]. rewrite Hb. apply r_new.
  - by eapply tracked_step.
  - unfold tracked. by rewrite Hb, Hs, He.
  - unfold tracked. rewrite Hb, Hs, He. split; [done|by left].
Qed.

Lemma hist_len_le (f g : nat -> nat) xs h h' : histogram f xs h -> histogram g xs h' -> hist_lt h' h ->
  forall a, a ∈ xs -> exists b, b ∈ xs /\ (g a <= f b)%nat.
Proof.
  intros (_ & _ & H1) (_ & H2 & _) Hlt a Ha. specialize (H2 a Ha).
  assert (L : (length h' <= length h)%nat) by (destruct Hlt as [?|[? _]]; lia).
  destruct (decide (1 < length h)%nat) as [L1|L1].
  - destruct (H1 L1) as (b & Hb & Eb). exists b. split; [done|]. lia.
  - exists a. split; [done|]. lia.
Qed.

Lemma improve_embedded s em : offered e E s -> embedded (md s) = true -> reach P E em ->
  no_overlap P (best s) /\
  exists b s', check_improvement e s em = Ok (b, s') /\ embedded (md s') = true /\ no_overlap P (best s') /\
    (b = false -> best s' = best s) /\
    (b = true -> chains (best s') = chains em) /\
    (b = true <-> no_overlap P em /\ shorter P em (best s)) /\
    (forall v, (v < nv P)%nat -> exists w, (w < nv P)%nat /\ (chain_size (best s') v <= chain_size (best s) w)%nat).
Proof.
  intros O Em Re. destruct (offered_tracked s O) as [R T].
  destruct T as [[_ ?]|T]; [congruence|]. rewrite Em in T.
  destruct (statistics_props P E (best s) PW R) as (b0 & h0 & Es0 & Nh0 & Hb0 & Ht0 & _).
  rewrite T in Es0. injection Es0 as <- <-.
  assert (NO : no_overlap P (best s)) by (exact (proj1 Hb0 eq_refl)). split; [done|].
  destruct (statistics_props P E em PW Re) as (bn & h & Es & Nh & Hbn & Ht & _).
  destruct (assign_reach (best s) em R Re) as (bst & Ea & Ec).
  destruct (check_improvement_exact e s em bn h bst Es Nh Ea) as (b & s' & H & Hb & He & Hs).
  exists b, s'. split; [done|]. rewrite Em in He. split; [by rewrite He|].
  assert (Rb : reach P E bst) by (exact (r_copy _ _ _ _ _ R Re Ea)).
  assert (HU : forall a c, chains a = chains c -> no_overlap P a -> no_overlap P c).
  { intros a c Eq X q Hq. unfold users. rewrite <- Eq. by apply X. }
  assert (Hb' : b = true <-> no_overlap P em /\ shorter P em (best s)).
  { rewrite Hb, Em. split.
    - intros [[_ ?]|[-> [Hn|Hl]]]; [done|congruence|]. split; [exact (proj1 Hbn eq_refl)|]. exists h, (stats s). auto 6.
    - intros [N (h2 & h1 & N2 & N1 & H2 & H1 & Hl)]. right. assert (bn = true) as -> by (exact (proj2 Hbn N)). split; [done|]. right.
      rewrite (histogram_unique _ _ h h2 Nh N2 (Ht eq_refl) H2), (histogram_unique _ _ (stats s) h1 Nh0 N1 (Ht0 eq_refl) H1). done. }
  assert (Eq' : chains (best s') = if b then chains em else chains (best s)).
  { destruct b; destruct Hs as [-> _]; [by rewrite Ec|done]. }
  split. { destruct b; [|by eapply HU; [symmetry; exact Eq'|]]. eapply HU; [symmetry; exact Eq'|]. by apply Hb'. }
  split. { intros ->. apply Hs. } split. { by intros ->. } split; [done|].
  intros v Hv. assert (Hv' : v ∈ seq 0 (nv P)) by (apply elem_of_seq; lia). destruct b.
  - destruct (proj1 Hb' eq_refl) as [_ (h2 & h1 & _ & _ & H2 & H1 & Hl)].
    destruct (hist_len_le _ _ _ _ _ H1 H2 Hl v Hv') as (w & Hw & Le). exists w. apply elem_of_seq in Hw. split; [lia|].
    unfold chain_size in *. by rewrite Eq'.
  - exists v. split; [done|]. unfold chain_size. by rewrite Eq'.
Qed.

(** a sequence of offers, with any other changes in between *)
Lemma later_embedded s s' : later e E s s' -> offered e E s -> embedded (md s) = true ->
  embedded (md s') = true /\ no_overlap P (best s') /\
  (chains (best s') = chains (best s) \/ shorter P (best s') (best s)) /\
  (forall v, (v < nv P)%nat -> exists w, (w < nv P)%nat /\ (chain_size (best s') v <= chain_size (best s) w)%nat).
Proof.
  intros L O Em.
  assert (K : offered e E s' /\ embedded (md s') = true /\ no_overlap P (best s') /\
    (chains (best s') = chains (best s) \/ shorter P (best s') (best s)) /\
    (forall v, (v < nv P)%nat -> exists w, (w < nv P)%nat /\ (chain_size (best s') v <= chain_size (best s) w)%nat)); [|tauto].
  induction L as [|s1 em b s2 L IH Re H|s1 s2 L IH Hb Hs He].
  - destruct (improve_embedded s (emb_new P) O Em) as [N _]; [apply r_new|]. split; [done|]. split; [done|]. split; [done|].
    split; [by left|]. eauto.
  - destruct IH as (O1 & E1 & N1 & S1 & M1). 
    destruct (improve_embedded s1 em O1 E1 Re) as (_ & b' & s' & H' & E2 & N2 & Hf & Ht & Hb & M2).
    rewrite H in H'. injection H' as <- <-. split; [by eapply of_offer|]. split; [done|]. split; [done|]. split.
    + destruct b; [|rewrite (Hf eq_refl); done]. right.
      destruct (proj1 Hb eq_refl) as [_ (h2 & h1 & Nh2 & Nh1 & H2 & H1 & Hl)].
      assert (H2' : histogram (chain_size (best s2)) (seq 0 (nv P)) h2).
      { unfold chain_size. rewrite (Ht eq_refl). exact H2. }
      destruct S1 as [Eq|(g & g' & Ng & Ng' & Hg & Hg' & Hl')].
      * exists h2, h1. do 3 (split; [done|]). split; [|done]. unfold chain_size. rewrite <- Eq. exact H1.
      * exists h2, g'. do 3 (split; [done|]). split; [done|]. apply (hist_lt_trans _ g); [|done].
        by rewrite (histogram_unique _ _ g h1 Ng Nh1 Hg H1).
    + intros v Hv. destruct (M2 v Hv) as (w & Hw & ?). destruct (M1 w Hw) as (x & Hx & ?). exists x. split; [done|]. lia.
  - destruct IH as (O1 & E1 & N1 & S1 & M1). rewrite Hb, He. split; [by eapply of_other|]. done.
Qed.
End offers.
