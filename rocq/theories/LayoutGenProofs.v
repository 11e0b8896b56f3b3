(** Layouts made by dwave.graphs are stretched to the box that was asked for; packed components. *)
From Coq Require Import QArith Qabs Qminmax Qround Lqa Lia.
From stdpp Require Import base list numbers.
From Verif Require Import Base NxModel PyCacheModel LayoutModel LayoutGenModel SpecLayout SpecLayoutGen LayoutProofs3.

Lemma mins_maxs L d : rectangular L d -> length (mins L) = d /\ length (maxs L) = d /\
  forall i, i < d -> exists lo hi, mins L !! i = Some lo /\ maxs L !! i = Some hi /\ extent L i lo hi.
Proof.
  intros HR. destruct HR as [H1 H2]. destruct L as [|r L']; [done|]. unfold mins, maxs.
  assert (Hr : length r = d) by (apply H2; left). assert (HL : forall q, q ∈ L' -> length q = d) by (intros; apply H2; by right).
  destruct (fold_ext_lookup Qmin L' r d Hr HL) as [A1 A2]. destruct (fold_ext_lookup Qmax L' r d Hr HL) as [B1 B2]. split; [done|]. split; [done|].
  intros i Hi. destruct (lookup_lt_is_Some_2 r i ltac:(lia)) as [x Hx]. destruct (A2 i x Hx) as (l & Hl & HF). destruct (B2 i x Hx) as (l' & Hl' & HF').
  assert (l' = l) as ->. { clear -HF HF'. revert l' HF'. induction HF as [|q y L' l Hq HF IH]; intros l' HF'; inversion HF'; subst; [done|]. f_equal; [congruence|auto]. }
  exists (foldl Qmin x l), (foldl Qmax x l). split; [done|]. split; [done|].
  destruct (fold_min_spec l x) as [M1 M2]. destruct (fold_max_spec l x) as [N1 N2].
  assert (Hin : forall y, y ∈ x :: l <-> exists q, q ∈ r :: L' /\ q !! i = Some y).
  { intros y. split.
    - intros [->|Hy]%elem_of_cons; [exists r; split; [left|done]|]. apply elem_of_list_lookup in Hy as [k Hk].
      destruct (Forall2_lookup_r _ _ _ _ _ HF Hk) as (q & Hq & E). exists q. split; [right; by eapply elem_of_list_lookup_2|done].
    - intros (q & [->|Hq]%elem_of_cons & E); [rewrite Hx in E; injection E as <-; left|]. apply elem_of_list_lookup in Hq as [k Hk].
      destruct (Forall2_lookup_l _ _ _ _ _ HF Hk) as (y' & Hy & E'). rewrite E in E'. injection E' as <-. right. by eapply elem_of_list_lookup_2. }
  split; [by apply Hin|]. split; [by apply Hin|]. intros q y Hq Hy. assert (y ∈ x :: l) by (apply Hin; eauto). split; [by apply M2|by apply N2].
Qed.
Lemma mins_maxs2 L : rectangular L 2 -> exists x0 y0 x1 y1, mins L = [x0; y0] /\ maxs L = [x1; y1] /\ extent L 0 x0 x1 /\ extent L 1 y0 y1.
Proof.
  intros HR. destruct (mins_maxs L 2 HR) as (H1 & H2 & H). destruct (H 0 ltac:(lia)) as (x0 & x1 & A1 & A2 & A3). destruct (H 1 ltac:(lia)) as (y0 & y1 & B1 & B2 & B3).
  exists x0, y0, x1, y1. destruct (mins L) as [|? [|? [|]]]; try done. destruct (maxs L) as [|? [|? [|]]]; try done. cbn in *. by simplify_eq.
Qed.

Definition along (L L' : list (list Q)) (i : nat) (a b : Q) : Prop :=
  Forall2 (fun r r' => exists x x', r !! i = Some x /\ r' !! i = Some x' /\ (x' == a * x + b)%Q) L L'.
Lemma along_extent L L' i a b lo hi : (0 < a)%Q -> along L L' i a b -> extent L i lo hi -> spans L' i (a * lo + b) (a * hi + b).
Proof.
  intros Ha HA ((r1 & R1 & E1) & (r2 & R2 & E2) & H).
  assert (Hto : forall r x, r ∈ L -> r !! i = Some x -> exists r' x', r' ∈ L' /\ r' !! i = Some x' /\ (x' == a * x + b)%Q).
  { intros r x Hr Hx. apply elem_of_list_lookup in Hr as [k Hk]. destruct (Forall2_lookup_l _ _ _ _ _ HA Hk) as (r' & Hr' & y & x' & Hy & Hx' & E).
    rewrite Hx in Hy. injection Hy as <-. exists r', x'. split; [by eapply elem_of_list_lookup_2|done]. }
  destruct (Hto r1 lo R1 E1) as (r1' & lo' & R1' & E1' & El). destruct (Hto r2 hi R2 E2) as (r2' & hi' & R2' & E2' & Eh).
  exists lo', hi'. split; [|done]. split; [eauto|]. split; [eauto|]. intros r' x' Hr' Hx'. apply elem_of_list_lookup in Hr' as [k Hk].
  destruct (Forall2_lookup_r _ _ _ _ _ HA Hk) as (r & Hr & x & y & Hx & Hy & E). rewrite Hx' in Hy. injection Hy as <-.
  destruct (H r x ltac:(by eapply elem_of_list_lookup_2) Hx) as [B1 B2]. rewrite El, Eh, E. split.
  - apply Qplus_le_compat; [|q2]. apply Qmult_le_l; q2.
  - apply Qplus_le_compat; [|q2]. apply Qmult_le_l; q2.
Qed.
Lemma along_trans L1 L2 L3 i a b a' b' : along L1 L2 i a b -> along L2 L3 i a' b' -> along L1 L3 i (a' * a) (a' * b + b').
Proof.
  intros H1. revert L3. induction H1 as [|r1 r2 L1 L2 (x & y & Hx & Hy & E) H1 IH]; intros L3 H2; inversion H2 as [|? r3 ? L3' (y' & z & Hy' & Hz & E') H3]; subst; constructor; [|by apply IH].
  rewrite Hy in Hy'. injection Hy' as <-. exists x, z. split; [done|]. split; [done|]. rewrite E', E. ring.
Qed.
Lemma moved_along L L' d a b i : moved L L' a b -> (forall r, r ∈ L -> length r = d) -> i < d -> along L L' i a (b i).
Proof.
  intros HM HR Hi. induction HM as [|r r' L L' [El E] HM IH]; [constructor|]. constructor; [|apply IH; intros; apply HR; by right].
  assert (Hl : length r = d) by (apply HR; left). destruct (lookup_lt_is_Some_2 r i ltac:(lia)) as [x Hx]. destruct (lookup_lt_is_Some_2 r' i ltac:(lia)) as [x' Hx'].
  exists x, x'. split; [done|]. split; [done|]. by eapply E.
Qed.
Lemma along_fmap (f : list Q -> list Q) L i a b : (forall r, r ∈ L -> exists x x', r !! i = Some x /\ f r !! i = Some x' /\ (x' == a * x + b)%Q) -> along L (f <$> L) i a b.
Proof. intros H. apply Forall2_fmap_r, Forall_Forall2_diag, list.Forall_forall. exact H. Qed.
Lemma spans_eq L i lo hi lo' hi' : (lo == lo')%Q -> (hi == hi')%Q -> spans L i lo hi -> spans L i lo' hi'.
Proof. intros E1 E2 (l & h & H & F1 & F2). exists l, h. split; [done|]. by rewrite F1, F2. Qed.

Section graph_layout.
Context (m n d : nat) (c0 c1 : Q) (rest : list Q) (s : Q) (dwave : nat -> list Q -> Q -> list (list Q)).
Context (Hs : (0 < s)%Q) (Hd : d = length (c0 :: c1 :: rest)).
Notation corner := ((c0 - s)%Q :: (c1 + s)%Q :: rest).
Notation raw := (dwave d corner (2 * s)%Q).
Context (HR : rectangular raw d).
Context (Hrest : forall r i x c, r ∈ raw -> 2 <= i -> r !! i = Some x -> rest !! (i - 2) = Some c -> (x == c)%Q).
Notation arr := ((fun r => take 2 (zip_with Qminus r corner)) <$> raw).

Lemma raw_row r : r ∈ raw -> exists x y t, r = x :: y :: t /\ length t = length rest.
Proof using Hd HR. clear Hrest.
  intros Hr. pose proof (proj2 HR r Hr) as Hl. rewrite Hd in Hl. destruct r as [|x [|y t]]; [done|done|]. exists x, y, t. cbn in Hl. split; [done|lia].
Qed.
Lemma arr_rect : rectangular arr 2.
Proof using Hd HR. clear Hrest.
  destruct HR as [H1 H2]. split; [by destruct raw|]. intros a (r & -> & Hr)%elem_of_list_fmap. destruct (raw_row r Hr) as (x & y & t & -> & Ht).
  cbn. rewrite take_0. done.
Qed.
Lemma layout_gen dim center scale : set_dim_and_center dim center = Ok (d, c0 :: c1 :: rest) ->
  match scale with Some s => s | None => (inject_Z (Z.of_nat (n `max` m)) / 2)%Q end = s ->
  (forall i lo hi, i < 2 -> extent raw i lo hi -> (lo < hi)%Q) ->
  exists L, graph_layout true m n dwave dim center scale = Ok L /\ rectangular L d /\
    spans L 0 (c0 - s) (c0 + s) /\ spans L 1 (c1 - s) (c1 + s) /\
    (forall r i x c, r ∈ L -> 2 <= i -> r !! i = Some x -> rest !! (i - 2) = Some c -> (x == c)%Q) /\
    stretched raw L 0 /\ stretched raw L 1.
Proof.
  intros Edc Es Hflat. unfold graph_layout. cbn [negb]. rewrite Edc. cbn [rbind fst snd]. rewrite Es. cbn [nx_to_graph_layout rbind fst snd].
  destruct (mins_maxs2 arr arr_rect) as (x0 & y0 & x1 & y1 & Emin & Emax & Hx & Hy). cbv zeta. rewrite Emin, Emax.
  (* from the rows to their offsets *)
  assert (Ax : along arr raw 0 1 (c0 - s)).
  { apply Forall2_fmap_l, Forall_Forall2_diag, list.Forall_forall. intros r Hr. destruct (raw_row r Hr) as (x & y & t & -> & _). cbn. exists (x - (c0 - s))%Q, x. split; [done|]. split; [done|ring]. }
  assert (Ay : along arr raw 1 1 (c1 + s)).
  { apply Forall2_fmap_l, Forall_Forall2_diag, list.Forall_forall. intros r Hr. destruct (raw_row r Hr) as (x & y & t & -> & _). cbn. exists (y - (c1 + s))%Q, y. split; [done|]. split; [done|ring]. }
  assert (Bx : along raw arr 0 1 (- (c0 - s))).
  { apply along_fmap. intros r Hr. destruct (raw_row r Hr) as (x & y & t & -> & _). cbn. exists x, (x - (c0 - s))%Q. split; [done|]. split; [done|ring]. }
  assert (By : along raw arr 1 1 (- (c1 + s))).
  { apply along_fmap. intros r Hr. destruct (raw_row r Hr) as (x & y & t & -> & _). cbn. exists y, (y - (c1 + s))%Q. split; [done|]. split; [done|ring]. }
  assert (Fx : (x0 < x1)%Q).
  { destruct (along_extent _ _ _ 1%Q _ _ _ ltac:(lra) Ax Hx) as (lo & hi & HE & E1 & E2). pose proof (Hflat 0 lo hi ltac:(lia) HE). lra. }
  assert (Fy : (y0 < y1)%Q).
  { destruct (along_extent _ _ _ 1%Q _ _ _ ltac:(lra) Ay Hy) as (lo & hi & HE & E1 & E2). pose proof (Hflat 1 lo hi ltac:(lia) HE). lra. }
  assert (Hd0 : 0 < d) by (rewrite Hd; cbn; lia).
  (* the layout before it is copied *)
  assert (G : exists L A bA B bB, (if Qeq_bool x0 0 && Qeq_bool x1 (2 * s) && Qeq_bool y0 (- (2 * s)) && Qeq_bool y1 0 then Ok raw
      else if Qeq_bool (x1 - x0) 0 || Qeq_bool (y1 - y0) 0 then Err Corrupt
      else Ok (stretch d corner x0 y1 ((2 * s) / (x1 - x0))%Q ((2 * s) / (y1 - y0))%Q <$> arr)) = Ok L /\ rectangular L d /\
    (0 < A)%Q /\ along arr L 0 A bA /\ (A * x0 + bA == c0 - s)%Q /\ (A * x1 + bA == c0 + s)%Q /\
    (0 < B)%Q /\ along arr L 1 B bB /\ (B * y0 + bB == c1 - s)%Q /\ (B * y1 + bB == c1 + s)%Q /\
    (forall r i x c, r ∈ L -> 2 <= i -> r !! i = Some x -> rest !! (i - 2) = Some c -> (x == c)%Q)).
  { destruct (Qeq_bool x0 0 && Qeq_bool x1 (2 * s) && Qeq_bool y0 (- (2 * s)) && Qeq_bool y1 0) eqn:Eb.
    - apply andb_true_iff in Eb as [Eb E4%Qeq_bool_iff]. apply andb_true_iff in Eb as [Eb E3%Qeq_bool_iff]. apply andb_true_iff in Eb as [E1%Qeq_bool_iff E2%Qeq_bool_iff].
      exists raw, 1%Q, (c0 - s)%Q, 1%Q, (c1 + s)%Q. split; [done|]. split; [done|]. split; [lra|]. split; [done|]. split; [lra|]. split; [lra|]. split; [lra|]. split; [done|]. split; [lra|]. split; [lra|done].
    - replace (Qeq_bool (x1 - x0) 0) with false by (symmetry; apply not_true_is_false; intros H%Qeq_bool_iff; lra).
      replace (Qeq_bool (y1 - y0) 0) with false by (symmetry; apply not_true_is_false; intros H%Qeq_bool_iff; lra). cbn [orb].
      set (A := ((2 * s) / (x1 - x0))%Q). set (B := ((2 * s) / (y1 - y0))%Q).
      assert (HA : (0 < A)%Q) by (apply Qlt_shift_div_l; lra). assert (HB : (0 < B)%Q) by (apply Qlt_shift_div_l; lra).
      assert (EA : (A * (x1 - x0) == 2 * s)%Q) by (unfold A; field; lra). assert (EB : (B * (y1 - y0) == 2 * s)%Q) by (unfold B; field; lra).
      clearbody A B.
      assert (Hst : forall a, a ∈ arr -> exists x y, a = [x; y] /\ stretch d corner x0 y1 A B a = ((x - x0) * A + (c0 - s))%Q :: ((y - y1) * B + (c1 + s))%Q :: zip_with Qplus (replicate (d - 2) 0%Q) rest).
      { intros a Ha. pose proof (proj2 arr_rect a Ha) as Hl. destruct a as [|x [|y [|]]]; try done. exists x, y. done. }
      eexists _, A, ((c0 - s) - A * x0)%Q, B, ((c1 + s) - B * y1)%Q. split; [reflexivity|].
      assert (Hl0 : length rest = d - 2) by (rewrite Hd; cbn; lia).
      split; [split|].
      { destruct arr_rect as [Hn _]. by destruct arr. }
      { intros r (a & -> & Ha)%elem_of_list_fmap. destruct (Hst a Ha) as (x & y & _ & ->). cbn. rewrite zip_with_length, replicate_length, Hd. cbn. lia. }
      split; [done|]. split. { apply along_fmap. intros a Ha. destruct (Hst a Ha) as (x & y & -> & ->). exists x, ((x - x0) * A + (c0 - s))%Q. split; [done|]. split; [done|ring]. }
      split; [ring|]. split. { assert (E : (A * x1 + (c0 - s - A * x0) == A * (x1 - x0) + (c0 - s))%Q) by ring. rewrite E, EA. ring. }
      split; [done|]. split. { apply along_fmap. intros a Ha. destruct (Hst a Ha) as (x & y & -> & ->). exists y, ((y - y1) * B + (c1 + s))%Q. split; [done|]. split; [done|ring]. }
      split. { assert (E : (B * y0 + (c1 + s - B * y1) == (c1 + s) - B * (y1 - y0))%Q) by ring. rewrite E, EB. ring. }
      split; [ring|]. intros r i x c Hr Hi Hx' Hc. apply elem_of_list_fmap in Hr as (a & -> & Ha). destruct (Hst a Ha) as (x' & y' & -> & E). rewrite E in Hx'.
      destruct i as [|[|i]]; [lia|lia|]. change (zip_with Qplus (replicate (d - 2) 0%Q) rest !! i = Some x) in Hx'. replace (S (S i) - 2) with i in Hc by lia. rewrite lookup_zip_with in Hx'.
      destruct (replicate (d - 2) 0%Q !! i) as [z|] eqn:Ez; [|done]. apply lookup_replicate in Ez as [-> _]. cbn in Hx'. rewrite Hc in Hx'. cbn in Hx'. injection Hx' as <-. ring. }
  destruct G as (L & A & bA & B & bB & -> & HL & HA & LA & EA1 & EA2 & HB & LB & EB1 & EB2 & HLr). cbn [rbind].
  destruct (copy_ok L d HL Hd0) as (L' & EL & HM). exists L'. split; [done|]. split; [by eapply moved_rows|].
  pose proof (moved_along L L' d 1 _ 0 HM (proj2 HL) ltac:(lia)) as M0. assert (H1d : 1 < d) by (rewrite Hd; cbn; lia). pose proof (moved_along L L' d 1 _ 1 HM (proj2 HL) H1d) as M1. cbv beta in M0, M1.
  split. { eapply spans_eq; [| |eapply along_extent; [|exact (along_trans _ _ _ _ _ _ _ _ LA M0)|exact Hx]]; lra. }
  split. { eapply spans_eq; [| |eapply along_extent; [|exact (along_trans _ _ _ _ _ _ _ _ LB M1)|exact Hy]]; lra. }
  split.
  { intros r' i x' c Hr' Hi Hx' Hc. apply elem_of_list_lookup in Hr' as [k Hk]. destruct (Forall2_lookup_r _ _ _ _ _ HM Hk) as (r & Hr & Elen & E).
    destruct (lookup_lt_is_Some_2 r i) as [x Hxx]; [apply lookup_lt_Some in Hx'; lia|]. rewrite (E i x x' Hxx Hx').
    rewrite (HLr r i x c); [ring|by eapply elem_of_list_lookup_2|done|done|done]. }
  split.
  - exists (1 * (A * 1))%Q. eexists. split; [lra|]. exact (along_trans _ _ _ _ _ _ _ _ (along_trans _ _ _ _ _ _ _ _ Bx LA) M0).
  - exists (1 * (B * 1))%Q. eexists. split; [lra|]. exact (along_trans _ _ _ _ _ _ _ _ (along_trans _ _ _ _ _ _ _ _ By LB) M1).
Qed.

(** a layout without extent in one of the two coordinates cannot be stretched *)
Lemma layout_flat dim center scale i x : set_dim_and_center dim center = Ok (d, c0 :: c1 :: rest) ->
  match scale with Some s => s | None => (inject_Z (Z.of_nat (n `max` m)) / 2)%Q end = s ->
  i < 2 -> extent raw i x x -> graph_layout true m n dwave dim center scale = Err Corrupt.
Proof using Hs Hd HR. clear Hrest.
  intros Edc Es Hi HE. unfold graph_layout. cbn [negb]. rewrite Edc. cbn [rbind fst snd]. rewrite Es. cbn [nx_to_graph_layout rbind fst snd].
  destruct (mins_maxs2 arr arr_rect) as (x0 & y0 & x1 & y1 & Emin & Emax & Hx & Hy). cbv zeta. rewrite Emin, Emax.
  assert (Bx : along raw arr 0 1 (- (c0 - s))).
  { apply along_fmap. intros r Hr. destruct (raw_row r Hr) as (a & b & t & -> & _). cbn. exists a, (a - (c0 - s))%Q. split; [done|]. split; [done|ring]. }
  assert (By : along raw arr 1 1 (- (c1 + s))).
  { apply along_fmap. intros r Hr. destruct (raw_row r Hr) as (a & b & t & -> & _). cbn. exists b, (b - (c1 + s))%Q. split; [done|]. split; [done|ring]. }
  assert (HF : (x0 == x1 \/ y0 == y1)%Q).
  { destruct i as [|[|]]; [left|right|lia].
    - destruct (along_extent _ _ _ 1%Q _ _ _ ltac:(lra) Bx HE) as (lo & hi & HE' & E1 & E2). destruct (extent_unique _ _ _ _ _ _ Hx HE') as [F1 F2]. lra.
    - destruct (along_extent _ _ _ 1%Q _ _ _ ltac:(lra) By HE) as (lo & hi & HE' & E1 & E2). destruct (extent_unique _ _ _ _ _ _ Hy HE') as [F1 F2]. lra. }
  destruct (Qeq_bool x0 0 && Qeq_bool x1 (2 * s) && Qeq_bool y0 (- (2 * s)) && Qeq_bool y1 0) eqn:Eb.
  { apply andb_true_iff in Eb as [Eb E4%Qeq_bool_iff]. apply andb_true_iff in Eb as [Eb E3%Qeq_bool_iff]. apply andb_true_iff in Eb as [E1%Qeq_bool_iff E2%Qeq_bool_iff]. exfalso. destruct HF; lra. }
  replace (Qeq_bool (x1 - x0) 0 || Qeq_bool (y1 - y0) 0) with true; [done|]. symmetry. apply orb_true_iff.
  destruct HF; [left|right]; apply Qeq_bool_iff; lra.
Qed.
End graph_layout.

Lemma box_arguments_ok dim center d c : box_arguments dim center d c -> set_dim_and_center dim center = Ok (d, c).
Proof.
  intros (H1 & H2 & H3). unfold set_dim_and_center. destruct dim as [d'|], center as [c'|].
  - subst d' c'. by rewrite H1, Nat.eqb_refl.
  - subst d'. by rewrite <- H3, H1, Nat.eqb_refl.
  - subst c'. by rewrite H1, Nat.eqb_refl.
  - specialize (H2 eq_refl). subst d. rewrite H2 in H3 |- *. by rewrite <- H3, H2.
Qed.
Lemma layout_bad known m n dwave dim center scale :
  known = false \/ (exists d c, dim = Some d /\ center = Some c /\ length c <> d) \/ (exists c, center = Some c /\ length c < 2) \/ (exists d, dim = Some d /\ d < 2) ->
  graph_layout known m n dwave dim center scale = Err BadInit.
Proof.
  intros H. unfold graph_layout. destruct known; [|done]. cbn [negb]. unfold set_dim_and_center.
  destruct H as [|[(d & c & -> & -> & H)|[(c & -> & H)|(d & -> & H)]]]; [done| | |].
  - apply Nat.eqb_neq in H as ->. done.
  - destruct (length c =? _); [|done]. cbn [rbind snd]. destruct c as [|? [|]]; [done|done|cbn in H; lia].
  - set (c := match center with Some c => c | None => replicate d 0%Q end). destruct (length c =? d) eqn:E; [|done]. apply Nat.eqb_eq in E. cbn [rbind snd].
    destruct c as [|? [|]]; [done|done|cbn in E; lia].
Qed.
