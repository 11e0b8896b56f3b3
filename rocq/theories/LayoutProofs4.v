(** [intersection]: the grid and the crossings of qubits. *)
From Coq Require Import QArith Qabs Qminmax Qround Lqa Lia.
From stdpp Require Import base list numbers gmap.
From Verif Require Import Base NxModel PyCacheModel LayoutModel SpecBus SpecFrag SpecUtil SpecLayout LayoutProofs3.

Lemma round_near x : (Qabs (x - inject_Z (round_even x)) <= 1 # 2)%Q.
Proof.
  unfold round_even. pose proof (Qfloor_le x) as H1. pose proof (Qlt_floor x) as H2. rewrite inject_Z_plus in H2. change (inject_Z 1) with 1%Q in H2.
  apply Qabs_Qle_condition. destruct (Qcompare_spec (x - inject_Z (Qfloor x)) (1 # 2)) as [E|E|E]; [destruct (Z.even _)| |];
    rewrite ?inject_Z_plus; change (inject_Z 1) with 1%Q; lra.
Qed.
Lemma round_range x n : (0 <= x <= inject_Z n)%Q -> (0 <= round_even x <= n)%Z.
Proof.
  intros [H1 H2]. pose proof (round_near x) as H. apply Qabs_Qle_condition in H as [H3 H4].
  assert (Hlo : (inject_Z (-1) < inject_Z (round_even x))%Q) by (change (inject_Z (-1)) with (-1)%Q; lra).
  assert (Hhi : (inject_Z (round_even x) < inject_Z (n + 1))%Q) by (rewrite inject_Z_plus; change (inject_Z 1) with 1%Q; lra).
  rewrite <- Zlt_Qlt in Hlo, Hhi. lia.
Qed.

Section zoom.
Context (m n t : nat) (LS : list (list Q)).
Lemma zoom_ok : rectangular LS 2 -> 2 <= t * (n `min` m) ->
  exists L a b, zoom m n t LS = Ok L /\ (0 < a)%Q /\ moved LS L a b /\ box_center L 2 [grid_scale m n t; grid_scale m n t] /\
    (forall s, box_scale LS 2 s -> box_scale L 2 (Qmin (grid_scale m n t) (s * inject_Z (Z.of_nat t)))) /\
    forall r i x, r ∈ L -> r !! i = Some x -> (0 <= x <= inject_Z (Z.of_nat (t * (n `min` m)) - 1))%Q.
Proof.
  intros HR Hn. unfold zoom. set (N := t * (n `min` m)) in *. set (g := grid_scale m n t).
  assert (Hg : (g == (inject_Z (Z.of_nat N) - 1) / 2)%Q) by reflexivity.
  assert (HN : (2 <= inject_Z (Z.of_nat N))%Q). { change 2%Q with (inject_Z 2). rewrite <- Zle_Qle. lia. }
  assert (Hg0 : (1 # 2 <= g)%Q) by (rewrite Hg; unfold Qdiv; change (/ 2)%Q with (1 # 2)%Q; lra).
  assert (Ht : (0 < inject_Z (Z.of_nat t))%Q). { change 0%Q with (inject_Z 0). rewrite <- Zlt_Qlt. destruct t; [cbn in N; lia|lia]. }
  destruct (scale_abs LS) as (_ & A2 & _).
  assert (exists L1 a b s, set_scale LS (if Qle_bool g (layout_scale LS * inject_Z (Z.of_nat t)) then g else (layout_scale LS * inject_Z (Z.of_nat t))%Q) = Ok L1 /\
    (0 < a)%Q /\ moved LS L1 a b /\ box_scale L1 2 s /\ (s <= g)%Q /\ (s == Qmin g (layout_scale LS * inject_Z (Z.of_nat t)))%Q) as (L1 & a1 & b1 & s & -> & Ha & M1 & B1 & Hs & Hmin).
  { destruct (Qeq_bool (layout_scale LS) 0) eqn:E0.
    - apply Qeq_bool_iff in E0. replace (Qle_bool g (layout_scale LS * inject_Z (Z.of_nat t))) with false.
      2:{ symmetry. apply not_true_is_false. intros H%Qle_bool_iff. rewrite E0 in H. lra. }
      unfold set_scale. replace (Qeq_bool (layout_scale LS * inject_Z (Z.of_nat t)) 0) with true.
      2:{ symmetry. apply Qeq_bool_iff. rewrite E0. ring. }
      exists LS, 1%Q, (fun _ => 0%Q), 0%Q. split; [done|]. split; [lra|]. split; [apply moved_refl|].
      split; [|split; [lra|rewrite E0; assert ((0 * inject_Z (Z.of_nat t) == 0)%Q) as -> by ring; symmetry; apply Q.min_r; lra]].
      eapply box_scale_eq; [exact E0|]. apply scale_ok; [done|lia].
    - assert (H0 : (0 < layout_scale LS)%Q). { apply Qle_lteq in A2 as [?|A2]; [done|]. apply not_true_iff_false in E0. exfalso. apply E0. apply Qeq_bool_iff. by rewrite A2. }
      assert (Hx : forall x, (0 < x)%Q -> (x <= g)%Q -> (x == Qmin g (layout_scale LS * inject_Z (Z.of_nat t)))%Q -> exists L1 a b s, set_scale LS x = Ok L1 /\ (0 < a)%Q /\ moved LS L1 a b /\ box_scale L1 2 s /\ (s <= g)%Q /\ (s == Qmin g (layout_scale LS * inject_Z (Z.of_nat t)))%Q).
      { intros x Hx Hxg Hxm. destruct (set_scale_ok LS 2 x HR ltac:(lia) Hx H0) as (L' & E & _ & B & _ & b & M). exists L', (x / layout_scale LS)%Q, b, x. split; [done|].
        split; [apply Qlt_shift_div_l; lra|]. done. }
      destruct (Qle_bool g _) eqn:El.
      + apply Qle_bool_iff in El. apply Hx; [lra|lra|]. symmetry. by apply Q.min_l.
      + assert (Hlt : (layout_scale LS * inject_Z (Z.of_nat t) <= g)%Q) by (apply Qlt_le_weak, Qnot_le_lt; intros H%Qle_bool_iff; congruence).
        apply Hx; [by apply Qmult_lt_0_compat|done|]. symmetry. by apply Q.min_r. }
  cbn [rbind]. pose proof (moved_rows _ _ _ _ _ M1 HR) as R1.
  destruct (set_center_ok L1 2 [g; g] R1 ltac:(lia) eq_refl) as (L & E & R & C & S & b & M). exists L, (1 * a1)%Q, (fun i => 1 * b1 i + b i)%Q.
  split; [done|]. split; [lra|]. split; [exact (moved_trans _ _ _ _ _ _ _ M1 M)|]. split; [exact C|].
  split. { intros s0 Hs0. apply S. eapply box_scale_eq; [|exact B1]. rewrite Hmin. rewrite (scale_pos LS 2 s0 HR ltac:(lia) Hs0). reflexivity. }
  intros r i x Hr Hx. specialize (S s B1). destruct S as [S _].
  assert (Hi : i < 2). { apply lookup_lt_Some in Hx. by rewrite (proj2 R r Hr) in Hx. }
  destruct C as [_ C]. assert ([g; g] !! i = Some g) as Hc by (destruct i as [|[|i]]; [done|done|lia]).
  destruct (C i g Hc) as (lo & hi & HE & E'). pose proof (S i lo hi Hi HE) as Hle. destruct HE as (_ & _ & HE). destruct (HE r x Hr Hx) as [X1 X2].
  unfold Z.sub. rewrite inject_Z_plus. assert (EZ : (inject_Z (Z.opp 1) == -(1))%Q) by reflexivity. rewrite EZ. clearbody g N. unfold Qdiv in *. change (/ 2)%Q with (1 # 2)%Q in *. split; lra.
Qed.
End zoom.

Section inter.
Context {Qb : Type} (points : Qb -> list (nat * nat)).
Lemma intersection_ok m n t (T : list Qb) nodes LS : rectangular LS 2 -> 2 <= t * (n `min` m) -> length nodes = length LS ->
  (forall q p, q ∈ T -> p ∈ points q -> p.1 < t * n /\ p.2 < t * m) ->
  exists pl L a b, intersection points m n t T nodes LS = Ok pl /\ pl.*1 = nodes /\ (0 < a)%Q /\ moved LS L a b /\
    (let g := ((inject_Z (Z.of_nat (t * (n `min` m))) - 1) / 2)%Q in
     box_center L 2 [g; g] /\ forall s, box_scale LS 2 s -> box_scale L 2 (Qmin g (s * inject_Z (Z.of_nat t)))) /\
    forall i u Qs r, pl !! i = Some (u, Qs) -> L !! i = Some r -> exists x y, x < t * n /\ y < t * m /\ crossing points T r x y Qs.
Proof.
  intros HR Hn Hlen Hin. unfold intersection. replace (forallb _ T) with true.
  2:{ symmetry. apply forallb_forall. intros q Hq. apply forallb_forall. intros p Hp. apply elem_of_list_In in Hq, Hp. unfold in_grid.
      destruct (Hin q p Hq Hp). apply andb_true_iff. split; by apply Nat.ltb_lt. }
  destruct (zoom_ok m n t LS HR Hn) as (L & a & b & -> & Ha & M & HC & HS & HB). cbn [rbind]. pose proof (moved_rows _ _ _ _ _ M HR) as R.
  assert (HlenL : length L = length nodes). { rewrite Hlen. symmetry. eapply Forall2_length. exact M. }
  destruct (foldM_inv (fun pl (e : nat * list Q) => let! p := grid_cell m n t e.2 in Ok (pl ++ [(e.1, qubits_at points T p)]))
    (fun dn (pl : list (nat * list Qb)) => pl.*1 = dn.*1 /\ forall i u Qs r, pl !! i = Some (u, Qs) -> dn.*2 !! i = Some r ->
      exists x y, x < t * n /\ y < t * m /\ crossing points T r x y Qs) (zip nodes L) []) as (pl & -> & H1 & H2).
  { split; [done|]. intros i u Qs r Hi. done. }
  { intros dn [v r] rest pl Hs [I1 I2]. cbn [fst snd].
    assert (Hr : r ∈ L). { assert (Hz : (v, r) ∈ zip nodes L) by (rewrite Hs; apply elem_of_app; right; left). by eapply elem_of_zip_r. }
    pose proof (proj2 R r Hr) as Hl2. destruct r as [|x [|y [|]]]; try (cbn in Hl2; lia). unfold grid_cell.
    pose proof (round_range x _ (HB _ 0 x Hr eq_refl)) as Rx. pose proof (round_range y _ (HB _ 1 y Hr eq_refl)) as Ry.
    assert (G1 : Z.to_nat (round_even x) < t * n) by nia. assert (G2 : Z.to_nat (round_even y) < t * m) by nia.
    replace (_ && _) with true.
    2:{ symmetry. unfold in_grid. cbn [fst snd]. rewrite !andb_true_iff. split; [split; apply Z.leb_le; lia|]. split; by apply Nat.ltb_lt. }
    cbn [rbind]. eexists. split; [reflexivity|]. split; [by rewrite !fmap_app, I1|].
    assert (El : length pl = length dn.*2). { rewrite <- (fmap_length fst pl), I1, !fmap_length. done. }
    intros i u Qs r Hi Hr'. rewrite fmap_app in Hr'. destruct (decide (i < length pl)) as [Hlt|Hge].
    - rewrite lookup_app_l in Hi by done. rewrite lookup_app_l in Hr' by lia. by eapply I2.
    - rewrite lookup_app_r in Hi by lia. rewrite lookup_app_r in Hr' by lia. rewrite <- El in Hr'. destruct (i - length pl) as [|k]; [|by destruct k].
      cbn in Hi, Hr'. injection Hi as <- <-. injection Hr' as <-. exists (Z.to_nat (round_even x)), (Z.to_nat (round_even y)). split; [done|]. split; [done|]. split.
      + exists x, y. rewrite !Z2Nat.id by lia. split; [done|]. split; apply round_near.
      + intros q. unfold qubits_at. rewrite elem_of_list_filter. tauto. }
  exists pl, L, a, b. rewrite fst_zip in H1 by lia. rewrite snd_zip in H2 by lia. done.
Qed.
End inter.

(** ** The crossings of the lattices *)
(** Chimera: coordinates (i, j, u, k) *)
Lemma chimera_at_spec t i j u k x y : (x, y) ∈ chimera_at t (i, j, u, k) <->
  if (u : bool) then j * t <= x < j * t + t /\ y = i * t + k else x = j * t + k /\ i * t <= y < i * t + t.
Proof.
  cbn. unfold chimera_points. destruct u; rewrite elem_of_list_fmap; split.
  - intros (kk & [E1 E2]%pair_equal_spec & Hk%elem_of_seq). lia.
  - intros [H ->]. exists (x - j * t). rewrite elem_of_seq. split; [f_equal|]; lia.
  - intros (kk & [E1 E2]%pair_equal_spec & Hk%elem_of_seq). lia.
  - intros [-> H]. exists (y - i * t). rewrite elem_of_seq. split; [f_equal|]; lia.
Qed.
Lemma cell_unique t a b x y : x < t -> y < t -> a * t + x = b * t + y -> a = b /\ x = y.
Proof. intros Hx Hy E. assert (a = b) as ->; [|lia]. assert ((a * t + x) / t = a /\ (b * t + y) / t = b) as [E1 E2]; [|congruence].
  split; (rewrite Nat.div_add_l by lia; rewrite Nat.div_small by lia; lia). Qed.
Lemma span_unique t a b x : a * t <= x < a * t + t -> b * t <= x < b * t + t -> a = b.
Proof. intros H1 H2. destruct (cell_unique t a b (x - a * t) (x - b * t)); lia. Qed.
Lemma chimera_inside m n t q p : chimera_in m n t q -> p ∈ chimera_at t q -> p.1 < t * n /\ p.2 < t * m.
Proof. destruct q as [[[i j] u] k], p as [x y]. intros (Hi & Hj & Hk) Hp%chimera_at_spec. cbn [fst snd]. destruct u; destruct Hp as [? ?]; split; nia. Qed.
Lemma chimera_cross m n t q q' p : chimera_in m n t q -> chimera_in m n t q' -> p ∈ chimera_at t q -> p ∈ chimera_at t q' -> q <> q' ->
  chimera_adj m n t (chimera_id n t q) (chimera_id n t q').
Proof.
  destruct q as [[[i j] u] k], q' as [[[i' j'] u'] k'], p as [x y]. intros (Hi & Hj & Hk) (Hi' & Hj' & Hk') Hp%chimera_at_spec Hp'%chimera_at_spec Hne. cbn [chimera_id].
  destruct u, u'.
  - destruct Hp as [H1 H2], Hp' as [H3 H4]. destruct (cell_unique t i i' k k'); [lia|lia|lia|]. pose proof (span_unique t j j' x H1 H3). subst. done.
  - destruct Hp as [H1 H2], Hp' as [H3 H4]. assert (i = i') as <- by (eapply (span_unique t i i' y); lia). assert (j = j') as <- by (eapply (span_unique t j j' x); lia).
    right. by constructor.
  - destruct Hp as [H1 H2], Hp' as [H3 H4]. assert (i = i') as <- by (eapply (span_unique t i i' y); lia). assert (j = j') as <- by (eapply (span_unique t j j' x); lia).
    left. by constructor.
  - destruct Hp as [H1 H2], Hp' as [H3 H4]. destruct (cell_unique t j j' k k'); [lia|lia|lia|]. pose proof (span_unique t i i' y H2 H4). subst. done.
Qed.
Lemma chimera_cover m n t x y : x < t * n -> y < t * m ->
  exists q q', chimera_in m n t q /\ chimera_in m n t q' /\ q <> q' /\ forall r, chimera_in m n t r -> ((x, y) ∈ chimera_at t r <-> r = q \/ r = q').
Proof.
  intros Hx Hy. assert (0 < t) by (destruct t; [lia|lia]).
  pose proof (Nat.div_mod x t ltac:(lia)) as Dx. pose proof (Nat.div_mod y t ltac:(lia)) as Dy. pose proof (Nat.mod_upper_bound x t ltac:(lia)). pose proof (Nat.mod_upper_bound y t ltac:(lia)).
  assert (x / t < n) by (apply Nat.div_lt_upper_bound; lia). assert (y / t < m) by (apply Nat.div_lt_upper_bound; lia).
  assert (A : (x, y) ∈ chimera_at t (y / t, x / t, false, x mod t)) by (apply chimera_at_spec; lia).
  assert (B : (x, y) ∈ chimera_at t (y / t, x / t, true, y mod t)) by (apply chimera_at_spec; lia).
  exists (y / t, x / t, false, x mod t), (y / t, x / t, true, y mod t). split; [done|]. split; [done|]. split; [done|]. intros r Hr. split; [|intros [-> | ->]; done].
  intros Hp. destruct r as [[[i j] u] k], Hr as (Hi & Hj & Hk). apply chimera_at_spec in Hp, A, B. destruct u; destruct Hp as [H5 H6], A as [A1 A2], B as [B1 B2].
  - right. assert (i = y / t) as -> by (apply (span_unique t _ _ y); lia). assert (j = x / t) as -> by (apply (span_unique t _ _ x); lia). repeat f_equal. lia.
  - left. assert (i = y / t) as -> by (apply (span_unique t _ _ y); lia). assert (j = x / t) as -> by (apply (span_unique t _ _ x); lia). repeat f_equal. lia.
Qed.

(** Pegasus: coordinates (u, w, k, z); the offsets of the lines [2k'] and [2k'+1] are the same even
    number below 12 *)
Lemma pegasus_at_spec off u w k z x y : (x, y) ∈ pegasus_at off (u, w, k, z) <->
  let o := 12 * z + 2 * off u (k / 2) in
  if (u : bool) then o <= x < o + 12 /\ y = 12 * w + k else x = 12 * w + k /\ o <= y < o + 12.
Proof.
  cbn zeta. unfold pegasus_at, pegasus_points. destruct u; rewrite elem_of_list_fmap; split.
  - intros (kk & [E1 E2]%pair_equal_spec & Hk%elem_of_seq). lia.
  - intros [H ->]. exists (x - (12 * z + 2 * off true (k / 2))). rewrite elem_of_seq. split; [f_equal|]; lia.
  - intros (kk & [E1 E2]%pair_equal_spec & Hk%elem_of_seq). lia.
  - intros [-> H]. exists (y - (12 * z + 2 * off false (k / 2))). rewrite elem_of_seq. split; [f_equal|]; lia.
Qed.
Section pegasus.
Context (m : nat) (off : bool -> nat -> nat) (Hoff : forall u k, k < 6 -> off u k < 6).
Lemma half_lt k : k < 12 -> k / 2 < 6.
Proof. intros H. apply Nat.div_lt_upper_bound; lia. Qed.
Lemma pegasus_inside q p : pegasus_in m q -> p ∈ pegasus_at off q -> p.1 < 12 * m /\ p.2 < 12 * m.
Proof using Hoff.
  destruct q as [[[u w] k] z], p as [x y]. intros (Hw & Hk & Hz) Hp%pegasus_at_spec. cbn [fst snd]. pose proof (Hoff u (k / 2) (half_lt k Hk)). cbn zeta in Hp.
  destruct u; destruct Hp; lia.
Qed.
Lemma pegasus_cross q q' p : pegasus_in m q -> pegasus_in m q' -> p ∈ pegasus_at off q -> p ∈ pegasus_at off q' -> q <> q' ->
  pegasus_coupler m off (pegasus_id m q) (pegasus_id m q') \/ pegasus_coupler m off (pegasus_id m q') (pegasus_id m q).
Proof.
  destruct q as [[[u w] k] z], q' as [[[u' w'] k'] z'], p as [x y]. intros (Hw & Hk & Hz) (Hw' & Hk' & Hz') Hp%pegasus_at_spec Hp'%pegasus_at_spec Hne. cbn [pegasus_id]. cbn zeta in Hp, Hp'.
  pose proof (Nat.div_mod k 2 ltac:(lia)) as D. pose proof (Nat.mod_upper_bound k 2 ltac:(lia)). pose proof (Nat.div_mod k' 2 ltac:(lia)) as D'. pose proof (Nat.mod_upper_bound k' 2 ltac:(lia)).
  assert (Hs : forall u0, u = u0 -> u' = u0 -> 12 * w + k = 12 * w' + k' -> z = z' -> False).
  { intros u0 -> -> E ->. apply Hne. assert (w = w') as -> by lia. assert (k = k') as -> by lia. done. }
  destruct u, u'.
  - exfalso. destruct Hp as [H1 H2], Hp' as [H3 H4]. apply (Hs true); try done; [lia|]. assert (k = k') as -> by lia. lia.
  - right. destruct Hp as [H1 H2], Hp' as [H3 H4]. constructor; try done; unfold pegasus_covers, pegasus_position; lia.
  - left. destruct Hp as [H1 H2], Hp' as [H3 H4]. constructor; try done; unfold pegasus_covers, pegasus_position; lia.
  - exfalso. destruct Hp as [H1 H2], Hp' as [H3 H4]. apply (Hs false); try done; [lia|]. assert (k = k') as -> by lia. lia.
Qed.
Lemma pegasus_meet w k z w' k' z' :
  pegasus_covers off false k z (pegasus_position w' k') -> pegasus_covers off true k' z' (pegasus_position w k) ->
  exists p, p ∈ pegasus_at off (false, w, k, z) /\ p ∈ pegasus_at off (true, w', k', z').
Proof.
  unfold pegasus_covers, pegasus_position. intros H1 H2. exists (12 * w + k, 12 * w' + k').
  pose proof (Nat.div_mod k 2 ltac:(lia)) as D. pose proof (Nat.mod_upper_bound k 2 ltac:(lia)). pose proof (Nat.div_mod k' 2 ltac:(lia)) as D'. pose proof (Nat.mod_upper_bound k' 2 ltac:(lia)).
  split; apply pegasus_at_spec; cbn zeta; lia.
Qed.
End pegasus.

(** Zephyr: coordinates (u, w, k, j, z) *)
Lemma zephyr_at_spec t u w k j z x y : (x, y) ∈ zephyr_at t (u, w, k, j, z) <->
  let o := (4 * z + 2 * j) * t in let l := 2 * (t * w + k) + j in
  if (u : bool) then x = l /\ o <= y < o + 4 * t else o <= x < o + 4 * t /\ y = l.
Proof.
  cbn zeta. unfold zephyr_at, zephyr_points. destruct u; rewrite elem_of_list_fmap; split.
  - intros (kk & [E1 E2]%pair_equal_spec & Hk%elem_of_seq). lia.
  - intros [-> H]. exists (y - (4 * z + 2 * j) * t). rewrite elem_of_seq. split; [f_equal|]; lia.
  - intros (kk & [E1 E2]%pair_equal_spec & Hk%elem_of_seq). lia.
  - intros [H ->]. exists (x - (4 * z + 2 * j) * t). rewrite elem_of_seq. split; [f_equal|]; lia.
Qed.
Section zephyr.
Context (m t : nat).
Lemma zephyr_inside q p : zephyr_in m t q -> p ∈ zephyr_at t q -> p.1 < (2 * t) * (2 * m + 1) /\ p.2 < (2 * t) * (2 * m + 1).
Proof.
  destruct q as [[[[u w] k] j] z], p as [x y]. intros (Hw & Hk & Hj & Hz) Hp%zephyr_at_spec. cbn [fst snd]. cbn zeta in Hp.
  assert ((4 * z + 2 * j) * t + 4 * t <= 2 * t * (2 * m + 1)) by nia. assert (2 * (t * w + k) + j < 2 * t * (2 * m + 1)) by nia.
  destruct u; destruct Hp; lia.
Qed.
Lemma zephyr_line w k j w' k' j' : k < t -> j < 2 -> k' < t -> j' < 2 -> 2 * (t * w + k) + j = 2 * (t * w' + k') + j' -> w = w' /\ k = k' /\ j = j'.
Proof. intros Hk Hj Hk' Hj' E. assert (j = j') by lia. assert (w = w' /\ k = k') as [-> ->]; [|done]. apply (cell_unique t w w' k k'); lia. Qed.
Lemma zephyr_span z z' j x : j < 2 -> (4 * z + 2 * j) * t <= x < (4 * z + 2 * j) * t + 4 * t -> (4 * z' + 2 * j) * t <= x < (4 * z' + 2 * j) * t + 4 * t -> z = z'.
Proof. intros Hj H1 H2. apply (span_unique (4 * t) z z' (x - 2 * j * t)); nia. Qed.
(** a line at [2(tw+k)+j] lies in the span of [z'], [j'] exactly if the qubit covers the position [w] *)
Lemma zephyr_reach w k j j' z' : k < t -> j < 2 ->
  (4 * z' + 2 * j') * t <= 2 * (t * w + k) + j < (4 * z' + 2 * j') * t + 4 * t <-> zephyr_covers j' z' w.
Proof.
  intros Hk Hj. unfold zephyr_covers. split.
  - intros [H1 H2]. assert (2 * z' + j' <= w) by nia. assert (w < 2 * z' + j' + 2) by nia. lia.
  - intros [-> | ->]; nia.
Qed.
Lemma zephyr_cross q q' p : zephyr_in m t q -> zephyr_in m t q' -> p ∈ zephyr_at t q -> p ∈ zephyr_at t q' -> q <> q' ->
  zephyr_coupler m t (zephyr_id m t q) (zephyr_id m t q') \/ zephyr_coupler m t (zephyr_id m t q') (zephyr_id m t q).
Proof.
  destruct q as [[[[u w] k] j] z], q' as [[[[u' w'] k'] j'] z'], p as [x y]. intros (Hw & Hk & Hj & Hz) (Hw' & Hk' & Hj' & Hz') Hp%zephyr_at_spec Hp'%zephyr_at_spec Hne. cbn [zephyr_id]. cbn zeta in Hp, Hp'.
  destruct u, u'.
  - exfalso. destruct Hp as [H1 H2], Hp' as [H3 H4]. destruct (zephyr_line w k j w' k' j') as (<- & <- & <-); try done; [lia|]. apply Hne. repeat f_equal. by eapply zephyr_span.
  - right. destruct Hp as [-> H2], Hp' as [H3 ->]. apply zephyr_reach in H2, H3; try done. by apply (zc_internal m t w' k' j' z' w k j z).
  - left. destruct Hp as [H1 ->], Hp' as [-> H4]. apply zephyr_reach in H1, H4; try done. by apply (zc_internal m t w k j z w' k' j' z').
  - exfalso. destruct Hp as [H1 H2], Hp' as [H3 H4]. destruct (zephyr_line w k j w' k' j') as (<- & <- & <-); try done; [lia|]. apply Hne. repeat f_equal. by eapply zephyr_span.
Qed.
Lemma zephyr_meet w k j z w' k' j' z' : k < t -> j < 2 -> k' < t -> j' < 2 -> zephyr_covers j z w' -> zephyr_covers j' z' w ->
  exists p, p ∈ zephyr_at t (false, w, k, j, z) /\ p ∈ zephyr_at t (true, w', k', j', z').
Proof.
  intros Hk Hj Hk' Hj' H1 H2. exists (2 * (t * w' + k') + j', 2 * (t * w + k) + j). apply (zephyr_reach w' k' j') in H1; [|done|done]. apply (zephyr_reach w k j) in H2; [|done|done].
  split; apply zephyr_at_spec; cbn zeta; done.
Qed.
End zephyr.
Lemma chimera_meet t i j k k' : k < t -> k' < t -> exists p, p ∈ chimera_at t (i, j, false, k) /\ p ∈ chimera_at t (i, j, true, k').
Proof. intros Hk Hk'. exists (j * t + k, i * t + k'). split; apply chimera_at_spec; lia. Qed.
