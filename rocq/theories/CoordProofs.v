(** Proofs about the index arithmetic of busclique (C33): bijections, ranges, injectivity. *)
From stdpp Require Import base list numbers.
From Verif Require Import Base BusModel.

#[local] Opaque Nat.div Nat.modulo.

Lemma divmod a n b : a < n -> (a + n * b) mod n = a /\ (a + n * b) / n = b.
Proof.
  intros H. split.
  - symmetry. apply (Nat.mod_unique _ _ b); lia.
  - symmetry. apply (Nat.div_unique _ _ _ a); lia.
Qed.

Lemma b2n_lt u : b2n u < 2.
Proof. destruct u; simpl; lia. Qed.

Lemma b2n_test u : negb (b2n u =? 0) = u.
Proof. by destruct u. Qed.

Lemma linear_of_chimera t y x u k :
  x < dim_x t -> k < shore t -> linear_chimera t (chimera_linear t y x u k) = (y, x, u, k).
Proof.
  intros Hx Hk. unfold linear_chimera, chimera_linear.
  destruct (divmod k (shore t) (b2n u + 2 * (x + dim_x t * y)) Hk) as [-> ->].
  destruct (divmod (b2n u) 2 (x + dim_x t * y) (b2n_lt u)) as [-> ->].
  destruct (divmod x (dim_x t) y Hx) as [-> ->].
  by rewrite b2n_test.
Qed.

Lemma b2n_mod2 q : b2n (negb (q mod 2 =? 0)) = q mod 2.
Proof. pose proof (Nat.mod_upper_bound q 2 ltac:(lia)). destruct (q mod 2) as [|[|n]]; simpl; lia. Qed.

Lemma chimera_of_linear t q y x u k :
  q < dim_y t * (dim_x t * 2) * shore t -> linear_chimera t q = (y, x, u, k) ->
  chimera_linear t y x u k = q /\ y < dim_y t /\ x < dim_x t /\ k < shore t.
Proof.
  intros Hq. unfold linear_chimera. intros [= <- <- <- <-].
  assert (Hs : shore t <> 0) by (intros E; rewrite E in Hq; lia).
  assert (Hd : dim_x t <> 0) by (intros E; rewrite E in Hq; lia).
  unfold chimera_linear. rewrite b2n_mod2.
  pose proof (Nat.div_mod q (shore t) Hs). pose proof (Nat.div_mod (q / shore t) 2 ltac:(lia)).
  pose proof (Nat.div_mod (q / shore t / 2) (dim_x t) Hd).
  split_and!.
  - rewrite (Nat.add_comm ((q / shore t / 2) mod _)), <- H1.
    rewrite (Nat.add_comm ((q / shore t) mod _)), <- H0. lia.
  - apply Nat.div_lt_upper_bound; [done|]. apply Nat.div_lt_upper_bound; [lia|].
    apply Nat.div_lt_upper_bound; [done|]. nia.
  - by apply Nat.mod_upper_bound.
  - by apply Nat.mod_upper_bound.
Qed.

Lemma mul_lt_step a b n m : a < n -> b < m -> b + m * a < n * m.
Proof. intros. nia. Qed.

Lemma chimera_linear_lt t y x u k :
  y < dim_y t -> x < dim_x t -> k < shore t -> chimera_linear t y x u k < dim_y t * (dim_x t * 2) * shore t.
Proof.
  intros Hy Hx Hk. unfold chimera_linear. pose proof (b2n_lt u).
  pose proof (mul_lt_step y x (dim_y t) (dim_x t) Hy Hx).
  pose proof (mul_lt_step (x + dim_x t * y) (b2n u) _ 2 H0 H).
  pose proof (mul_lt_step _ k _ (shore t) H1 Hk). lia.
Qed.

Lemma linemajor_roundtrip u w k z dw sh dz :
  w < dw -> k < sh -> z < dz -> linear_linemajor (linemajor_linear u w k z dw sh dz) dw sh dz = (u, w, k, z).
Proof.
  intros Hw Hk Hz. unfold linear_linemajor, linemajor_linear.
  destruct (divmod z dz (k + sh * (w + dw * b2n u)) Hz) as [-> ->].
  destruct (divmod k sh (w + dw * b2n u) Hk) as [-> ->].
  destruct (divmod w dw (b2n u) Hw) as [-> ->].
  by rewrite b2n_test.
Qed.

Lemma linemajor_lt u w k z dw sh dz :
  w < dw -> k < sh -> z < dz -> linemajor_linear u w k z dw sh dz < 2 * dw * sh * dz.
Proof.
  intros Hw Hk Hz. unfold linemajor_linear.
  pose proof (mul_lt_step (b2n u) w 2 dw (b2n_lt u) Hw).
  pose proof (mul_lt_step _ k _ sh H Hk). pose proof (mul_lt_step _ z _ dz H0 Hz). lia.
Qed.

Lemma linemajor_of_linear q u w k z dw sh dz :
  q < 2 * dw * sh * dz -> linear_linemajor q dw sh dz = (u, w, k, z) ->
  linemajor_linear u w k z dw sh dz = q /\ w < dw /\ k < sh /\ z < dz.
Proof.
  intros Hq. unfold linear_linemajor. intros [= <- <- <- <-].
  assert (Hz : dz <> 0) by (intros ->; lia).
  assert (Hs : sh <> 0) by (intros ->; lia).
  assert (Hw : dw <> 0) by (intros ->; lia).
  assert (q / dz / sh / dw < 2).
  { apply Nat.div_lt_upper_bound; [done|]. apply Nat.div_lt_upper_bound; [lia|].
    apply Nat.div_lt_upper_bound; [done|]. nia. }
  assert (Eu : b2n (negb (q / dz / sh / dw =? 0)) = q / dz / sh / dw).
  { destruct (q / dz / sh / dw) as [|[|?]]; simpl; lia. }
  unfold linemajor_linear. rewrite Eu.
  pose proof (Nat.div_mod q dz Hz). pose proof (Nat.div_mod (q / dz) sh Hs).
  pose proof (Nat.div_mod (q / dz / sh) dw Hw).
  split_and!; [|by apply Nat.mod_upper_bound..].
  rewrite (Nat.add_comm ((q / dz / sh) mod _)), <- H2.
  rewrite (Nat.add_comm ((q / dz) mod _)), <- H1. lia.
Qed.

Lemma cell_index_lt t y x u : y < dim_y t -> x < dim_x t -> cell_index t y x u < num_cells t.
Proof.
  intros Hy Hx. unfold cell_index, num_cells.
  pose proof (mul_lt_step y x (dim_y t) (dim_x t) Hy Hx).
  pose proof (mul_lt_step _ _ _ 2 H (b2n_lt u)). lia.
Qed.

Lemma cell_index_inj t y x u y' x' u' : x < dim_x t -> x' < dim_x t ->
  cell_index t y x u = cell_index t y' x' u' -> y = y' /\ x = x' /\ u = u'.
Proof.
  unfold cell_index. intros Hx Hx' E.
  destruct (divmod (b2n u) 2 (x + dim_x t * y) (b2n_lt u)) as [M1 D1].
  destruct (divmod (b2n u') 2 (x' + dim_x t * y') (b2n_lt u')) as [M2 D2].
  rewrite E in M1, D1. rewrite M1 in M2. rewrite D1 in D2.
  destruct (divmod x (dim_x t) y Hx) as [M3 D3]. destruct (divmod x' (dim_x t) y' Hx') as [M4 D4].
  rewrite D2 in M3, D3. split_and!; [congruence..|]. by destruct u, u'.
Qed.

Lemma cell_wz_lt t (u : bool) w z :
  w < (if u then dim_y t else dim_x t) -> z < (if u then dim_x t else dim_y t) -> cell_index_wz t u w z < num_cells t.
Proof. destruct u; intros; by apply cell_index_lt. Qed.

Lemma grid_index_lt rows cols y x : y < rows -> x < cols -> grid_index cols y x < rows * cols.
Proof. intros. unfold grid_index. nia. Qed.

Lemma grid_index_inj cols y x y' x' : x < cols -> x' < cols ->
  grid_index cols y x = grid_index cols y' x' -> y = y' /\ x = x'.
Proof.
  unfold grid_index. intros Hx Hx' E.
  destruct (divmod x cols y Hx) as [M3 D3]. destruct (divmod x' cols y' Hx') as [M4 D4].
  rewrite E in M3, D3. split; congruence.
Qed.

Lemma binom_S n : binom (S n) = binom n + S n.
Proof.
  unfold binom. replace (S n * S n + S n) with (n * n + n + S n * 2) by lia.
  by rewrite Nat.div_add.
Qed.
Lemma binom_0 : binom 0 = 0.
Proof. done. Qed.
Lemma binom_mono a b : a <= b -> binom a <= binom b.
Proof. induction 1; [done|]. rewrite binom_S. lia. Qed.

(** the triangular numbering of segments [z0 <= z1] *)
Lemma tri_inj z0 z1 z0' z1' : z0 <= z1 -> z0' <= z1' ->
  binom z1 + z0 = binom z1' + z0' -> z0 = z0' /\ z1 = z1'.
Proof.
  intros H H' E.
  assert (G : forall a b x y, a < b -> x <= a -> binom a + x < binom b + y).
  { intros a b x y Hab Hx. pose proof (binom_mono (S a) b Hab). rewrite binom_S in H0. lia. }
  destruct (Nat.lt_trichotomy z1 z1') as [L|[->|L]].
  - specialize (G _ _ _ z0' L H). lia.
  - lia.
  - specialize (G _ _ _ z0 L H'). lia.
Qed.
Lemma tri_lt z0 z1 n : z0 <= z1 -> z1 < n -> binom z1 + z0 < binom n.
Proof. intros. pose proof (binom_mono (S z1) n H0). rewrite binom_S in H1. lia. Qed.

Definition dim_w (t : topo) (u : bool) : nat := if u then dim_y t else dim_x t.
Definition dim_z (t : topo) (u : bool) : nat := if u then dim_x t else dim_y t.

Lemma linestride_z t u : linestride t u = binom (dim_z t u).
Proof. by destruct u. Qed.

Lemma line_addr_lt t u w z0 z1 : w < dim_w t u -> z0 <= z1 -> z1 < dim_z t u ->
  line_addr t u w z0 z1 < line_mask_size t.
Proof.
  intros Hw Hz Hz1. unfold line_addr, bundle_cache_index, line_mask_size.
  pose proof (tri_lt _ _ _ Hz Hz1). rewrite <- linestride_z in H.
  pose proof (mul_lt_step w (binom z1 + z0) (dim_w t u) _ Hw H).
  unfold orthstride. destruct u; simpl in *; lia.
Qed.

Lemma line_addr_inj t u w z0 z1 u' w' z0' z1' :
  w < dim_w t u -> z0 <= z1 -> z1 < dim_z t u ->
  w' < dim_w t u' -> z0' <= z1' -> z1' < dim_z t u' ->
  line_addr t u w z0 z1 = line_addr t u' w' z0' z1' -> u = u' /\ w = w' /\ z0 = z0' /\ z1 = z1'.
Proof.
  intros Hw Hz Hz1 Hw' Hz' Hz1' E.
  pose proof (tri_lt _ _ _ Hz Hz1) as L. rewrite <- linestride_z in L.
  pose proof (tri_lt _ _ _ Hz' Hz1') as L'. rewrite <- linestride_z in L'.
  assert (Eu : u = u').
  { unfold line_addr, bundle_cache_index, orthstride in E.
    pose proof (mul_lt_step w (binom z1 + z0) (dim_w t u) _ Hw L).
    pose proof (mul_lt_step w' (binom z1' + z0') (dim_w t u') _ Hw' L').
    destruct u, u'; simpl in *; lia. }
  subst u'. split; [done|].
  unfold line_addr, bundle_cache_index in E.
  destruct (divmod (binom z1 + z0) (linestride t u) w L) as [M D].
  destruct (divmod (binom z1' + z0') (linestride t u) w' L') as [M' D'].
  assert (E2 : binom z1 + z0 + linestride t u * w = binom z1' + z0' + linestride t u * w') by lia.
  rewrite E2 in M, D. split; [congruence|]. apply tri_inj; [done..|]. congruence.
Qed.
