(** The generator's step is a bijection of its states, the seeded states are not zero. *)
From stdpp Require Import base numbers list.
From Verif Require Import Base RngModel.

Definition word (x : N) : Prop := (x < 2 ^ 64)%N.

Lemma word_bits x : word x <-> forall i, (64 <= i)%N -> N.testbit x i = false.
Proof.
  unfold word. split.
  - intros H i Hi. destruct (N.eq_dec x 0) as [->|Hx]; [by rewrite N.bits_0|]. apply N.bits_above_log2.
    apply N.log2_lt_pow2; [lia|]. eapply N.lt_le_trans; [exact H|]. by apply N.pow_le_mono_r.
  - intros H. destruct (N.eq_dec x 0) as [->|Hx]; [by vm_compute|].
    apply N.log2_lt_pow2; [lia|]. destruct (N.lt_ge_cases (N.log2 x) 64) as [?|Hge]; [done|].
    specialize (H _ Hge). rewrite N.bit_log2 in H by done. done.
Qed.
Lemma w64_word x : word (w64 x).
Proof. unfold word, w64. by apply N.mod_lt. Qed.
Lemma w64_id x : word x -> w64 x = x.
Proof. intros. unfold w64. by apply N.mod_small. Qed.
Lemma w64_bits x i : N.testbit (w64 x) i = (i <? 64)%N && N.testbit x i.
Proof.
  unfold w64. destruct (N.ltb_spec i 64); [by rewrite N.mod_pow2_bits_low|by rewrite N.mod_pow2_bits_high].
Qed.
Lemma lxor_word a b : word a -> word b -> word (N.lxor a b).
Proof. rewrite !word_bits. intros Ha Hb i Hi. by rewrite N.lxor_spec, Ha, Hb. Qed.
Lemma shiftr_word a n : word a -> word (N.shiftr a n).
Proof. rewrite !word_bits. intros Ha i Hi. rewrite N.shiftr_spec'. apply Ha. lia. Qed.

(** xor with a right shift *)
Definition xsr (k x : N) : N := N.lxor x (N.shiftr x k).
Definition unxsr (k x : N) : N := N.lxor (N.lxor x (N.shiftr x k)) (N.lxor (N.shiftr x (k + k)) (N.shiftr x (k + k + k))).
Lemma high x i : word x -> (64 <= i)%N -> N.testbit x i = false.
Proof. rewrite word_bits. auto. Qed.
Lemma unxsr_xsr k x : word x -> (16 <= k)%N -> unxsr k (xsr k x) = x.
Proof.
  intros Hx Hk. apply N.bits_inj. intros i. unfold unxsr, xsr. rewrite !N.lxor_spec, !N.shiftr_spec', !N.lxor_spec, !N.shiftr_spec'.
  replace (i + k + k)%N with (i + (k + k))%N by lia. replace (i + (k + k) + k)%N with (i + (k + k + k))%N by lia.
  rewrite (high x (i + (k + k + k) + k)) by (done || lia).
  by destruct (N.testbit x i), (N.testbit x (i + k)), (N.testbit x (i + (k + k))), (N.testbit x (i + (k + k + k))).
Qed.
Lemma xsr_unxsr k x : word x -> (16 <= k)%N -> xsr k (unxsr k x) = x.
Proof.
  intros Hx Hk. apply N.bits_inj. intros i. unfold unxsr, xsr. rewrite !N.lxor_spec, !N.shiftr_spec', !N.lxor_spec, !N.shiftr_spec'.
  replace (i + k + k)%N with (i + (k + k))%N by lia. replace (i + k + (k + k))%N with (i + (k + k + k))%N by lia.
  rewrite (high x (i + k + (k + k + k))) by (done || lia).
  by destruct (N.testbit x i), (N.testbit x (i + k)), (N.testbit x (i + (k + k))), (N.testbit x (i + (k + k + k))).
Qed.
Lemma xsr_word k x : word x -> word (xsr k x).
Proof. intros. apply lxor_word; [done|by apply shiftr_word]. Qed.
Lemma unxsr_word k x : word x -> word (unxsr k x).
Proof. intros. unfold unxsr. repeat apply lxor_word; try apply shiftr_word; done. Qed.

(** xor with a left shift *)
Definition xsl (k x : N) : N := N.lxor x (w64 (N.shiftl x k)).
Definition unxsl (k x : N) : N := N.lxor (N.lxor x (w64 (N.shiftl x k))) (w64 (N.shiftl x (k + k))).
Lemma shl_bit x k i : N.testbit (w64 (N.shiftl x k)) i = (i <? 64)%N && (k <=? i)%N && N.testbit x (i - k).
Proof.
  rewrite w64_bits. destruct (N.leb_spec k i) as [H|H].
  - rewrite N.shiftl_spec_high' by done. by destruct (i <? 64)%N.
  - rewrite N.shiftl_spec_low by done. by rewrite !andb_false_r.
Qed.
Lemma unxsl_xsl k x : word x -> (22 <= k)%N -> unxsl k (xsl k x) = x /\ xsl k (unxsl k x) = x.
Proof.
  intros Hx Hk. split; apply N.bits_inj; intros i; unfold unxsl, xsl; rewrite !N.lxor_spec, !shl_bit, !N.lxor_spec, !shl_bit.
  all: destruct (N.ltb_spec i 64) as [Hi|Hi]; cbn [andb]; [|rewrite (high x i) by done; done].
  all: replace (i - k <? 64)%N with true by (symmetry; apply N.ltb_lt; lia).
  all: try replace (i - (k + k) <? 64)%N with true by (symmetry; apply N.ltb_lt; lia).
  all: cbn [andb]; replace (i - k - k)%N with (i - (k + k))%N by lia.
  all: destruct (N.leb_spec k i), (N.leb_spec (k + k) i), (N.leb_spec k (i - k)); try lia; cbn [andb].
  all: try replace (k <=? i - (k + k))%N with false by (symmetry; apply N.leb_gt; lia).
  all: try replace (k + k <=? i - k)%N with false by (symmetry; apply N.leb_gt; lia).
  all: cbn [andb]; destruct (N.testbit x i), (N.testbit x (i - k)), (N.testbit x (i - (k + k))); done.
Qed.
Lemma xsl_word k x : word x -> word (xsl k x).
Proof. intros. apply lxor_word; [done|apply w64_word]. Qed.
Lemma unxsl_word k x : word x -> word (unxsl k x).
Proof. intros. repeat apply lxor_word; try apply w64_word; done. Qed.

(** ** the step *)
Definition wf (g : rng) : Prop := word (S0 g) /\ word (S1 g).
Definition step (g : rng) : rng := (draw g).2.
Lemma step_eq g : step g = mkRng (S1 g) (N.lxor (xsr 17 (xsl 23 (S0 g))) (xsr 26 (S1 g))).
Proof.
  unfold step, draw, xsr, xsl. cbn [snd]. f_equal. apply N.bits_inj. intros i. rewrite !N.lxor_spec.
  set (a := N.testbit (S0 g) i). set (b := N.testbit (w64 (N.shiftl (S0 g) 23)) i). set (c := N.testbit (S1 g) i).
  set (d := N.testbit (N.shiftr (N.lxor _ _) 17) i). set (e := N.testbit (N.shiftr (S1 g) 26) i). by destruct a, b, c, d, e.
Qed.
Definition unstep (g : rng) : rng := mkRng (unxsl 23 (unxsr 17 (N.lxor (S1 g) (xsr 26 (S0 g))))) (S0 g).
Lemma lxor_cancel a b : N.lxor (N.lxor a b) b = a.
Proof. by rewrite N.lxor_assoc, N.lxor_nilpotent, N.lxor_0_r. Qed.
Lemma step_wf g : wf g -> wf (step g).
Proof.
  intros [H0 H1]. rewrite step_eq. split; [done|]. apply lxor_word; [by apply xsr_word, xsl_word|by apply xsr_word].
Qed.
Lemma unstep_wf g : wf g -> wf (unstep g).
Proof.
  intros [H0 H1]. split; [|done]. apply unxsl_word, unxsr_word, lxor_word; [done|by apply xsr_word].
Qed.
Lemma unstep_step g : wf g -> unstep (step g) = g.
Proof.
  intros [H0 H1]. rewrite step_eq. unfold unstep. cbn [S0 S1]. rewrite lxor_cancel.
  rewrite unxsr_xsr by (done || by apply xsl_word). destruct (unxsl_xsl 23 (S0 g) H0 ltac:(done)) as [-> _]. by destruct g.
Qed.
Lemma step_unstep g : wf g -> step (unstep g) = g.
Proof.
  intros [H0 H1]. rewrite step_eq. unfold unstep. cbn [S0 S1].
  destruct (unxsl_xsl 23 (unxsr 17 (N.lxor (S1 g) (xsr 26 (S0 g))))) as [_ ->]; [|done|].
  - apply unxsr_word, lxor_word; [done|by apply xsr_word].
  - rewrite xsr_unxsr by (done || (apply lxor_word; [done|by apply xsr_word])). rewrite lxor_cancel. by destruct g.
Qed.
Lemma step_zero : step (mkRng 0 0) = mkRng 0 0.
Proof. by vm_compute. Qed.
Lemma step_nonzero g : wf g -> g <> mkRng 0 0 -> step g <> mkRng 0 0.
Proof. intros Hg Hn E. apply Hn. rewrite <- (unstep_step g Hg), E. by vm_compute. Qed.

Lemma discard_loop_step n g : discard_loop n g = Nat.iter n step g.
Proof.
  revert g. induction n as [|n IH]; intros g; [done|]. cbn [discard_loop]. rewrite IH, Nat.iter_succ_r. done.
Qed.
Lemma iter_wf n g : wf g -> wf (Nat.iter n step g).
Proof. intros H. induction n as [|n IH]; [done|]. simpl. by apply step_wf. Qed.
Lemma iter_nonzero n g : wf g -> g <> mkRng 0 0 -> Nat.iter n step g <> mkRng 0 0.
Proof. intros H Hn. induction n as [|n IH]; [done|]. simpl. apply step_nonzero; [by apply iter_wf|done]. Qed.

(** ** seeding *)
Lemma mul_cancel c d a b : (w64 (c * d) = 1)%N -> w64 (a * c) = w64 (b * c) -> w64 a = w64 b.
Proof.
  unfold w64. intros Hc H.
  assert (G : forall a, (a mod 2 ^ 64 = (((a * c) mod 2 ^ 64) * d) mod 2 ^ 64)%N).
  { intros x. rewrite N.mul_mod_idemp_l by done. rewrite <- N.mul_assoc. rewrite <- N.mul_mod_idemp_r by done. rewrite Hc. by rewrite N.mul_1_r. }
  by rewrite (G a), (G b), H.
Qed.
Definition mix (x : N) : N := xsr 31 (w64 (xsr 27 (w64 (xsr 30 x * 0xBF58476D1CE4E5B9)) * 0x94D049BB133111EB)).
Lemma splitmix64_eq x : splitmix64 x = (w64 (x + 0x9E3779B97F4A7C15), mix (w64 (x + 0x9E3779B97F4A7C15))).
Proof. done. Qed.
Lemma mix_word x : word (mix x).
Proof. apply xsr_word, w64_word. Qed.
Lemma xsr_inj k a b : word a -> word b -> (16 <= k)%N -> xsr k a = xsr k b -> a = b.
Proof. intros Ha Hb Hk E. rewrite <- (unxsr_xsr k a Ha Hk), <- (unxsr_xsr k b Hb Hk). by rewrite E. Qed.
Lemma mix_inj a b : word a -> word b -> mix a = mix b -> a = b.
Proof.
  intros Ha Hb E. unfold mix in E. apply xsr_inj in E; [|apply w64_word..|done].
  apply (mul_cancel _ 0x319642B2D24D8EC3) in E; [|by vm_compute].
  rewrite (w64_id (xsr 27 _)) in E by (apply xsr_word, w64_word). rewrite (w64_id (xsr 27 _)) in E by (apply xsr_word, w64_word). apply xsr_inj in E; [|apply w64_word..|done].
  apply (mul_cancel _ 0x96DE1B173F119089) in E; [|by vm_compute].
  rewrite (w64_id (xsr 30 a)), (w64_id (xsr 30 b)) in E by (by apply xsr_word). by apply xsr_inj in E.
Qed.
Lemma seed_wf x : wf (rng_of_seed x).
Proof. split; apply mix_word. Qed.
Lemma seed_nonzero x : rng_of_seed x <> mkRng 0 0.
Proof.
  intros E. assert (E0 : S0 (rng_of_seed x) = mix 0) by (by rewrite E).
  assert (E1 : S1 (rng_of_seed x) = mix 0) by (by rewrite E). unfold rng_of_seed in E0, E1. rewrite splitmix64_eq in E0, E1. cbn [S0 S1] in E0, E1.
  rewrite splitmix64_eq in E1. cbn [S1] in E1.
  apply mix_inj in E0; [|apply w64_word|by vm_compute]. rewrite E0 in E1. apply mix_inj in E1; [|apply w64_word|by vm_compute]. by vm_compute in E1.
Qed.
Lemma add_inj a b c : word a -> word b -> w64 (a + c) = w64 (b + c) -> a = b.
Proof.
  unfold word, w64. intros Ha Hb E.
  assert (G : forall a, (a < 2 ^ 64)%N -> a = ((((a + c) mod 2 ^ 64) + (2 ^ 64 - c mod 2 ^ 64)) mod 2 ^ 64)%N).
  { intros x Hx. pose proof (N.mod_lt c (2 ^ 64) ltac:(done)) as Hc. rewrite N.add_mod_idemp_l by done.
    replace (x + c + (2 ^ 64 - c mod 2 ^ 64))%N with (x + (c - c mod 2 ^ 64) + 2 ^ 64)%N by (pose proof (N.mod_le c (2 ^ 64) ltac:(done)); lia).
    replace (c - c mod 2 ^ 64)%N with (c / 2 ^ 64 * 2 ^ 64)%N by (pose proof (N.div_mod c (2 ^ 64) ltac:(done)); lia).
    replace (x + c / 2 ^ 64 * 2 ^ 64 + 2 ^ 64)%N with (x + (c / 2 ^ 64 + 1) * 2 ^ 64)%N by lia.
    rewrite N.mod_add by done. symmetry. by apply N.mod_small. }
  rewrite (G a Ha), (G b Hb). by rewrite E.
Qed.
Lemma seed_inj x y : word x -> word y -> rng_of_seed x = rng_of_seed y -> x = y.
Proof.
  intros Hx Hy E. apply (f_equal S0) in E. unfold rng_of_seed in E. rewrite !splitmix64_eq in E. cbn [S0] in E.
  apply mix_inj in E; [|apply w64_word..]. by apply add_inj in E.
Qed.
Lemma iter_inj n a b : wf a -> wf b -> Nat.iter n step a = Nat.iter n step b -> a = b.
Proof.
  intros Ha Hb. induction n as [|n IH]; [done|]. simpl. intros E. apply IH.
  rewrite <- (unstep_step (Nat.iter n step a)), <- (unstep_step (Nat.iter n step b)) by (by apply iter_wf). by rewrite E.
Qed.

Lemma draws_state n g : (draws n g).2 = Nat.iter n step g.
Proof.
  revert g. induction n as [|n IH]; intros g; [done|]. cbn [draws]. rewrite Nat.iter_succ_r. change (step g) with (draw g).2.
  destruct (draw g) as [x g']. cbn [snd]. rewrite <- IH. by destruct (draws n g').
Qed.
Lemma draws_length n g : length (draws n g).1 = n.
Proof.
  revert g. induction n as [|n IH]; intros g; [done|]. cbn [draws]. destruct (draw g) as [x g']. specialize (IH g').
  destruct (draws n g'). cbn [fst length] in *. by rewrite IH.
Qed.

Lemma discard_state n g : discard n g = Nat.iter (Z.to_nat n) step g.
Proof. apply discard_loop_step. Qed.
Lemma never_zero x g n :
  wf (draws n (rng_of_seed x)).2 /\ (draws n (rng_of_seed x)).2 <> mkRng 0 0 /\
  wf (draws n (seed64 g x)).2 /\ (draws n (seed64 g x)).2 <> mkRng 0 0 /\
  wf (draws n (seed32 g x)).2 /\ (draws n (seed32 g x)).2 <> mkRng 0 0.
Proof.
  rewrite !draws_state. unfold seed32, seed64. rewrite !discard_state.
  assert (G : forall y k, wf (Nat.iter k step (rng_of_seed y)) /\ Nat.iter k step (rng_of_seed y) <> mkRng 0 0).
  { intros y k. split; [apply iter_wf, seed_wf|apply iter_nonzero; [apply seed_wf|apply seed_nonzero]]. }
  generalize (Z.to_nat 64) as k. intros k.
  destruct (G x n). destruct (G x k). generalize dependent (amplify_seed x). intros y. destruct (G y k).
  split_and!; try done; try (by apply iter_wf); by apply iter_nonzero.
Qed.
Lemma seeds_differ g x y : word x -> word y -> (rng_of_seed x = rng_of_seed y -> x = y) /\ (seed64 g x = seed64 g y -> x = y).
Proof.
  intros Hx Hy. split; [by apply seed_inj|]. unfold seed64. rewrite !discard_state. generalize (Z.to_nat 64). intros k E. apply iter_inj in E; [|apply seed_wf..]. by apply seed_inj.
Qed.
Lemma draws_range n g x : x ∈ (draws n g).1 -> word x.
Proof.
  revert g. induction n as [|n IH]; intros g; [by intros ?%elem_of_nil|]. cbn [draws].
  destruct (draw g) as [a g'] eqn:E. specialize (IH g'). destruct (draws n g'). cbn [fst] in *.
  intros [->|H]%elem_of_cons; [|by apply IH]. apply (f_equal fst) in E. cbn [fst] in E. rewrite <- E. apply w64_word.
Qed.
Lemma seed_determines g g' x n : draws n (seed64 g x) = draws n (seed64 g' x) /\ draws n (seed32 g x) = draws n (seed32 g' x).
Proof.
  assert (E : forall y, seed64 g y = seed64 g' y) by (intros y; unfold seed64; reflexivity).
  unfold seed32. by rewrite !E.
Qed.
