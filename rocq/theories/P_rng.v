(** Property theorems about the random number generator: C30. *)
From stdpp Require Import base numbers list.
From Verif Require Import Base RngModel RngProofs.

(** a state of two 64-bit words, and the numbers drawn from it *)
Definition is_state (g : rng) : Prop := (S0 g < 2 ^ 64)%N /\ (S1 g < 2 ^ 64)%N.

(** C30: drawing is a bijection of the states: every state has exactly one predecessor *)
Theorem C30_draw_bijective : forall g, is_state g ->
  is_state (draw g).2 /\ exists g', is_state g' /\ (draw g').2 = g /\ forall g2, is_state g2 -> (draw g2).2 = g -> g2 = g'.
Proof.
  exact (fun g H => conj (step_wf g H) (ex_intro _ (unstep g) (conj (unstep_wf g H) (conj (step_unstep g H)
    (fun g2 H2 E => eq_trans (eq_sym (unstep_step g2 H2)) (f_equal unstep E)))))).
Qed.
Print Assumptions C30_draw_bijective.

(** C30: a seeded generator never is in the state of two zero words, where it would be stuck: not
    after the constructor, nor after [seed], nor after any number of draws *)
Theorem C30_never_zero : forall x g n,
  is_state (draws n (rng_of_seed x)).2 /\ (draws n (rng_of_seed x)).2 <> mkRng 0 0 /\
  is_state (draws n (seed64 g x)).2 /\ (draws n (seed64 g x)).2 <> mkRng 0 0 /\
  is_state (draws n (seed32 g x)).2 /\ (draws n (seed32 g x)).2 <> mkRng 0 0.
Proof. exact never_zero. Qed.
Print Assumptions C30_never_zero.
Example C30_stuck : draw (mkRng 0 0) = (0%N, mkRng 0 0).
Proof. by vm_compute. Qed.

(** C30: [discard(n)] is [n] draws with the results dropped, for negative [n] none *)
Theorem C30_discard : forall n g, discard n g = (draws (Z.to_nat n) g).2.
Proof. exact (fun n g => eq_trans (discard_loop_step _ g) (eq_sym (draws_state _ g))). Qed.
Print Assumptions C30_discard.

(** C30: what follows a call of [seed] depends only on the seed, not on what was drawn before;
    different 64-bit seeds give different states *)
Theorem C30_seed_determines : forall g g' x n, draws n (seed64 g x) = draws n (seed64 g' x) /\ draws n (seed32 g x) = draws n (seed32 g' x).
Proof. exact seed_determines. Qed.
Print Assumptions C30_seed_determines.
Theorem C30_seed_injective : forall g x y, (x < 2 ^ 64)%N -> (y < 2 ^ 64)%N ->
  (rng_of_seed x = rng_of_seed y -> x = y) /\ (seed64 g x = seed64 g y -> x = y).
Proof. exact seeds_differ. Qed.
Print Assumptions C30_seed_injective.

(** C30: every number drawn is a 64-bit word *)
Theorem C30_range : forall n g x, x ∈ (draws n g).1 -> (x < 2 ^ 64)%N.
Proof. exact draws_range. Qed.
Print Assumptions C30_range.
Example C30_case : (draws 3 (seed32 (mkRng 0 0) 5)).1 = (draws 3 (discard 64 (rng_of_seed (amplify_seed 5)))).1 /\
  length (draws 3 (seed32 (mkRng 0 0) 5)).1 = 3 /\ NoDup (draws 3 (seed32 (mkRng 0 0) 5)).1.
Proof. split_and!; [by vm_compute..|]. apply (bool_decide_unpack _). by vm_compute. Qed.
