(** Model of include/fastrng.hpp 20-88: the random number generator.  64-bit words are numbers
    below 2^64; addition, multiplication and left shifts are reduced. *)
From stdpp Require Import base numbers list.
From Verif Require Import Base.

Definition w64 (x : N) : N := (x mod 2 ^ 64)%N.
Definition w32 (x : N) : N := (x mod 2 ^ 32)%N.

(** fastrng.hpp 25-30 [splitmix64]: the new argument and the result *)
Definition splitmix64 (x : N) : N * N :=
  let x := w64 (x + 0x9E3779B97F4A7C15) in
  let z := w64 (N.lxor x (N.shiftr x 30) * 0xBF58476D1CE4E5B9) in
  let z := w64 (N.lxor z (N.shiftr z 27) * 0x94D049BB133111EB) in
  (x, N.lxor z (N.shiftr z 31)).

(** 32-37 [splitmix32]; the [UL] constants make the products 64 bits wide, they are cut to 32 bits
    when they are stored *)
Definition splitmix32 (x : N) : N * N :=
  let x := w32 (x + 0x6D2B79F5) in
  let z := w32 (N.lxor x (N.shiftr x 15) * N.lor x 1) in
  let z := w32 (N.lxor z (w64 (z + N.lxor z (N.shiftr z 7) * N.lor z 61))) in
  (x, N.lxor z (N.shiftr z 14)).

(** the two state words *)
Record rng := mkRng { S0 : N; S1 : N }.

(** 44-47 the constructor from a seed *)
Definition rng_of_seed (x : N) : rng :=
  let '(x, s0) := splitmix64 x in
  let '(_, s1) := splitmix64 x in
  mkRng s0 s1.

(** 49-54 [amplify_seed] *)
Definition amplify_seed (x : N) : N :=
  let '(x, a) := splitmix32 x in
  let '(_, b) := splitmix32 x in
  w64 (w64 (N.shiftl b 32) + a).

(** 66-73 [operator()]: the number drawn and the new state *)
Definition draw (g : rng) : N * rng :=
  let x := S0 g in
  let y := S1 g in
  let x := N.lxor x (w64 (N.shiftl x 23)) in
  let s1 := N.lxor (N.lxor (N.lxor x y) (N.shiftr x 17)) (N.shiftr y 26) in
  (w64 (s1 + y), mkRng y s1).

(** 75-83 [discard]: [n] rounds of its own loop, none when [n <= 0] *)
Fixpoint discard_loop (n : nat) (g : rng) : rng :=
  match n with
  | 0 => g
  | S n =>
    let x := S0 g in
    let y := S1 g in
    let x := N.lxor x (w64 (N.shiftl x 23)) in
    discard_loop n (mkRng y (N.lxor (N.lxor (N.lxor x y) (N.shiftr x 17)) (N.shiftr y 26)))
  end.
Definition discard (n : Z) (g : rng) : rng := discard_loop (Z.to_nat n) g.

(** 56-64 [seed(uint64_t)], [seed(uint32_t)] *)
Definition seed64 (g : rng) (x : N) : rng := discard 64 (rng_of_seed x).
Definition seed32 (g : rng) (x : N) : rng := seed64 g (amplify_seed x).

(** [n] calls of [operator()] in a row *)
Fixpoint draws (n : nat) (g : rng) : list N * rng :=
  match n with
  | 0 => ([], g)
  | S n => let '(x, g) := draw g in let '(l, g) := draws n g in (x :: l, g)
  end.
