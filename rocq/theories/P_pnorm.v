(** The objective of p_norm: C81, C82. *)
From Coq Require Import QArith Qabs Lqa Lia.
From stdpp Require Import base list numbers relations.
From Verif Require Import Base PnormModel SpecPnorm PnormProofs PnormProofs2.

(** C81, p = 1.  For every number of nodes and of dimensions, every vector of coordinates and every matrix of distances: the
    objective is the sum of the squared differences between the 1-distance and the distance in the graph of all
    pairs; it is not negative, it is 0 exactly for a layout without distortion, and it does not change when the whole
    layout is moved. *)
Theorem C81_objective_partial : forall n dim v G,
  let x := fun i k => v (i * dim + k) in
  (objective1 n dim v G == total n (fun i => total n (fun j => (G i j - one_distance dim x i j) * (G i j - one_distance dim x i j))))%Q /\
  (0 <= objective1 n dim v G)%Q /\
  ((objective1 n dim v G == 0)%Q <-> forall i j, i < n -> j < n -> (one_distance dim x i j == G i j)%Q) /\
  forall t, (objective1 n dim (fun z => v z + t (z mod dim)%nat) G == objective1 n dim v G)%Q.
Proof.
  intros n dim v G x. split; [apply objective_total|]. split; [apply objective_nonneg|]. split; [apply objective_zero|]. intros t. apply objective_translated.
Qed.
Print Assumptions C81_objective_partial.

(** The gradient: when a coordinate of a node is moved by less than its difference to the coordinates of all other
    nodes, the objective changes by twice the component of the gradient times the move, and a square: the
    gradient returned is half of the derivative. *)
Theorem C81_gradient_is_half_the_derivative_partial : forall n dim v G i k h, i < n -> k < dim ->
  (forall a b, a < n -> b < n -> (G a b == G b a)%Q) ->
  (forall j, j < n -> j <> i -> (Qabs h < Qabs (v (i * dim + k)%nat - v (j * dim + k)%nat))%Q) ->
  (objective1 n dim (nudge dim v i k h) G == objective1 n dim v G + 2 * gradient1 n dim v G i k * h + 2 * (inject_Z (Z.of_nat n) - 1) * (h * h))%Q.
Proof. intros n dim v G i k h Hi Hk Hs Hh. exact (objective_nudge n dim v G i k h Hi Hk Hs Hh). Qed.
Print Assumptions C81_gradient_is_half_the_derivative_partial.

(** two nodes at 3 and 0 on a line, at distance 1 in the graph *)
Definition C81_v (z : nat) : Q := match z with 0 => 3%Q | _ => 0%Q end.
Definition C81_G (i j : nat) : Q := if i =? j then 0%Q else 1%Q.
Example C81_hypotheses : (forall a b, a < 2 -> b < 2 -> (C81_G a b == C81_G b a)%Q) /\
  forall h, (Qabs h < 3)%Q -> forall j, j < 2 -> j <> 0 -> (Qabs h < Qabs (C81_v (0 * 1 + 0)%nat - C81_v (j * 1 + 0)%nat))%Q.
Proof.
  split; [intros a b _ _; unfold C81_G; rewrite Nat.eqb_sym; reflexivity|]. intros h Hh j Hj Hne. assert (j = 1) as -> by lia. exact Hh.
Qed.
Example C81_values : (objective1 2 1 C81_v C81_G == 8)%Q /\ (gradient1 2 1 C81_v C81_G 0 0 == 4)%Q /\ (objective1 2 1 (nudge 1 C81_v 0 0 (1 # 2)) C81_G == 25 # 2)%Q.
Proof. split; [|split]; vm_compute; reflexivity. Qed.
(** So the gradient is not the derivative: the error of the first-order approximation is not of second order. *)
Theorem C81_gradient_refuted : exists n dim v G i k, i < n /\ k < dim /\ (forall a b, a < n -> b < n -> (G a b == G b a)%Q) /\
  forall c, exists h, (0 < h < 1)%Q /\
    (objective1 n dim v G + gradient1 n dim v G i k * h + c * (h * h) < objective1 n dim (nudge dim v i k h) G)%Q.
Proof.
  exists 2, 1, C81_v, C81_G, 0, 0. split; [lia|]. split; [lia|]. split; [apply C81_hypotheses|]. intros c.
  assert (Hc : (0 <= Qabs c)%Q) by apply Qabs_nonneg. pose proof (Qle_Qabs c) as Hc'. set (b := Qabs c) in *. clearbody b.
  exists (/ (2 + b))%Q. set (h := (/ (2 + b))%Q). assert (Hh : (0 < h)%Q) by (apply Qinv_lt_0_compat; lra).
  assert (E : (h * (2 + b) == 1)%Q) by (unfold h; field; lra). clearbody h.
  assert (H1 : (h < 1)%Q). { destruct (Qlt_le_dec h 1) as [|H]; [done|]. pose proof (Qmult_le_compat_r 1 h (2 + b) H ltac:(lra)). lra. }
  split; [lra|].
  rewrite (objective_nudge 2 1 C81_v C81_G 0 0 h ltac:(lia) ltac:(lia) (proj1 C81_hypotheses)).
  2:{ intros j Hj Hne. apply C81_hypotheses; [|done|done]. rewrite Qabs_pos; lra. }
  setoid_replace (gradient1 2 1 C81_v C81_G 0 0) with 4%Q by (vm_compute; reflexivity). change (inject_Z (Z.of_nat 2)) with 2%Q.
  assert (Hm : (c * (h * h) <= h)%Q).
  { assert (H2 : (c * h <= 1)%Q). { pose proof (Qmult_le_compat_r c (2 + b) h ltac:(lra) ltac:(lra)). lra. }
    pose proof (Qmult_le_compat_r (c * h) 1 h H2 ltac:(lra)) as H3. lra. }
  assert (Hp : (0 <= h * h)%Q) by (apply Qmult_le_0_compat; lra). lra.
Qed.
Print Assumptions C81_gradient_refuted.

(** C81, p = infinity: the same with the greatest difference of a coordinate as the distance. *)
Theorem C81_inf_objective_partial : forall n dim v G, 0 < dim ->
  let x := fun i k => v (i * dim + k) in
  (0 <= objectiveinf n dim v G)%Q /\
  ((objectiveinf n dim v G == 0)%Q <-> forall i j, i < n -> j < n -> is_inf_distance dim x i j (G i j)).
Proof. intros n dim v G Hd x. split; [apply objectiveinf_nonneg|by apply objectiveinf_zero]. Qed.
Print Assumptions C81_inf_objective_partial.
(** In the plane the gradient is half of the derivative again, for moves that do not change which of the two coordinates decides the
    distance to another node. *)
Theorem C81_inf_gradient_is_half_the_derivative_partial : forall n v G i k, i < n -> k < 2 ->
  (forall a b, a < n -> b < n -> (G a b == G b a)%Q) ->
  exists g c, gradientinf n 2 v G i k = Ok g /\ (0 <= c)%Q /\ forall h,
  (forall j, j < n -> j <> i -> let dk := Qabs (v (i * 2 + k)%nat - v (j * 2 + k)%nat) in let other := Qabs (v (i * 2 + (1 - k))%nat - v (j * 2 + (1 - k))%nat) in
    (Qabs h < Qabs (dk - other) /\ Qabs h < dk)%Q) ->
  (objectiveinf n 2 (nudge 2 v i k h) G == objectiveinf n 2 v G + 2 * g * h + 2 * c * (h * h))%Q.
Proof.
  intros n v G i k Hi Hk HG. eexists _, (deciding n v i k). split; [reflexivity|]. split; [apply deciding_bounds|]. intros h Hh.
  destruct (inf_nudge n v G i k h Hi Hk HG Hh) as (g & Eg & E). injection Eg as <-. exact E.
Qed.
Print Assumptions C81_inf_gradient_is_half_the_derivative_partial.
(** With another number of dimensions than two, p = infinity is an error. *)
Theorem C81_inf_dimension_refuted : forall n dim v G i k, dim <> 2 -> gradientinf n dim v G i k = Err BadInit.
Proof. exact gradientinf_bad. Qed.
Print Assumptions C81_inf_dimension_refuted.
(** nodes at (5, 1) and (0, 0), at distance 2: the first coordinate decides *)
Definition C81_w (z : nat) : Q := match z with 0 => 5%Q | 1 => 1%Q | _ => 0%Q end.
Example C81_inf_hypotheses : forall j, j < 2 -> j <> 0 -> let dk := Qabs (C81_w (0 * 2 + 0)%nat - C81_w (j * 2 + 0)%nat) in let other := Qabs (C81_w (0 * 2 + (1 - 0))%nat - C81_w (j * 2 + (1 - 0))%nat) in
    (Qabs 3 < Qabs (dk - other) /\ Qabs 3 < dk)%Q.
Proof. intros j Hj Hne. assert (j = 1) as -> by lia. split; reflexivity. Qed.
Example C81_inf_values : (objectiveinf 2 2 C81_w (fun i j => if i =? j then 0 else 2) == 18)%Q /\
  match gradientinf 2 2 C81_w (fun i j => if i =? j then 0 else 2)%Q 0 0 with Ok g => (g == 6)%Q | Err _ => False end /\
  match gradientinf 2 2 C81_w (fun i j => if i =? j then 0 else 2)%Q 0 1 with Ok g => (g == 0)%Q | Err _ => False end /\
  (objectiveinf 2 2 (nudge 2 C81_w 0 0 3) (fun i j => if i =? j then 0 else 2) == 72)%Q.
Proof. repeat split; vm_compute; reflexivity. Qed.

(** C82.  For every graph: the matrix of distances has one row and one column for each node, in the order of the graph; the entry for
    two nodes is the least number of steps between them, and, if there is no path, the number of nodes, which is
    more than any distance. *)
Theorem C82_distances_partial : forall nodes adj lengths given, path_lengths nodes adj lengths ->
  length (distance_matrix lengths given None) = length nodes /\
  forall i j v w, nodes !! i = Some v -> nodes !! j = Some w -> exists row x, distance_matrix lengths given None !! i = Some row /\ length row = length nodes /\ row !! j = Some x /\
    ((exists d, hop_distance adj v w d /\ d < length nodes /\ x = inject_Z (Z.of_nat d)) \/ (~ rtc adj v w /\ x = inject_Z (Z.of_nat (length nodes)))).
Proof. exact matrix_distances. Qed.
Print Assumptions C82_distances_partial.
(** The distances that the caller passes are not used at all. *)
Theorem C82_given_refuted : forall lengths given disc, distance_matrix lengths given disc = distance_matrix lengths None disc.
Proof. reflexivity. Qed.
Print Assumptions C82_given_refuted.
(** an edge between 7 and 8, and a node 9 *)
Definition C82_adj (v w : nat) : Prop := (v = 7 /\ w = 8) \/ (v = 8 /\ w = 7).
Definition C82_lengths := [(7, [(7, 0%Q); (8, 1%Q)]); (8, [(8, 0%Q); (7, 1%Q)]); (9, [(9, 0%Q)])].
Lemma C82_reach v w : rtc C82_adj v w -> w = v \/ (v = 7 /\ w = 8) \/ (v = 8 /\ w = 7).
Proof. induction 1 as [v|v y w [[-> ->]|[-> ->]] _ IH]; [by left| |]; destruct IH as [->|[[? ->]|[? ->]]]; try lia; auto. Qed.
Example C82_hypotheses : path_lengths [7; 8; 9] C82_adj C82_lengths.
Proof.
  split; [done|]. split; [apply (bool_decide_unpack _); vm_compute; exact I|]. split.
  { intros v w [[-> ->]|[-> ->]]; split; apply (bool_decide_unpack _); vm_compute; exact I. }
  assert (D0 : forall v, hop_distance C82_adj v v 0) by (intros v; split; [constructor|intros; lia]).
  assert (D1 : forall v w, C82_adj v w -> hop_distance C82_adj v w 1).
  { intros v w H. split; [by apply nsteps_once|]. intros [|d'] H'; [|lia]. inversion H'; subst. destruct H; lia. }
  intros v V HV. unfold C82_lengths in HV. rewrite !elem_of_cons, elem_of_nil in HV. destruct HV as [[= -> ->]|[[= -> ->]|[[= -> ->]|[]]]].
  - split; [apply (bool_decide_unpack _); vm_compute; exact I|]. split.
    + intros w Hr. destruct (C82_reach _ _ Hr) as [->|[[_ ->]|[? _]]]; [left|right; left|lia].
    + intros w x Hx. rewrite !elem_of_cons, elem_of_nil in Hx. destruct Hx as [[= -> ->]|[[= -> ->]|[]]]; [exists 0; split; [apply D0|done]|exists 1; split; [apply D1; by left|done]].
  - split; [apply (bool_decide_unpack _); vm_compute; exact I|]. split.
    + intros w Hr. destruct (C82_reach _ _ Hr) as [->|[[? _]|[_ ->]]]; [left|lia|right; left].
    + intros w x Hx. rewrite !elem_of_cons, elem_of_nil in Hx. destruct Hx as [[= -> ->]|[[= -> ->]|[]]]; [exists 0; split; [apply D0|done]|exists 1; split; [apply D1; by right|done]].
  - split; [apply (bool_decide_unpack _); vm_compute; exact I|]. split.
    + intros w Hr. destruct (C82_reach _ _ Hr) as [->|[[? _]|[? _]]]; [left|lia|lia].
    + intros w x Hx. rewrite !elem_of_cons, elem_of_nil in Hx. destruct Hx as [[= -> ->]|[]]. exists 0. split; [apply D0|done].
Qed.
Example C82_matrix : distance_matrix C82_lengths (Some [(7, [(8, 5%Q)])]) None = [[0; 1; 3]; [1; 0; 3]; [3; 3; 0]]%Q.
Proof. vm_compute. reflexivity. Qed.
