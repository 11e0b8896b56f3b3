(** The objective of p_norm for the greatest difference. *)
From Coq Require Import QArith Qabs Lqa Lia.
From stdpp Require Import base list numbers relations.
From Verif Require Import Base PnormModel SpecPnorm PnormProofs.

(** how a sum of squares over pairs changes when the distances from one node change *)
Section expand.
Context (n i : nat) (h : Q) (D D' G : nat -> nat -> Q) (s : nat -> Q) (Hi : i < n).
Context (HG : forall a b, a < n -> b < n -> (G a b == G b a)%Q) (HD : forall a b, (D a b == D b a)%Q).
Context (H' : forall a b, a < n -> b < n -> (D' a b == D a b + (if decide (a = i /\ b <> i) then h * s b else 0) + (if decide (b = i /\ a <> i) then h * s a else 0))%Q).
Definition ch (b : nat) : Q := (if decide (b = i) then 0 else h * (2 * (D i b - G i b) * s b) + h * h * (s b * s b))%Q.
Lemma expand_term a b : a < n -> b < n -> ((G a b - D' a b) * (G a b - D' a b) == (G a b - D a b) * (G a b - D a b) + (if decide (a = i) then ch b else 0) + (if decide (b = i) then ch a else 0))%Q.
Proof using All.
  intros Ha Hb. rewrite (H' a b Ha Hb). unfold ch. destruct (decide (a = i)) as [->|Hai], (decide (b = i)) as [->|Hbi].
  - rewrite !(decide_False (P := i = i /\ i <> i)) by tauto. ring.
  - rewrite (decide_True (P := i = i /\ b <> i)) by done. rewrite (decide_False (P := b = i /\ i <> i)) by tauto. ring.
  - rewrite (decide_False (P := a = i /\ i <> i)) by tauto. rewrite (decide_True (P := i = i /\ a <> i)) by done. rewrite (HG a i Ha Hi), (HD a i). ring.
  - rewrite !decide_False by tauto. ring.
Qed.
Lemma expand_sum : (qsum n (fun a => qsum n (fun b => (G a b - D' a b) * (G a b - D' a b))) ==
  qsum n (fun a => qsum n (fun b => (G a b - D a b) * (G a b - D a b))) + 2 * qsum n ch)%Q.
Proof using All.
  rewrite (qsum_ext n _ (fun a => (qsum n (fun b => (G a b - D a b) * (G a b - D a b)) + (if decide (a = i) then qsum n ch else 0)) + ch a)%Q).
  2:{ intros a Ha. rewrite (qsum_ext n _ _ (fun b Hb => expand_term a b Ha Hb)). rewrite qsum_plus, qsum_plus. rewrite (qsum_delta n i (fun _ => ch a) Hi).
      destruct (decide (a = i)); [reflexivity|]. rewrite qsum_const. ring. }
  rewrite !qsum_plus, (qsum_delta n i (fun _ => qsum n ch) Hi). ring.
Qed.
End expand.

Lemma qmax_spec m f : (forall k, (0 <= f k)%Q) -> (forall k, k < m -> (f k <= qmax m f)%Q) /\ (0 < m -> exists k, k < m /\ qmax m f = f k) /\ (0 <= qmax m f)%Q.
Proof.
  intros Hf. induction m as [|m (I1 & I2 & I3)]; cbn; [split; [intros; lia|]; split; [intros; lia|lra]|].
  destruct (Qle_bool (qmax m f) (f m)) eqn:E.
  - apply Qle_bool_iff in E. split; [|split; [intros _; exists m; split; [lia|done]|apply Hf]]. intros k Hk. destruct (decide (k = m)) as [->|]; [lra|]. pose proof (I1 k ltac:(lia)). lra.
  - assert (Hlt : (f m < qmax m f)%Q). { apply Qnot_le_lt. intros H%Qle_bool_iff. congruence. } split; [|split; [|done]].
    + intros k Hk. destruct (decide (k = m)) as [->|]; [lra|]. apply I1. lia.
    + intros _. destruct m as [|m]; [cbn in Hlt; pose proof (Hf 0); lra|]. destruct (I2 ltac:(lia)) as (k & ? & ?). exists k. split; [lia|done].
Qed.
Section inf.
Context (n dim : nat) (v : nat -> Q) (G : nat -> nat -> Q).
Notation x := (fun i k => v (i * dim + k)).
Lemma distinf_ok i j : 0 < dim -> is_inf_distance dim x i j (distinf dim v i j).
Proof.
  intros Hd. destruct (qmax_spec dim (fun k => Qabs (diff dim v i j k)) (fun k => Qabs_nonneg _)) as (H1 & H2 & _). split; [|done].
  destruct (H2 Hd) as (k & Hk & E). exists k. split; [done|]. unfold distinf. rewrite E. reflexivity.
Qed.
Lemma objectiveinf_nonneg : (0 <= objectiveinf n dim v G)%Q.
Proof. apply qsum_nonneg. intros i _. apply qsum_nonneg. intros j _. apply sq_nonneg. Qed.
Lemma objectiveinf_zero : 0 < dim -> (objectiveinf n dim v G == 0)%Q <-> forall i j, i < n -> j < n -> is_inf_distance dim x i j (G i j).
Proof.
  intros Hd. unfold objectiveinf. split.
  - intros E i j Hi Hj. pose proof (qsum_zero n _ ltac:(intros ? _; apply qsum_nonneg; intros; apply sq_nonneg) E i Hi) as E1. cbv beta in E1.
    pose proof (qsum_zero n _ ltac:(intros ? _; apply sq_nonneg) E1 j Hj) as E2. cbv beta in E2. apply Qmult_integral in E2.
    assert (EG : (G i j == distinf dim v i j)%Q) by (destruct E2; lra). destruct (distinf_ok i j Hd) as ((k & Hk & A) & B). split; [exists k; split; [done|]; by rewrite EG|]. intros k' Hk'. rewrite EG. by apply B.
  - intros H. rewrite (qsum_ext n _ (fun _ => 0%Q)); [rewrite qsum_const; ring|]. intros i Hi.
    rewrite (qsum_ext n _ (fun _ => 0%Q)); [rewrite qsum_const; ring|]. intros j Hj.
    destruct (distinf_ok i j Hd) as ((k & Hk & A) & B). destruct (H i j Hi Hj) as ((k' & Hk' & A') & B').
    assert (EG : (G i j == distinf dim v i j)%Q). { pose proof (B k' Hk'). pose proof (B' k Hk). lra. } rewrite EG. ring.
Qed.
End inf.
Lemma gradientinf_bad n dim v G i k : dim <> 2 -> gradientinf n dim v G i k = Err BadInit.
Proof. intros H. unfold gradientinf. apply Nat.eqb_neq in H as ->. done. Qed.

(** ** two dimensions *)
Lemma pos_nudge2 v i k h a c : k < 2 -> c < 2 -> pos 2 (nudge 2 v i k h) a c = if decide (a = i /\ c = k) then (pos 2 v a c + h)%Q else pos 2 v a c.
Proof.
  intros Hk Hc. unfold pos, nudge. destruct (decide (a = i /\ c = k)) as [[-> ->]|Hne]; [by rewrite decide_True|]. rewrite decide_False; [done|]. intros E. apply Hne. lia.
Qed.
Lemma qmax2 (f : nat -> Q) : (0 <= f 0%nat)%Q -> (0 <= f 1%nat)%Q -> (qmax 2 f == (if Qle_bool (f 0%nat) (f 1%nat) then f 1%nat else f 0%nat))%Q.
Proof.
  intros H0 H1. cbn. assert (E : Qle_bool 0 (f 0%nat) = true) by (by apply Qle_bool_iff). rewrite E. destruct (Qle_bool (f 0%nat) (f 1%nat)); reflexivity.
Qed.
Section plane.
Context (n : nat) (v : nat -> Q) (G : nat -> nat -> Q) (i k : nat) (h : Q) (Hi : i < n) (Hk : k < 2).
Notation x := (fun i k => v (i * 2 + k)).
Context (HG : forall a b, a < n -> b < n -> (G a b == G b a)%Q).
(** the move is smaller than the difference of the two coordinates *)
Context (Hh : forall j, j < n -> j <> i -> (Qabs h < Qabs (Qabs (x i k - x j k) - Qabs (x i (1 - k)%nat - x j (1 - k)%nat)) /\ Qabs h < Qabs (x i k - x j k))%Q).
Notation v' := (nudge 2 v i k h).
Definition big (j : nat) : bool := if k =? 0 then x_bigger 2 v i j else negb (x_bigger 2 v i j).
Definition sg (j : nat) : Q := (diff 2 v i j k * / Qabs (diff 2 v i j k) * (if big j then 1 else 0))%Q.
Lemma max_shift y z w : (Qabs h < Qabs (Qabs y - Qabs z))%Q -> (Qabs h < Qabs y)%Q -> w = (y + h)%Q ->
  (Qle_bool (Qabs y) (Qabs z) = true -> (Qabs w < Qabs z)%Q) /\ (Qle_bool (Qabs z) (Qabs y) = true -> (Qabs z < Qabs w)%Q) /\ (Qabs w == Qabs y + h * (y * / Qabs y))%Q.
Proof using.
  intros H1 H2 ->. split; [|split; [|by apply abs_shift]].
  - intros H%Qle_bool_iff. pose proof (Qabs_triangle y h). rewrite (Qabs_neg (Qabs y - Qabs z)) in H1 by lra. lra.
  - intros H%Qle_bool_iff. rewrite (Qabs_pos (Qabs y - Qabs z)) in H1 by lra. pose proof (Qabs_triangle (y + h) (- h)) as T. rewrite Qabs_opp in T. setoid_replace (y + h + - h)%Q with y in T by ring. lra.
Qed.
Lemma distinf2 u a b : (distinf 2 u a b == (if Qle_bool (Qabs (diff 2 u a b 0)) (Qabs (diff 2 u a b 1)) then Qabs (diff 2 u a b 1) else Qabs (diff 2 u a b 0)))%Q.
Proof. unfold distinf. rewrite qmax2 by apply Qabs_nonneg. reflexivity. Qed.
Lemma distinf_sym u a b : (distinf 2 u a b == distinf 2 u b a)%Q.
Proof.
  rewrite !distinf2. assert (E : forall c, (Qabs (diff 2 u a b c) == Qabs (diff 2 u b a c))%Q). { intros c. setoid_replace (diff 2 u a b c) with (- diff 2 u b a c)%Q by (unfold diff; ring). apply Qabs_opp. }
  rewrite (E 0), (E 1). destruct (Qle_bool (Qabs (diff 2 u b a 0)) (Qabs (diff 2 u b a 1))); [apply E|apply E].
Qed.
Lemma diff_nudge_other a b c : c < 2 -> c <> k -> diff 2 v' a b c = diff 2 v a b c.
Proof using Hk. intros Hc Hne. unfold diff. rewrite !(pos_nudge2 v i k h _ _ Hk) by done. by rewrite !decide_False by tauto. Qed.
Lemma diff_nudge_self b : b <> i -> diff 2 v' i b k = (pos 2 v i k + h - pos 2 v b k)%Q.
Proof using Hk. intros Hne. unfold diff. rewrite !(pos_nudge2 v i k h _ _ Hk) by done. rewrite decide_True by done. by rewrite decide_False by tauto. Qed.
Lemma dist_from b : b < n -> b <> i -> (distinf 2 v' i b == distinf 2 v i b + h * sg b)%Q.
Proof using Hk Hi Hh.
  intros Hb Hne. destruct (Hh b Hb Hne) as [H1 H2]. rewrite !distinf2. pose proof (diff_nudge_self b Hne) as Es.
  assert (Ew : (diff 2 v' i b k == diff 2 v i b k + h)%Q) by (rewrite Es; unfold diff; ring).
  pose proof (diff_nudge_other i b (1 - k) ltac:(lia) ltac:(lia)) as Eo.
  destruct (max_shift (diff 2 v i b k) (diff 2 v i b (1 - k)) _ H1 H2 eq_refl) as (M1 & M2 & M3). rewrite <- Ew in M1, M2, M3.
  set (u := v') in *. clearbody u.
  unfold sg, big, x_bigger. destruct k as [|[|]]; [| |lia]; cbn [Nat.sub Nat.eqb negb] in *; rewrite Eo.
  - destruct (Qle_bool (Qabs (diff 2 v i b 0)) (Qabs (diff 2 v i b 1))) eqn:E.
    + specialize (M1 eq_refl). assert (E' : Qle_bool (Qabs (diff 2 u i b 0)) (Qabs (diff 2 v i b 1)) = true) by (apply Qle_bool_iff, Qlt_le_weak, M1). rewrite E'. cbn [negb]. ring.
    + assert (Hlt : Qle_bool (Qabs (diff 2 v i b 1)) (Qabs (diff 2 v i b 0)) = true). { apply Qle_bool_iff. destruct (Qlt_le_dec (Qabs (diff 2 v i b 1)) (Qabs (diff 2 v i b 0))) as [H|H]; [by apply Qlt_le_weak|]. apply Qle_bool_iff in H. congruence. }
      specialize (M2 Hlt). assert (E' : Qle_bool (Qabs (diff 2 u i b 0)) (Qabs (diff 2 v i b 1)) = false). { apply not_true_is_false. intros H%Qle_bool_iff. exact (Qlt_not_le _ _ M2 H). } rewrite E'. cbn [negb]. rewrite M3. ring.
  - destruct (Qle_bool (Qabs (diff 2 v i b 0)) (Qabs (diff 2 v i b 1))) eqn:E.
    + specialize (M2 eq_refl). assert (E' : Qle_bool (Qabs (diff 2 v i b 0)) (Qabs (diff 2 u i b 1)) = true) by (apply Qle_bool_iff, Qlt_le_weak, M2). rewrite E'. cbn [negb]. rewrite M3. ring.
    + assert (Hlt : Qle_bool (Qabs (diff 2 v i b 1)) (Qabs (diff 2 v i b 0)) = true). { apply Qle_bool_iff. destruct (Qlt_le_dec (Qabs (diff 2 v i b 1)) (Qabs (diff 2 v i b 0))) as [H|H]; [by apply Qlt_le_weak|]. apply Qle_bool_iff in H. congruence. }
      specialize (M1 Hlt). assert (E' : Qle_bool (Qabs (diff 2 v i b 0)) (Qabs (diff 2 u i b 1)) = false). { apply not_true_is_false. intros H%Qle_bool_iff. exact (Qlt_not_le _ _ M1 H). } rewrite E'. cbn [negb]. ring.
Qed.
Lemma dist_else a b : a <> i -> b <> i -> (distinf 2 v' a b == distinf 2 v a b)%Q.
Proof using Hk Hi.
  intros Ha Hb. assert (E : forall c, c < 2 -> diff 2 v' a b c = diff 2 v a b c). { intros c Hc. unfold diff. rewrite !(pos_nudge2 v i k h _ _ Hk) by done. by rewrite !decide_False by tauto. }
  rewrite !distinf2, (E 0), (E 1) by lia. reflexivity.
Qed.
Lemma dist_self u a : (distinf 2 u a a == 0)%Q.
Proof. rewrite distinf2. assert (E : forall c, (Qabs (diff 2 u a a c) == 0)%Q). { intros c. setoid_replace (diff 2 u a a c) with 0%Q by (unfold diff; ring). reflexivity. } destruct (Qle_bool _ _); apply E. Qed.
(** the number of nodes for which coordinate [k] decides the distance *)
Definition deciding : Q := qsum n (fun j => if decide (j = i) then 0 else sg j * sg j)%Q.
Lemma inf_nudge : exists g, gradientinf n 2 v G i k = Ok g /\ (objectiveinf n 2 v' G == objectiveinf n 2 v G + 2 * g * h + 2 * deciding * (h * h))%Q.
Proof using Hk Hi HG Hh.
  eexists. split; [reflexivity|]. unfold objectiveinf.
  rewrite (expand_sum n i h (distinf 2 v) (distinf 2 v') G sg Hi HG (distinf_sym v)).
  2:{ intros a b Ha Hb. destruct (decide (a = i)) as [->|Hai], (decide (b = i)) as [->|Hbi].
      - rewrite !(decide_False (P := i = i /\ i <> i)) by tauto. rewrite !dist_self. ring.
      - rewrite (decide_True (P := i = i /\ b <> i)) by done. rewrite (decide_False (P := b = i /\ i <> i)) by tauto. rewrite dist_from by done. ring.
      - rewrite (decide_False (P := a = i /\ i <> i)) by tauto. rewrite (decide_True (P := i = i /\ a <> i)) by done. rewrite (distinf_sym v' a i), (distinf_sym v a i), dist_from by done. ring.
      - rewrite !decide_False by tauto. rewrite dist_else by done. ring. }
  set (gt := fun j => (2 * diff 2 v i j k * (distinf 2 v i j - G i j) * / Qabs (diff 2 v i j k) * (if (if k =? 0 then x_bigger 2 v i j else negb (x_bigger 2 v i j)) then 1 else 0))%Q).
  assert (E : (qsum n (ch i h (distinf 2 v) G sg) == h * qsum n gt + h * h * deciding)%Q).
  { unfold deciding. rewrite <- !qsum_scal, <- qsum_plus. apply qsum_ext. intros b Hb. unfold ch, gt. destruct (decide (b = i)) as [->|].
    - setoid_replace (diff 2 v i i k) with 0%Q at 1 by (unfold diff; ring). ring.
    - unfold sg, big. ring. }
  rewrite E. ring.
Qed.
Lemma deciding_bounds : (0 <= deciding)%Q.
Proof using. apply qsum_nonneg. intros j _. destruct (decide (j = i)); [lra|apply sq_nonneg]. Qed.
End plane.
