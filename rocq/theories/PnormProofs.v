(** The objective of p_norm and its gradient. *)
From Coq Require Import QArith Qabs Lqa Lia.
From stdpp Require Import base list numbers relations.
From Verif Require Import Base PnormModel SpecPnorm.

Lemma qsum_ext n f g : (forall i, i < n -> (f i == g i)%Q) -> (qsum n f == qsum n g)%Q.
Proof. induction n as [|n IH]; intros H; cbn; [reflexivity|]. rewrite (H n) by lia. rewrite IH by (intros; apply H; lia). reflexivity. Qed.
Lemma qsum_plus n f g : (qsum n (fun i => f i + g i) == qsum n f + qsum n g)%Q.
Proof. induction n as [|n IH]; cbn; [reflexivity|]. rewrite IH. ring. Qed.
Lemma qsum_scal n a f : (qsum n (fun i => a * f i) == a * qsum n f)%Q.
Proof. induction n as [|n IH]; cbn; [ring|]. rewrite IH. ring. Qed.
Lemma qsum_const n a : (qsum n (fun _ => a) == inject_Z (Z.of_nat n) * a)%Q.
Proof. induction n as [|n IH]; cbn [qsum]; [cbn; ring|]. rewrite IH, Nat2Z.inj_succ. unfold Z.succ. rewrite inject_Z_plus. change (inject_Z 1) with 1%Q. ring. Qed.
Lemma qsum_delta n i c : i < n -> (qsum n (fun j => if decide (j = i) then c j else 0) == c i)%Q.
Proof.
  induction n as [|n IH]; intros Hi; [lia|]. cbn. destruct (decide (n = i)) as [->|Hne].
  - rewrite (qsum_ext i _ (fun _ => 0%Q)); [rewrite qsum_const; ring|]. intros j Hj. rewrite decide_False by lia. reflexivity.
  - rewrite IH by lia. ring.
Qed.
Lemma qsum_nonneg n f : (forall i, i < n -> (0 <= f i)%Q) -> (0 <= qsum n f)%Q.
Proof. induction n as [|n IH]; intros H; cbn; [lra|]. pose proof (H n ltac:(lia)). specialize (IH ltac:(intros; apply H; lia)). lra. Qed.
Lemma qsum_zero n f : (forall i, i < n -> (0 <= f i)%Q) -> (qsum n f == 0)%Q -> forall i, i < n -> (f i == 0)%Q.
Proof.
  induction n as [|n IH]; intros H E i Hi; [lia|]. cbn in E. pose proof (H n ltac:(lia)) as Hn. pose proof (qsum_nonneg n f ltac:(intros; apply H; lia)) as Hs.
  destruct (decide (i = n)) as [->|]; [lra|]. apply IH; [intros; apply H; lia|lra|lia].
Qed.
Lemma foldr_app_q l x : (foldr Qplus 0 (l ++ [x]) == foldr Qplus 0 l + x)%Q.
Proof. induction l as [|y l IH]; cbn; [ring|]. rewrite IH. ring. Qed.
Lemma qsum_total n f : (qsum n f == total n f)%Q.
Proof. induction n as [|n IH]; [reflexivity|]. cbn [qsum]. rewrite seq_S, fmap_app. cbn [fmap list_fmap]. rewrite foldr_app_q, IH. reflexivity. Qed.

Section objective.
Context (n dim : nat) (v : nat -> Q) (G : nat -> nat -> Q).
Notation x := (fun i k => v (i * dim + k)).
Lemma dist1_one i j : (dist1 dim v i j == one_distance dim x i j)%Q.
Proof. unfold dist1, one_distance. rewrite qsum_total. reflexivity. Qed.
Lemma sq_nonneg a : (0 <= a * a)%Q.
Proof. unfold Qle. cbn. nia. Qed.
Lemma objective_total : (objective1 n dim v G == total n (fun i => total n (fun j => (G i j - one_distance dim x i j) * (G i j - one_distance dim x i j))))%Q.
Proof.
  unfold objective1. rewrite <- qsum_total. apply qsum_ext. intros i Hi. rewrite <- qsum_total. apply qsum_ext. intros j Hj. rewrite dist1_one. reflexivity.
Qed.
Lemma objective_nonneg : (0 <= objective1 n dim v G)%Q.
Proof. apply qsum_nonneg. intros i _. apply qsum_nonneg. intros j _. apply sq_nonneg. Qed.
Lemma objective_zero : (objective1 n dim v G == 0)%Q <-> forall i j, i < n -> j < n -> (one_distance dim x i j == G i j)%Q.
Proof.
  unfold objective1. split.
  - intros E i j Hi Hj. pose proof (qsum_zero n _ ltac:(intros ? _; apply qsum_nonneg; intros; apply sq_nonneg) E i Hi) as E1. cbv beta in E1.
    pose proof (qsum_zero n _ ltac:(intros ? _; apply sq_nonneg) E1 j Hj) as E2. cbv beta in E2. apply Qmult_integral in E2. rewrite <- dist1_one. destruct E2; lra.
  - intros H. rewrite (qsum_ext n _ (fun _ => 0%Q)); [rewrite qsum_const; ring|]. intros i Hi.
    rewrite (qsum_ext n _ (fun _ => 0%Q)); [rewrite qsum_const; ring|]. intros j Hj. rewrite dist1_one, H by done. ring.
Qed.

(** ** The derivative *)
Context (i k : nat) (h : Q) (Hi : i < n) (Hk : k < dim) (Hsym : forall a b, a < n -> b < n -> (G a b == G b a)%Q).
Context (Hh : forall j, j < n -> j <> i -> (Qabs h < Qabs (x i k - x j k))%Q).
Notation v' := (nudge dim v i k h).
Lemma pos_nudge a c : c < dim -> pos dim v' a c = if decide (a = i /\ c = k) then (pos dim v a c + h)%Q else pos dim v a c.
Proof using All.
  intros Hc. unfold pos, nudge. destruct (decide (a = i /\ c = k)) as [[-> ->]|Hne]; [by rewrite decide_True|]. rewrite decide_False; [done|]. intros E. apply Hne.
  assert (a = i) by nia. subst. split; [done|lia].
Qed.
Definition sgn (j : nat) : Q := (diff dim v i j k * / Qabs (diff dim v i j k))%Q.
Lemma abs_shift y z : (Qabs z < Qabs y)%Q -> (Qabs (y + z) == Qabs y + z * (y * / Qabs y))%Q.
Proof.
  intros H. pose proof (Qabs_nonneg z) as Hz. destruct (Qlt_le_dec y 0) as [Hy|Hy].
  - rewrite (Qabs_neg y) in H |- * by lra. apply Qabs_Qlt_condition in H. rewrite (Qabs_neg (y + z)) by lra. field. lra.
  - rewrite (Qabs_pos y) in H |- * by lra. apply Qabs_Qlt_condition in H. rewrite (Qabs_pos (y + z)) by lra. field. lra.
Qed.
Lemma sgn_sq j : j < n -> j <> i -> (sgn j * sgn j == 1)%Q.
Proof using All.
  intros Hj Hne. pose proof (Hh j Hj Hne) as H. pose proof (Qabs_nonneg h). unfold sgn. change (diff dim v i j k) with (x i k - x j k)%Q. set (y := (x i k - x j k)%Q) in *. clearbody y.
  destruct (Qlt_le_dec y 0) as [Hy|Hy]; [rewrite (Qabs_neg y) in * by lra|rewrite (Qabs_pos y) in * by lra]; field; lra.
Qed.
Lemma dist_nudge a b : a < n -> b < n -> (dist1 dim v' a b == dist1 dim v a b + (if decide (a = i /\ b <> i) then h * sgn b else 0) + (if decide (b = i /\ a <> i) then h * sgn a else 0))%Q.
Proof using All.
  intros Ha Hb. unfold dist1.
  set (e := ((if decide (a = i /\ b <> i) then h * sgn b else 0) + (if decide (b = i /\ a <> i) then h * sgn a else 0))%Q).
  assert (E : (qsum dim (fun c => Qabs (diff dim v' a b c)) == qsum dim (fun c => Qabs (diff dim v a b c) + (if decide (c = k) then e else 0)))%Q).
  { apply qsum_ext. intros c Hc. unfold diff at 1. rewrite !pos_nudge by done. destruct (decide (c = k)) as [->|Hck].
    - unfold e. destruct (decide (a = i)) as [->|Hai], (decide (b = i)) as [->|Hbi].
      + rewrite !(decide_True (P := i = i /\ k = k)) by done. rewrite !(decide_False (P := i = i /\ i <> i)) by tauto.
        unfold diff. setoid_replace (pos dim v i k + h - (pos dim v i k + h))%Q with (pos dim v i k - pos dim v i k)%Q by ring. ring.
      + rewrite (decide_True (P := i = i /\ k = k)) by done. rewrite (decide_False (P := b = i /\ k = k)) by tauto.
        rewrite (decide_True (P := i = i /\ b <> i)) by done. rewrite (decide_False (P := b = i /\ i <> i)) by tauto.
        setoid_replace (pos dim v i k + h - pos dim v b k)%Q with (diff dim v i b k + h)%Q by (unfold diff; ring).
        rewrite (abs_shift (diff dim v i b k) h) by (by apply Hh). unfold sgn. ring.
      + rewrite (decide_True (P := i = i /\ k = k)) by done. rewrite (decide_False (P := a = i /\ k = k)) by tauto.
        rewrite (decide_False (P := a = i /\ i <> i)) by tauto. rewrite (decide_True (P := i = i /\ a <> i)) by done.
        setoid_replace (pos dim v a k - (pos dim v i k + h))%Q with (- (diff dim v i a k + h))%Q by (unfold diff; ring).
        rewrite Qabs_opp. rewrite (abs_shift (diff dim v i a k) h) by (by apply Hh).
        setoid_replace (diff dim v a i k) with (- diff dim v i a k)%Q by (unfold diff; ring). rewrite Qabs_opp. unfold sgn. ring.
      + rewrite !decide_False by tauto. unfold diff. ring.
    - rewrite !decide_False by tauto. unfold diff. ring. }
  rewrite E, qsum_plus, (qsum_delta dim k (fun _ => e) Hk). unfold e. ring.
Qed.
Lemma dist_sym a b : (dist1 dim v a b == dist1 dim v b a)%Q.
Proof. apply qsum_ext. intros c _. setoid_replace (diff dim v a b c) with (- diff dim v b a c)%Q by (unfold diff; ring). apply Qabs_opp. Qed.

Definition gterm (j : nat) : Q := (2 * diff dim v i j k * (dist1 dim v i j - G i j) * / Qabs (diff dim v i j k))%Q.
Definition change1 (b : nat) : Q := (h * gterm b + h * h + (if decide (b = i) then - (h * h) else 0))%Q.
Lemma gterm_self : (gterm i == 0)%Q.
Proof. unfold gterm. setoid_replace (diff dim v i i k) with 0%Q at 1 by (unfold diff; ring). ring. Qed.
Lemma change_self : (change1 i == 0)%Q.
Proof. unfold change1. rewrite decide_True by done. rewrite gterm_self. ring. Qed.
Lemma term_nudge a b : a < n -> b < n -> ((G a b - dist1 dim v' a b) * (G a b - dist1 dim v' a b) ==
  (G a b - dist1 dim v a b) * (G a b - dist1 dim v a b) + (if decide (a = i) then change1 b else 0) + (if decide (b = i) then change1 a else 0))%Q.
Proof using All.
  intros Ha Hb. rewrite (dist_nudge a b Ha Hb). destruct (decide (a = i)) as [->|Hai], (decide (b = i)) as [->|Hbi].
  - rewrite !(decide_False (P := i = i /\ i <> i)) by tauto. rewrite change_self. ring.
  - rewrite (decide_True (P := i = i /\ b <> i)) by done. rewrite (decide_False (P := b = i /\ i <> i)) by tauto.
    unfold change1. rewrite decide_False by done. unfold gterm. pose proof (sgn_sq b Hb Hbi) as S2.
    setoid_replace (2 * diff dim v i b k * (dist1 dim v i b - G i b) * / Qabs (diff dim v i b k))%Q with (2 * (dist1 dim v i b - G i b) * sgn b)%Q by (unfold sgn; ring).
    setoid_replace (h * h)%Q with (h * h * (sgn b * sgn b))%Q by (rewrite S2; ring). ring.
  - rewrite (decide_False (P := a = i /\ i <> i)) by tauto. rewrite (decide_True (P := i = i /\ a <> i)) by done.
    unfold change1. rewrite decide_False by done. unfold gterm. pose proof (sgn_sq a Ha Hai) as S2.
    setoid_replace (2 * diff dim v i a k * (dist1 dim v i a - G i a) * / Qabs (diff dim v i a k))%Q with (2 * (dist1 dim v i a - G i a) * sgn a)%Q by (unfold sgn; ring).
    rewrite (Hsym a i Ha Hi), (dist_sym a i).
    setoid_replace (h * h)%Q with (h * h * (sgn a * sgn a))%Q by (rewrite S2; ring). ring.
  - rewrite !decide_False by tauto. ring.
Qed.
Lemma objective_nudge : (objective1 n dim v' G == objective1 n dim v G + 2 * gradient1 n dim v G i k * h + 2 * (inject_Z (Z.of_nat n) - 1) * (h * h))%Q.
Proof using All.
  unfold objective1.
  rewrite (qsum_ext n _ (fun a => (qsum n (fun b => (G a b - dist1 dim v a b) * (G a b - dist1 dim v a b)) + (if decide (a = i) then qsum n change1 else 0)) + change1 a)%Q).
  2:{ intros a Ha. rewrite (qsum_ext n _ _ (fun b Hb => term_nudge a b Ha Hb)). rewrite qsum_plus, qsum_plus. rewrite (qsum_delta n i (fun _ => change1 a) Hi).
      destruct (decide (a = i)); [reflexivity|]. rewrite qsum_const. ring. }
  rewrite !qsum_plus, (qsum_delta n i (fun _ => qsum n change1) Hi).
  assert (EC : (qsum n change1 == h * gradient1 n dim v G i k + (inject_Z (Z.of_nat n) - 1) * (h * h))%Q).
  { unfold change1. rewrite !qsum_plus, qsum_scal, qsum_const, (qsum_delta n i (fun _ => - (h * h))%Q Hi). unfold gradient1, gterm. ring. }
  rewrite EC. ring.
Qed.
End objective.

Lemma objective_translated n dim v t G : (objective1 n dim (fun z => v z + t (z mod dim)%nat) G == objective1 n dim v G)%Q.
Proof.
  apply qsum_ext. intros i _. apply qsum_ext. intros j _. assert (E : (dist1 dim (fun z => v z + t (z mod dim)%nat) i j == dist1 dim v i j)%Q); [|rewrite E; reflexivity].
  apply qsum_ext. intros k Hk. apply Qabs_wd. unfold diff, pos.
  replace ((i * dim + k) `mod` dim) with k by (rewrite Nat.add_comm, Nat.mod_add by lia; by rewrite Nat.mod_small).
  replace ((j * dim + k) `mod` dim) with k by (rewrite Nat.add_comm, Nat.mod_add by lia; by rewrite Nat.mod_small). ring.
Qed.

(** ** The distances *)
Lemma matrix_entry lengths given disc i j v V w row x : lengths !! i = Some (v, V) -> lengths.*1 !! j = Some w -> NoDup V.*1 ->
  distance_matrix lengths given disc !! i = Some row -> row !! j = Some x ->
  ((w, x) ∈ V \/ (w ∉ V.*1 /\ x = match disc with Some y => y | None => inject_Z (Z.of_nat (length lengths)) end)).
Proof.
  intros Hi Hj HN Hrow Hx. unfold distance_matrix in Hrow. rewrite list_lookup_fmap, Hi in Hrow. cbn in Hrow. injection Hrow as <-.
  rewrite list_lookup_fmap, Hj in Hx. cbn in Hx. injection Hx as <-. destruct (list_find (fun e => e.1 = w) V) as [[k e]|] eqn:E.
  - left. apply list_find_Some in E as (E & <- & _). rewrite <- surjective_pairing. by eapply elem_of_list_lookup_2.
  - right. split; [|done]. apply list_find_None in E. intros (e & -> & He)%elem_of_list_fmap. rewrite list.Forall_forall in E. by eapply E.
Qed.
Lemma matrix_shape lengths given disc : length (distance_matrix lengths given disc) = length lengths /\ forall row, row ∈ distance_matrix lengths given disc -> length row = length lengths.
Proof.
  unfold distance_matrix. rewrite fmap_length. split; [done|]. intros row (V & -> & _)%elem_of_list_fmap. by rewrite !fmap_length.
Qed.

Lemma hop_lt nodes (adj : nat -> nat -> Prop) v w d : (forall a b, adj a b -> a ∈ nodes /\ b ∈ nodes) -> v ∈ nodes -> hop_distance adj v w d -> d < length nodes.
Proof.
  intros Hadj Hv [Hd Hmin].
  assert (Hy : forall m, m ∈ seq 0 (S d) -> exists y, hop_distance adj v y m /\ y ∈ nodes).
  { intros m [_ Hm]%elem_of_seq. replace d with (m + (d - m)) in Hd by lia. apply nsteps_add_inv in Hd as (y & H1 & H2). exists y. split.
    - split; [done|]. intros d' Hd'. pose proof (Hmin (d' + (d - m)) ltac:(by eapply nsteps_trans)). lia.
    - destruct m as [|m]; [by inversion H1; subst|]. apply nsteps_inv_r in H1 as (z & _ & Hz). by apply Hadj in Hz as [_ ?]. }
  assert (Hl : forall l, NoDup l -> (forall m, m ∈ l -> exists y, hop_distance adj v y m /\ y ∈ nodes) ->
    exists ys, length ys = length l /\ NoDup ys /\ forall y, y ∈ ys -> y ∈ nodes /\ exists m, m ∈ l /\ hop_distance adj v y m).
  { induction l as [|m l IH]; intros HN H; [exists []; split; [done|]; split; [constructor|]; intros y Hy0; by apply elem_of_nil in Hy0|].
    apply NoDup_cons in HN as [Hm HN]. destruct (IH HN) as (ys & E & N & HI); [intros; apply H; by right|]. destruct (H m ltac:(left)) as (y & D1 & D2).
    exists (y :: ys). split; [cbn; lia|]. split.
    - apply NoDup_cons. split; [|done]. intros Hin. destruct (HI y Hin) as (_ & m' & Hm' & D3). assert (m' = m) as ->; [|done].
      destruct D1 as [A1 A2], D3 as [B1 B2]. pose proof (A2 _ B1). pose proof (B2 _ A1). lia.
    - intros z [->|Hz]%elem_of_cons; [split; [done|]; exists m; split; [left|done]|]. destruct (HI z Hz) as (? & m' & ? & ?). split; [done|]. exists m'. split; [by right|done]. }
  destruct (Hl (seq 0 (S d)) (NoDup_seq _ _) Hy) as (ys & E & N & HI). rewrite seq_length in E.
  assert (length ys <= length nodes); [|lia]. apply submseteq_length, NoDup_submseteq; [done|]. intros y Hin. by apply HI.
Qed.
Lemma matrix_distances nodes adj lengths given : path_lengths nodes adj lengths ->
  length (distance_matrix lengths given None) = length nodes /\
  forall i j v w, nodes !! i = Some v -> nodes !! j = Some w -> exists row x, distance_matrix lengths given None !! i = Some row /\ length row = length nodes /\ row !! j = Some x /\
    ((exists d, hop_distance adj v w d /\ d < length nodes /\ x = inject_Z (Z.of_nat d)) \/ (~ rtc adj v w /\ x = inject_Z (Z.of_nat (length nodes)))).
Proof.
  intros (E & HN & Hadj & HL). destruct (matrix_shape lengths given None) as [S1 S2]. assert (El : length lengths = length nodes) by (rewrite <- E, fmap_length; done).
  split; [lia|]. intros i j v w Hi Hj.
  assert (Hi' : exists V, lengths !! i = Some (v, V)). { rewrite <- E, list_lookup_fmap in Hi. destruct (lengths !! i) as [[v' V]|]; [|done]. cbn in Hi. injection Hi as ->. eauto. }
  destruct Hi' as [V HV]. destruct (lookup_lt_is_Some_2 (distance_matrix lengths given None) i) as [row Hrow]; [rewrite S1, El; by eapply lookup_lt_Some|].
  assert (Hlr : length row = length nodes) by (rewrite (S2 row); [done|by eapply elem_of_list_lookup_2]).
  destruct (lookup_lt_is_Some_2 row j) as [x Hx]; [rewrite Hlr; by eapply lookup_lt_Some|]. exists row, x. split; [done|]. split; [done|]. split; [done|].
  destruct (HL v V ltac:(by eapply elem_of_list_lookup_2)) as (V1 & V2 & V3).
  destruct (matrix_entry lengths given None i j v V w row x HV ltac:(by rewrite E) V1 Hrow Hx) as [H|[H ->]].
  - left. destruct (V3 w x H) as (d & Hd & ->). exists d. split; [done|]. split; [|done]. eapply hop_lt; [done| |done]. by eapply elem_of_list_lookup_2.
  - right. rewrite El. split; [|done]. intros Hr. apply H. by apply V2.
Qed.
