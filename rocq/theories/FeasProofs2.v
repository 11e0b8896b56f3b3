(** The feasibility filter: it never raises, and what it turns down has no embedding. *)
Require Import Lia.
From stdpp Require Import base list numbers relations sorting.
From Verif Require Import Base NxModel SpecNx DiagProofs FeasModel FeasProofs1.
Local Open Scope Z_scope.

(** ** Sums over counters *)
Definition zs (h : nat -> Z) (l : list nat) : Z := zsum (h <$> l).
Definition zw (h : nat -> Z) (c : list (nat * Z)) : Z := zsum ((fun kv => kv.2 * h kv.1) <$> c).
Lemma zsum_cons {B} (F : B -> Z) b l : zsum (F <$> (b :: l)) = F b + zsum (F <$> l).
Proof. done. Qed.
Lemma zw_cons h k v c : zw h ((k, v) :: c) = v * h k + zw h c.
Proof. done. Qed.
Lemma zs_cons h k l : zs h (k :: l) = h k + zs h l.
Proof. done. Qed.
Lemma zw_dstore h c k v : zw h (dstore c k v) = zw h c + (v - cget c k) * h k.
Proof.
  induction c as [|[k' v'] c IH]; cbn [dstore]; [unfold cget; simpl; rewrite zw_cons; lia|]. destruct (decide (k' = k)) as [->|Hk].
  - rewrite !zw_cons. unfold cget. simpl. rewrite decide_True by done. simpl. lia.
  - rewrite !zw_cons, IH. unfold cget. simpl. rewrite decide_False by done. lia.
Qed.
Lemma zw_cadd h c k d : zw h (cadd c k d) = zw h c + d * h k.
Proof. unfold cadd. rewrite zw_dstore. lia. Qed.
Lemma zw_fold h d l c : zw h (foldl (fun c k => cadd c k d) c l) = zw h c + d * zs h l.
Proof.
  revert c. induction l as [|k l IH]; intros c; cbn [foldl]; [unfold zs; simpl; lia|]. rewrite IH, zw_cadd, zs_cons. lia.
Qed.
Lemma zw_residual h Td Sd : zw h (residual Td Sd) = zs h Td - zs h Sd.
Proof. unfold residual. rewrite !zw_fold. unfold zw at 1; simpl. lia. Qed.
Lemma dstore_keys {B} (c : list (nat * B)) k v : NoDup c.*1 -> NoDup (dstore c k v).*1 /\ forall j, j ∈ (dstore c k v).*1 <-> j = k \/ j ∈ c.*1.
Proof.
  induction c as [|[k' v'] c IH]; intros ND; simpl.
  - split; [apply NoDup_singleton|]. intros j. rewrite elem_of_cons. done.
  - inversion ND as [|? ? Hn Hd]; subst. destruct (decide (k' = k)) as [->|Hk]; simpl.
    + split; [done|]. intros j. rewrite elem_of_cons. tauto.
    + destruct (IH Hd) as [I1 I2]. split.
      * constructor; [|done]. intros Hin. apply I2 in Hin as [?|?]; done.
      * intros j. rewrite !elem_of_cons, I2. tauto.
Qed.
Lemma fold_keys d l c : NoDup c.*1 -> NoDup (foldl (fun c k => cadd c k d) c l).*1.
Proof. revert c. induction l as [|k l IH]; intros c ND; simpl; [done|]. apply IH. by apply dstore_keys. Qed.
Lemma residual_keys Td Sd : NoDup (residual Td Sd).*1.
Proof. unfold residual. apply fold_keys, fold_keys. apply NoDup_nil_2. Qed.
Lemma cget_dstore c k v j : cget (dstore c k v) j = if decide (k = j) then v else cget c j.
Proof. unfold cget. rewrite dlookup_dstore. by destruct (decide (k = j)). Qed.
Definition at_ (k : nat) : nat -> Z := fun j => if decide (j = k) then 1 else 0.
Lemma cget_zw c k : NoDup c.*1 -> cget c k = zw (at_ k) c.
Proof.
  induction c as [|[k' v] c IH]; intros ND; [done|]. inversion ND as [|? ? Hn Hd]; subst.
  rewrite zw_cons, <- IH by done. unfold cget, at_. simpl. destruct (decide (k' = k)) as [->|]; [|lia].
  destruct (dlookup c k) eqn:E; simpl; [|lia]. exfalso. apply Hn. simpl. apply dlookup_key. by rewrite E.
Qed.
Lemma carry_cget c k j : cget (carry c k) j =
  if decide (j = k) then 0 else if decide (j = S k) then cget c j + Z.min (cget c k) 0 else cget c j.
Proof.
  unfold carry. rewrite cget_dstore. destruct (decide (k = j)) as [->|]; [by rewrite decide_True|]. rewrite (decide_False (P := j = k)) by done.
  destruct (cget c k <? 0) eqn:E.
  - unfold cadd. rewrite cget_dstore. destruct (decide (S k = j)) as [<-|]; [rewrite decide_True by done; lia|]. rewrite decide_False by done. done.
  - apply Z.ltb_ge in E. destruct (decide (j = S k)); lia.
Qed.
Lemma carry_zw h c k : zw h (carry c k) = zw h c + Z.min (cget c k) 0 * h (S k) - cget c k * h k.
Proof.
  unfold carry. rewrite zw_dstore. destruct (cget c k <? 0) eqn:E.
  - rewrite zw_cadd. unfold cadd. rewrite cget_dstore, decide_False by lia. lia.
  - apply Z.ltb_ge in E. rewrite Z.min_r by lia. lia.
Qed.
Lemma carry_keys c k : NoDup c.*1 -> NoDup (carry c k).*1.
Proof. intros ND. unfold carry. destruct (_ <? 0); repeat apply dstore_keys; done. Qed.

(** the counters after the loop *)
Definition final (Td Sd : list nat) : list (nat * Z) := foldl carry (residual Td Sd) [0; 1; 2]%nat.
Lemma final_keys Td Sd : NoDup (final Td Sd).*1.
Proof. unfold final. simpl. repeat apply carry_keys. apply residual_keys. Qed.
Lemma final_low Td Sd k v : (k, v) ∈ final Td Sd -> (k <= 2)%nat -> v = 0.
Proof.
  intros Hin Hk. assert (E : cget (final Td Sd) k = v).
  { unfold cget. apply dlookup_Some in Hin; [|apply final_keys]. by rewrite Hin. }
  rewrite <- E. unfold final. simpl. rewrite !carry_cget.
  destruct k as [|[|[|k]]]; [| | |lia]; repeat (case_decide; try lia).
Qed.
(** what the low degrees of the source lack *)
Definition lack (Td Sd : list nat) : Z :=
  let c := fun k => zs (at_ k) Td - zs (at_ k) Sd in
  Z.min (c 2%nat + Z.min (c 1%nat + Z.min (c 0%nat) 0) 0) 0.
Lemma final_zw h Td Sd : h 0%nat = 0 -> h 1%nat = 0 -> h 2%nat = 0 -> h 3%nat = 1 ->
  zw h (final Td Sd) = zs h Td - zs h Sd + lack Td Sd.
Proof.
  intros H0 H1 H2 H3. unfold final. simpl. rewrite !carry_zw, !carry_cget, zw_residual, H0, H1, H2, H3.
  repeat (case_decide; try lia).
  rewrite !cget_zw by apply residual_keys. rewrite !zw_residual. unfold lack. lia.
Qed.
Lemma zs_add h1 h2 l : zs (fun k => h1 k + h2 k) l = zs h1 l + zs h2 l.
Proof. induction l; [done|]. rewrite !zs_cons. lia. Qed.
Lemma zs_ext h1 h2 l : (forall k, h1 k = h2 k) -> zs h1 l = zs h2 l.
Proof. intros H. induction l; [done|]. rewrite !zs_cons, H. lia. Qed.
Lemma zs_nat (h : nat -> nat) l : zs (fun k => Z.of_nat (h k)) l = Z.of_nat (sum_list_with h l).
Proof. induction l; [done|]. rewrite zs_cons. simpl. lia. Qed.

(** ** Weights of degrees: [f] of what is above two; degrees from [j] to two weigh one *)
Definition weight (f : nat -> nat) (j d : nat) : nat := (if d <? j then 0 else if d <=? 2 then 1 else f (d - 2))%nat.
Record fair_weight (f : nat -> nat) : Prop := {
  fw_0 : f 0%nat = 0%nat;
  fw_1 : f 1%nat = 1%nat;
  fw_mono : forall a b, (a <= b)%nat -> (f a <= f b)%nat;
  fw_add : forall a b, (f (a + b) <= f a + f b)%nat
}.
Lemma weight_chain f j k ds : fair_weight f -> (j <= 3)%nat -> ds <> [] -> (k + 2 * length ds <= sum_list_with id ds + 2)%nat ->
  (weight f j k <= sum_list_with (weight f j) ds)%nat.
Proof.
  intros [F0 F1 FM FA] Hj Hne Hcap.
  assert (Hexc : (sum_list_with id ds <= 2 * length ds + sum_list_with (fun d => d - 2) ds)%nat).
  { clear. induction ds as [|d ds IH]; simpl; [lia|]. unfold id in *. lia. }
  assert (Hf : forall l, (f (sum_list_with (fun d => d - 2) l) <= sum_list_with (weight f j) l)%nat).
  { induction l as [|d l IH]; simpl; [lia|]. etransitivity; [apply FA|]. apply Nat.add_le_mono; [|done].
    unfold weight. destruct (d <? j)%nat eqn:E1.
    - apply Nat.ltb_lt in E1. replace (d - 2)%nat with 0%nat by lia. lia.
    - destruct (d <=? 2)%nat eqn:E2; [|done]. apply Nat.leb_le in E2. replace (d - 2)%nat with 0%nat by lia. lia. }
  unfold weight at 1. destruct (k <? j)%nat eqn:E1; [lia|]. apply Nat.ltb_ge in E1.
  destruct (k <=? 2)%nat eqn:E2.
  - apply Nat.leb_le in E2.
    assert (Hd : exists d, d ∈ ds /\ (3 <= d \/ forall e, e ∈ ds -> e <= 2)%nat).
    { clear - Hne. induction ds as [|d ds IH]; [done|]. destruct (decide (3 <= d)%nat) as [Hd|Hd]; [exists d; split; [left|by left]|].
      destruct ds as [|e ds].
      - exists d. split; [left|]. right. intros e He. apply elem_of_list_singleton in He as ->. lia.
      - destruct IH as (x & Hx & [H|H]); [done|exists x; split; [by right|by left]|]. exists d. split; [left|]. right.
        intros y Hy. apply elem_of_cons in Hy as [->|Hy]; [lia|by apply H]. }
    destruct Hd as (d & Hd & [H3|Hall]).
    + transitivity (weight f j d); [|by apply sum_with_ge]. unfold weight.
      destruct (d <? j)%nat eqn:E3; [apply Nat.ltb_lt in E3; lia|]. destruct (d <=? 2)%nat eqn:E4; [apply Nat.leb_le in E4; lia|].
      rewrite <- F1 at 1. apply FM. lia.
    + transitivity (weight f j d); [|by apply sum_with_ge].
      assert (Hk : (k <= d)%nat).
      { assert (H : (sum_list_with id ds + 2 <= 2 * length ds + d)%nat); [|lia]. clear - Hd Hall. revert Hall.
        induction Hd as [d l|d e l Hd IH]; intros Hall; simpl.
        - assert (H : (sum_list_with id l <= 2 * length l)%nat); [|lia].
          assert (Hl : forall e, e ∈ l -> (e <= 2)%nat) by (intros; apply Hall; by right). clear - Hl.
          induction l as [|e l IH]; simpl; [lia|]. assert (e <= 2)%nat by (apply Hl; left).
          assert (sum_list_with id l <= 2 * length l)%nat by (apply IH; intros; apply Hl; by right). unfold id in *. lia.
        - assert (e <= 2)%nat by (apply Hall; left). assert (sum_list_with id l + 2 <= 2 * length l + d)%nat by (apply IH; intros; apply Hall; by right).
          unfold id in *. lia. }
      unfold weight. destruct (d <? j)%nat eqn:E3; [apply Nat.ltb_lt in E3; lia|].
      destruct (d <=? 2)%nat eqn:E4; [done|]. apply Nat.leb_gt in E4. apply Hall in Hd. lia.
  - apply Nat.leb_gt in E2. etransitivity; [|apply Hf]. apply FM. lia.
Qed.

(** the two weights used: one for every degree above two, and as many full nodes as are needed *)
Lemma fair_one : fair_weight (fun n => Nat.min n 1).
Proof. split; intros; try done; lia. Qed.
Definition steps (c n : nat) : nat := ((n + (c - 1)) / c)%nat.
Lemma steps_le c n m : (1 <= c)%nat -> (steps c n <= m <-> n <= c * m)%nat.
Proof.
  intros Hc. unfold steps. split; intros H.
  - pose proof (Nat.div_mod (n + (c - 1)) c). pose proof (Nat.mod_upper_bound (n + (c - 1)) c).
    assert (c * ((n + (c - 1)) / c) <= c * m)%nat by (apply Nat.mul_le_mono_l; done). lia.
  - assert ((n + (c - 1)) / c < S m)%nat; [|lia]. apply Nat.div_lt_upper_bound; lia.
Qed.
Lemma fair_steps c : (1 <= c)%nat -> fair_weight (steps c).
Proof.
  intros Hc. split.
  - apply Nat.le_0_r, steps_le; lia.
  - assert (steps c 1 <= 1)%nat by (apply steps_le; lia). assert (~ (steps c 1 <= 0)%nat) by (rewrite steps_le by done; lia). lia.
  - intros a b Hab. apply steps_le; [done|]. transitivity b; [done|]. by apply steps_le.
  - intros a b. apply steps_le; [done|]. assert (a <= c * steps c a)%nat by (by apply steps_le). assert (b <= c * steps c b)%nat by (by apply steps_le). lia.
Qed.
Lemma steps_ceil c n : (1 <= c)%nat -> Z.of_nat (steps c n) = ceil_div (Z.of_nat n) (Z.of_nat c).
Proof.
  intros Hc. unfold steps, ceil_div. rewrite Nat2Z.inj_div, Nat2Z.inj_add, Nat2Z.inj_sub by done. change (Z.of_nat 1) with 1.
  set (N := Z.of_nat n). set (D := Z.of_nat c). assert (HD : 0 < D) by lia.
  pose proof (Z.div_mod (- N) D ltac:(lia)) as H1. pose proof (Z.mod_pos_bound (- N) D HD) as H2.
  symmetry. apply (Z.div_unique_pos _ _ _ (D - 1 - (- N) mod D)); lia.
Qed.

(** ** The tests on the residual counts *)
Section tests.
Context (Td Sd : list nat).
Context (HW : forall f j, fair_weight f -> (j <= 3)%nat -> (sum_list_with (weight f j) Sd <= sum_list_with (weight f j) Td)%nat).
Lemma weight_low f j k : (j <= 3)%nat -> Z.of_nat (weight f j k) =
  Z.of_nat (weight f 3 k) + (if (j <=? 2)%nat then at_ 2 k else 0) + (if (j <=? 1)%nat then at_ 1 k else 0) + (if (j <=? 0)%nat then at_ 0 k else 0).
Proof.
  intros Hj. unfold weight, at_. destruct j as [|[|[|[|j]]]]; [| | | |lia]; simpl; destruct k as [|[|[|k]]]; simpl; lia.
Qed.
Lemma weigh_final f : fair_weight f -> 0 <= zw (fun k => Z.of_nat (weight f 3 k)) (final Td Sd).
Proof.
  intros Hf. rewrite final_zw; try (unfold weight; simpl; done).
  2: { unfold weight; simpl. by rewrite (fw_1 f Hf). }
  assert (H : forall j, (j <= 3)%nat -> 0 <= zs (fun k => Z.of_nat (weight f j k)) Td - zs (fun k => Z.of_nat (weight f j k)) Sd).
  { intros j Hj. rewrite !zs_nat. pose proof (HW f j Hf Hj). lia. }
  pose proof (H 0%nat ltac:(lia)) as A0. pose proof (H 1%nat ltac:(lia)) as A1. pose proof (H 2%nat ltac:(lia)) as A2. pose proof (H 3%nat ltac:(lia)) as A3.
  rewrite !(zs_ext _ _ _ (fun k => weight_low f 0 k ltac:(lia))), !zs_add in A0.
  rewrite !(zs_ext _ _ _ (fun k => weight_low f 1 k ltac:(lia))), !zs_add in A1.
  rewrite !(zs_ext _ _ _ (fun k => weight_low f 2 k ltac:(lia))), !zs_add in A2.
  assert (Z0 : forall l, zs (fun _ => 0) l = 0) by (intros l; induction l; [done|]; rewrite zs_cons; lia).
  simpl in A0, A1, A2. rewrite !Z0 in A1, A2. change (zs (fun k => at_ 2 k)) with (zs (at_ 2)) in *. change (zs (fun k => at_ 1 k)) with (zs (at_ 1)) in *.
  change (zs (fun k => at_ 0 k)) with (zs (at_ 0)) in *. unfold lack. lia.
Qed.
Lemma zsum_items (F : nat * Z -> Z) (c : list (nat * Z)) h : (forall k v, (k, v) ∈ c -> v * h k = v - F (k, v)) ->
  zw h c = zsum (c.*2) - zsum (F <$> c).
Proof.
  induction c as [|[k v] c IH]; intros H; [done|]. rewrite zw_cons, (H k v ltac:(left)), IH.
  - rewrite (zsum_cons snd), (zsum_cons F). simpl. lia.
  - intros k' v' Hin. apply H. by right.
Qed.
Lemma aux_nonneg : 0 <= zsum ((final Td Sd).*2).
Proof.
  pose proof (weigh_final _ fair_one) as H. rewrite (zsum_items (fun _ => 0)) in H.
  - assert (zsum ((fun _ : nat * Z => 0) <$> final Td Sd) = 0); [|lia]. generalize (final Td Sd). intros l. induction l; [done|]. by rewrite zsum_cons.
  - intros k v Hin. destruct (decide (k <= 2)%nat) as [Hk|Hk].
    + rewrite (final_low _ _ _ _ Hin Hk). lia.
    + unfold weight. destruct (k <? 3)%nat eqn:E1; [apply Nat.ltb_lt in E1; lia|]. destruct (k <=? 2)%nat eqn:E2; [apply Nat.leb_le in E2; lia|]. lia.
Qed.
Lemma need_enough M : (3 <= M)%nat -> (forall k v, (k, v) ∈ final Td Sd -> 0 < v -> (k <= M)%nat) ->
  zsum ((fun kv : nat * Z => if kv.2 <? 0 then - kv.2 * ceil_div (Z.of_nat kv.1 - Z.of_nat M) (Z.of_nat M - 2) else 0) <$> final Td Sd)
  <= zsum ((final Td Sd).*2).
Proof.
  intros HM Hmax. pose proof (weigh_final _ (fair_steps (M - 2) ltac:(lia))) as H.
  rewrite (zsum_items (fun kv : nat * Z => if kv.2 <? 0 then - kv.2 * ceil_div (Z.of_nat kv.1 - Z.of_nat M) (Z.of_nat M - 2) else 0)) in H; [lia|].
  intros k v Hin. simpl. destruct (decide (k <= 2)%nat) as [Hk|Hk].
  { rewrite (final_low _ _ _ _ Hin Hk). simpl. lia. }
  unfold weight. destruct (k <? 3)%nat eqn:E1; [apply Nat.ltb_lt in E1; lia|]. destruct (k <=? 2)%nat eqn:E2; [apply Nat.leb_le in E2; lia|].
  destruct (v <? 0) eqn:Ev.
  - rewrite steps_ceil by lia. unfold ceil_div.
    replace (- Z.of_nat (k - 2)) with (- (Z.of_nat k - Z.of_nat M) + (-1) * Z.of_nat (M - 2)) by lia. rewrite Z.div_add by lia.
    replace (Z.of_nat M - 2) with (Z.of_nat (M - 2)) by lia. lia.
  - apply Z.ltb_ge in Ev. destruct (decide (v = 0)) as [->|]; [lia|]. assert (Hle : (k <= M)%nat) by (eapply Hmax; [exact Hin|lia]).
    assert (steps (M - 2) (k - 2) = 1)%nat as ->; [|lia].
    assert (steps (M - 2) (k - 2) <= 1)%nat by (apply steps_le; lia).
    assert (~ (steps (M - 2) (k - 2) <= 0)%nat) by (rewrite steps_le by lia; lia). lia.
Qed.
End tests.

(** ** Sorted lists *)
Definition from (j : nat) (d : nat) : nat := ind (j <= d)%nat.
Lemma sorted_lookup l i k a b : StronglySorted Nat.le l -> (i <= k)%nat -> l !! i = Some a -> l !! k = Some b -> (a <= b)%nat.
Proof.
  intros H. revert i k. induction H as [|x l HS IH HF]; intros i k Hik Ha Hb; [done|].
  destruct i as [|i], k as [|k]; simpl in *; try lia.
  - injection Ha as ->. injection Hb as ->. lia.
  - injection Ha as ->. rewrite Forall_forall in HF. apply HF. by eapply elem_of_list_lookup_2.
  - apply (IH i k); [lia|done|done].
Qed.
Lemma undominated Td Sd : StronglySorted Nat.le Td -> StronglySorted Nat.le Sd -> (length Sd <= length Td)%nat ->
  Exists (fun p => p.1 < p.2)%nat (zip (drop (length Td - length Sd) Td) Sd) ->
  exists j, (sum_list_with (from j) Td < sum_list_with (from j) Sd)%nat.
Proof.
  intros HT HS Hlen HE. apply Exists_exists in HE as ([t s] & Hin & Hlt). simpl in Hlt.
  apply elem_of_list_lookup in Hin as [i Hi]. apply lookup_zip_with_Some in Hi as (t' & s' & [= <- <-] & Ht & Hs).
  rewrite lookup_drop in Ht. exists s.
  assert (Hi : (i < length Sd)%nat) by (by eapply lookup_lt_Some).
  set (n := (length Td - length Sd + i)%nat) in *.
  assert (B : forall l, (sum_list_with (from s) l <= length l)%nat).
  { intros l. induction l as [|x l IH]; simpl; [lia|]. unfold from, ind in *. destruct (decide (s <= x)%nat); lia. }
  assert (G : forall l, (forall x, x ∈ l -> (s <= x)%nat) -> sum_list_with (from s) l = length l).
  { induction l as [|x l IH]; intros Hx; simpl; [done|]. rewrite IH by (intros; apply Hx; by right). unfold from, ind. rewrite decide_True by (apply Hx; left). done. }
  assert (L : forall l, (forall x, x ∈ l -> (x < s)%nat) -> sum_list_with (from s) l = 0%nat).
  { induction l as [|x l IH]; intros Hx; simpl; [done|]. rewrite IH by (intros; apply Hx; by right). unfold from, ind. rewrite decide_False; [done|].
    assert (x < s)%nat by (apply Hx; left). lia. }
  rewrite <- (take_drop (S n) Td), <- (take_drop i Sd), !sum_list_with_app.
  rewrite (L (take (S n) Td)), (G (drop i Sd)).
  - pose proof (B (drop (S n) Td)) as H1. rewrite drop_length in *.
    assert (n < length Td)%nat by (by eapply lookup_lt_Some). lia.
  - intros x Hx. apply elem_of_list_lookup in Hx as [k Hk]. rewrite lookup_drop in Hk. eapply (sorted_lookup Sd i (i + k)); eauto. lia.
  - intros x Hx. apply elem_of_list_lookup in Hx as [k Hk]. apply lookup_take_Some in Hk as [Hk Hkn].
    assert (x <= t)%nat by (eapply (sorted_lookup Td k n); eauto; lia). lia.
Qed.
Lemma last_max Td d x : StronglySorted Nat.le Td -> last Td = Some d -> x ∈ Td -> (x <= d)%nat.
Proof.
  intros HS Hl Hx. apply elem_of_list_lookup in Hx as [i Hi]. rewrite last_lookup in Hl.
  eapply (sorted_lookup Td i (pred (length Td))); eauto. apply lookup_lt_Some in Hi. lia.
Qed.
Lemma sorted_degrees {A : Type} `{!EqDecision A} (g : nxgraph A) : StronglySorted Nat.le (degrees_sorted g).
Proof.
  apply StronglySorted_merge_sort.
  - intros x y z. unfold Nat.le. lia.
  - intros x y. unfold Nat.le. lia.
Qed.
Lemma degrees_perm {A : Type} `{!EqDecision A} (g : nxgraph A) : degrees_sorted g ≡ₚ nx_degree g <$> nx_nodes g.
Proof. apply merge_sort_Permutation. Qed.
Lemma degrees_length {A : Type} `{!EqDecision A} (g : nxgraph A) : length (degrees_sorted g) = length (nx_nodes g).
Proof. by rewrite degrees_perm, fmap_length. Qed.

(** ** The largest key with a positive count *)
Lemma max_positive_spec c : match max_positive c with
  | Ok M => (exists v, (M, v) ∈ c /\ 0 < v) /\ forall k v, (k, v) ∈ c -> 0 < v -> (k <= M)%nat
  | Err _ => forall k v, (k, v) ∈ c -> v <= 0
  end.
Proof.
  unfold max_positive. set (l := omap _ c).
  assert (Hl : forall k, k ∈ l <-> exists v, (k, v) ∈ c /\ 0 < v).
  { intros k. unfold l. rewrite elem_of_list_omap. split.
    - intros ([k' v] & Hin & H). simpl in H. destruct (0 <? v) eqn:E; [|done]. injection H as ->. apply Z.ltb_lt in E. eauto.
    - intros (v & Hin & Hv). exists (k, v). split; [done|]. simpl. by rewrite (proj2 (Z.ltb_lt 0 v) Hv). }
  destruct l as [|k0 ks].
  - intros k v Hin. destruct (decide (v <= 0)); [done|]. assert (H : k ∈ []) by (apply Hl; exists v; split; [done|lia]). by apply elem_of_nil in H.
  - assert (HM : forall ks k0, foldl Nat.max k0 ks ∈ k0 :: ks /\ forall k, k ∈ k0 :: ks -> (k <= foldl Nat.max k0 ks)%nat).
    { clear. induction ks as [|k1 ks IH]; intros k0; simpl.
      - split; [left|]. intros k Hk. apply elem_of_list_singleton in Hk as ->. done.
      - destruct (IH (Nat.max k0 k1)) as [I1 I2]. split.
        + apply elem_of_cons in I1 as [I1|I1].
          * rewrite I1. destruct (Nat.max_spec k0 k1) as [[_ ->]|[_ ->]]; [right; left|left].
          * right. by right.
        + intros k Hk. assert (Hm : (Nat.max k0 k1 <= foldl Nat.max (Nat.max k0 k1) ks)%nat) by (apply I2; left).
          apply elem_of_cons in Hk as [->|Hk]; [lia|]. apply elem_of_cons in Hk as [->|Hk]; [lia|]. apply I2. by right. }
    destruct (HM ks k0) as [M1 M2]. split.
    + by apply Hl.
    + intros k v Hin Hv. apply M2, Hl. eauto.
Qed.

Section filter.
Context {A : Type} `{!EqDecision A}.
(** ** It never raises *)
Lemma from_low j k : (j <= 3)%nat -> Z.of_nat (from j k) =
  Z.of_nat (from 3 k) + (if (j <=? 2)%nat then at_ 2 k else 0) + (if (j <=? 1)%nat then at_ 1 k else 0) + (if (j <=? 0)%nat then at_ 0 k else 0).
Proof.
  intros Hj. unfold from, ind, at_. destruct j as [|[|[|[|j]]]]; [| | | |lia]; simpl; repeat case_decide; lia.
Qed.
Lemma all_nonpos Td Sd j : (forall k v, (k, v) ∈ final Td Sd -> v <= 0) -> 0 <= zsum ((final Td Sd).*2) ->
  (sum_list_with (from j) Sd <= sum_list_with (from j) Td)%nat.
Proof.
  intros Hn H0.
  assert (Hz : forall k v, (k, v) ∈ final Td Sd -> v = 0).
  { revert Hn H0. generalize (final Td Sd). intros l Hn H0. induction l as [|[k v] l IH]; [intros k v H; by apply elem_of_nil in H|].
    assert (Hv : v <= 0) by (apply (Hn k); left).
    assert (Hs : zsum (l.*2) <= 0).
    { clear - Hn. assert (H : forall k v, (k, v) ∈ l -> v <= 0) by (intros k' v' H; apply (Hn k'); by right). clear Hn.
      induction l as [|[k' v'] l IH]; [done|]. assert (v' <= 0) by (apply (H k'); left).
      assert (zsum (l.*2) <= 0) by (apply IH; intros k2 v2 H2; apply (H k2); by right). rewrite (zsum_cons snd). simpl. lia. }
    assert (Hsum : zsum (((k, v) :: l).*2) = v + zsum (l.*2)) by done. rewrite Hsum in H0.
    intros k' v' Hin. apply elem_of_cons in Hin as [[= -> ->]|Hin]; [lia|]. eapply IH; eauto; [|lia]. intros k2 v2 H2. apply (Hn k2). by right. }
  assert (HZ : forall h, zw h (final Td Sd) = 0).
  { intros h. revert Hz. generalize (final Td Sd). intros l Hz. induction l as [|[k v] l IH]; [done|].
    rewrite zw_cons, (Hz k v ltac:(left)), IH; [lia|]. intros k' v' H. apply (Hz k'). by right. }
  assert (E3 : zs (fun k => Z.of_nat (from 3 k)) Td - zs (fun k => Z.of_nat (from 3 k)) Sd + lack Td Sd = 0).
  { rewrite <- final_zw; [apply HZ| | | |]; done. }
  destruct (decide (j <= 3)%nat) as [Hj|Hj].
  - enough (0 <= zs (fun k => Z.of_nat (from j k)) Td - zs (fun k => Z.of_nat (from j k)) Sd) as H by (rewrite !zs_nat in H; lia).
    rewrite !(zs_ext _ _ _ (fun k => from_low j k Hj)), !zs_add.
    assert (Z0 : forall l, zs (fun _ => 0) l = 0) by (intros l; induction l; [done|]; rewrite zs_cons; lia).
    destruct j as [|[|[|[|j]]]]; [| | | |lia]; simpl; rewrite ?Z0;
      change (zs (fun k => at_ 2 k)) with (zs (at_ 2)) in *; change (zs (fun k => at_ 1 k)) with (zs (at_ 1)) in *;
      change (zs (fun k => at_ 0 k)) with (zs (at_ 0)) in *; unfold lack in E3; lia.
  - (* above three: nothing is carried *)
    enough (zs (fun k => Z.of_nat (from j k)) Td - zs (fun k => Z.of_nat (from j k)) Sd = 0) as H by (rewrite !zs_nat in H; lia).
    rewrite <- zw_residual. pose proof (HZ (fun k => Z.of_nat (from j k))) as HF. unfold final in HF. simpl in HF. rewrite !carry_zw in HF.
    assert (Hlow : forall k, (k <= 3)%nat -> from j k = 0%nat) by (intros k Hk; unfold from, ind; rewrite decide_False by lia; done).
    rewrite !Hlow in HF by lia. lia.
Qed.
Lemma degree_filter_total Td Sd o : StronglySorted Nat.le Td -> StronglySorted Nat.le Sd -> (length Sd <= length Td)%nat ->
  exists b, degree_filter Td Sd o = Ok b.
Proof.
  intros HT HS HL. unfold degree_filter. case_bool_decide as HE; [|by eexists]. destruct (o || _); [by eexists|].
  fold (final Td Sd). destruct (forallb _ _); [by eexists|]. destruct (zsum _ <? 0) eqn:E0; [by eexists|]. apply Z.ltb_ge in E0.
  pose proof (max_positive_spec (final Td Sd)) as HM. destruct (max_positive (final Td Sd)); [by eexists|].
  exfalso. destruct (undominated Td Sd HT HS HL HE) as [j Hj]. pose proof (all_nonpos Td Sd j HM E0). lia.
Qed.
Theorem filter_total (S T : nxgraph A) same o : exists b, feasibility_filter S T same o = Ok b.
Proof.
  unfold feasibility_filter. destruct same; [by eexists|]. destruct (_ || _) eqn:E; [by eexists|].
  destruct (_ =? 0)%nat; [by eexists|]. destruct (_ =? 0)%nat; [by eexists|].
  apply orb_false_iff in E as [E _]. apply Nat.ltb_ge in E.
  apply degree_filter_total; [apply sorted_degrees..|]. by rewrite !degrees_length.
Qed.

(** ** What is turned down has no embedding *)
Context (S T : nxgraph A) (C : A -> list A).
Context (WS : nx_wf S) (WT : nx_wf T) (HC : chains_ok S T C).
Context (loopless : forall x, (x, x) ∉ nx_edges S).
Lemma weights_sorted w : (forall x, x ∈ nx_nodes S -> (w (nx_degree S x) <= sum_list_with (fun q => w (nx_degree T q)) (C x))%nat) ->
  (sum_list_with w (degrees_sorted S) <= sum_list_with w (degrees_sorted T))%nat.
Proof.
  intros H. rewrite (sum_with_perm _ _ _ (degrees_perm S)), (sum_with_perm _ _ _ (degrees_perm T)). by apply (weights_le S T C WS HC).
Qed.
Lemma sum_fmap {B} (f : nat -> nat) (h : B -> nat) l : sum_list_with f (h <$> l) = sum_list_with (fun a => f (h a)) l.
Proof. induction l; simpl; auto. Qed.
Lemma chain_capacity x : x ∈ nx_nodes S -> (nx_degree S x + 2 * length (nx_degree T <$> C x) <= sum_list_with id (nx_degree T <$> C x) + 2)%nat.
Proof. intros Hx. rewrite fmap_length, sum_fmap. unfold id. apply (capacity S T C WS WT HC loopless x Hx). Qed.
Lemma weights_ok f j : fair_weight f -> (j <= 3)%nat ->
  (sum_list_with (weight f j) (degrees_sorted S) <= sum_list_with (weight f j) (degrees_sorted T))%nat.
Proof.
  intros Hf Hj. apply weights_sorted. intros x Hx. rewrite <- sum_fmap. apply weight_chain; [done|done| |by apply chain_capacity].
  destruct (ch_ne _ _ _ HC x Hx) as [q Hq]. destruct (C x); [by apply elem_of_nil in Hq|done].
Qed.
Lemma counts_ok j (one_to_one : bool) : (one_to_one = true -> forall x, x ∈ nx_nodes S -> length (C x) = 1%nat) ->
  one_to_one = true \/ (forall q, q ∈ nx_nodes T -> (nx_degree T q <= 2)%nat) ->
  (sum_list_with (from j) (degrees_sorted S) <= sum_list_with (from j) (degrees_sorted T))%nat.
Proof.
  intros Ho Hc. apply weights_sorted. intros x Hx. unfold from at 1, ind. destruct (decide (j <= nx_degree S x)%nat) as [Hj|]; [|lia].
  destruct (ch_ne _ _ _ HC x Hx) as [q Hq].
  assert (Hd : (nx_degree S x <= nx_degree T q)%nat).
  { pose proof (capacity S T C WS WT HC loopless x Hx) as Hcap. destruct Hc as [H1|H2].
    - specialize (Ho H1 x Hx). destruct (C x) as [|q' [|]]; try done. apply elem_of_list_singleton in Hq as ->. simpl in Hcap. lia.
    - assert (H : forall l, q ∈ l -> (forall p, p ∈ l -> (nx_degree T p <= 2)%nat) -> (sum_list_with (nx_degree T) l + 2 <= 2 * length l + nx_degree T q)%nat).
      { clear. intros l Hq. induction Hq as [p l|p y l' Hq IH]; intros Hall; simpl.
        - assert (sum_list_with (nx_degree T) l <= 2 * length l)%nat; [|lia].
          assert (Hl : forall e, e ∈ l -> (nx_degree T e <= 2)%nat) by (intros; apply Hall; by right). clear - Hl.
          induction l as [|e l IH]; simpl; [lia|]. assert (nx_degree T e <= 2)%nat by (apply Hl; left).
          assert (sum_list_with (nx_degree T) l <= 2 * length l)%nat by (apply IH; intros; apply Hl; by right). lia.
        - assert (nx_degree T y <= 2)%nat by (apply Hall; left).
          assert (sum_list_with (nx_degree T) l' + 2 <= 2 * length l' + nx_degree T p)%nat by (apply IH; intros; apply Hall; by right). lia. }
      specialize (H (C x) Hq ltac:(intros p Hp; apply H2; by eapply (ch_in _ _ _ HC))). lia. }
  transitivity (from j (nx_degree T q)); [|by apply (sum_with_ge (fun q => from j (nx_degree T q)))].
  unfold from, ind. rewrite decide_True by lia. lia.
Qed.
Theorem filter_accepts same one_to_one : (one_to_one = true -> forall x, x ∈ nx_nodes S -> length (C x) = 1%nat) ->
  feasibility_filter S T same one_to_one = Ok true.
Proof.
  intros Ho. unfold feasibility_filter. destruct same; [done|].
  pose proof (nodes_le S T C WS HC) as HN. pose proof (edges_le S T C WS HC loopless) as HE.
  rewrite (proj2 (Nat.ltb_ge _ _) HN), (proj2 (Nat.ltb_ge _ _) HE). simpl.
  destruct (length (nx_nodes S) =? 0)%nat eqn:E1; [done|]. apply Nat.eqb_neq in E1.
  destruct (length (nx_nodes T) =? 0)%nat eqn:E2; [apply Nat.eqb_eq in E2; lia|].
  unfold degree_filter. case_bool_decide as HX; [|done].
  assert (HL : (length (degrees_sorted S) <= length (degrees_sorted T))%nat) by (by rewrite !degrees_length).
  destruct (undominated _ _ (sorted_degrees T) (sorted_degrees S) HL HX) as [j Hj].
  destruct (one_to_one || _) eqn:E3.
  { exfalso. assert (Hc := counts_ok j one_to_one Ho). apply orb_true_iff in E3 as [E3|E3]; [specialize (Hc (or_introl E3)); lia|].
    apply Nat.leb_le in E3. enough (sum_list_with (from j) (degrees_sorted S) <= sum_list_with (from j) (degrees_sorted T))%nat by lia.
    apply Hc. right. intros q Hq. destruct (last (degrees_sorted T)) as [d|] eqn:EL.
    - simpl in E3. etransitivity; [|exact E3]. apply (last_max (degrees_sorted T) d _ (sorted_degrees T) EL). rewrite degrees_perm.
      apply elem_of_list_fmap. by exists q.
    - apply last_None in EL. apply Nat.eqb_neq in E2. assert (E4 := degrees_length T). rewrite EL in E4. simpl in E4. lia. }
  fold (final (degrees_sorted T) (degrees_sorted S)). destruct (forallb _ _); [done|].
  pose proof (aux_nonneg _ _ weights_ok) as HA. rewrite (proj2 (Z.ltb_ge _ _) HA).
  pose proof (max_positive_spec (final (degrees_sorted T) (degrees_sorted S))) as HM.
  destruct (max_positive _) as [M|e].
  - destruct HM as [(v & Hin & Hv) HM]. cbn [rbind]. f_equal. apply Z.leb_le. apply need_enough; [exact weights_ok| |exact HM].
    destruct (decide (M <= 2)%nat) as [Hle|]; [|lia]. pose proof (final_low _ _ _ _ Hin Hle). lia.
  - exfalso. pose proof (all_nonpos _ _ j HM HA). lia.
Qed.
End filter.
