(** The byte tables of busclique mean what their names say (checked for all 256 bytes), and
    bit-level facts about masks. *)
From stdpp Require Import base list list_numbers numbers.
From Verif Require Import Base BusModel.


Definition byte (m : N) : Prop := (m < 256)%N.

(** the positions of the set bits, in increasing order *)
Definition bits (m : N) : list nat := filter (fun k => N.testbit m (N.of_nat k) = true) (seq 0 8).

Lemma byte_all (P : N -> bool) : forallb P (N.of_nat <$> seq 0 256) = true -> forall m, byte m -> P m = true.
Proof.
  intros H m Hm. rewrite forallb_forall in H. apply H.
  apply elem_of_list_In, elem_of_list_fmap. exists (N.to_nat m). split; [by rewrite N2Nat.id|].
  apply elem_of_seq. unfold byte in Hm. lia.
Qed.

Lemma popcount_bits m : byte m -> popcount m = Ok (length (bits m)).
Proof.
  intros Hm.
  pose proof (byte_all (fun m => match popcount m with Ok n => n =? length (bits m) | _ => false end)
    ltac:(by vm_compute) m Hm) as H. simpl in H.
  destruct (popcount m); [|done]. apply Nat.eqb_eq in H. by subst.
Qed.

Lemma first_bit_bits m : byte m -> m <> 0%N ->
  exists k b, first_bit m = Ok k /\ mask_bit k = Ok b /\ bits m = k :: bits (N.lxor m b) /\ byte (N.lxor m b) /\ k < 8
    /\ b = N.shiftl 1 (N.of_nat k).
Proof.
  intros Hm H0.
  pose proof (byte_all (fun m => (m =? 0)%N || match first_bit m with
     | Ok k => match mask_bit k with
       | Ok b => bool_decide (bits m = k :: bits (N.lxor m b)) && (N.lxor m b <? 256)%N && (k <? 8)
           && (b =? N.shiftl 1 (N.of_nat k))%N
       | _ => false end | _ => false end) ltac:(by vm_compute) m Hm) as H. simpl in H.
  apply orb_true_iff in H as [H|H]; [apply N.eqb_eq in H; done|].
  destruct (first_bit m) as [k|]; [|done]. destruct (mask_bit k) as [b|] eqn:E; [|done].
  exists k, b. rewrite !andb_true_iff in H. destruct H as [[[H1 H2] H3] H4].
  apply bool_decide_eq_true in H1. apply N.ltb_lt in H2. apply Nat.ltb_lt in H3. apply N.eqb_eq in H4. done.
Qed.

Lemma bits_nil m : byte m -> bits m = [] <-> m = 0%N.
Proof.
  intros Hm. split; [|by intros ->].
  pose proof (byte_all (fun m => (m =? 0)%N || negb (bool_decide (bits m = []))) ltac:(by vm_compute) m Hm) as H.
  simpl in H. apply orb_true_iff in H as [H|H]; [by apply N.eqb_eq in H|].
  intros E. rewrite E in H. done.
Qed.

Lemma bits_elem m k : byte m -> k ∈ bits m <-> N.testbit m (N.of_nat k) = true.
Proof.
  intros Hm. unfold bits. rewrite elem_of_list_filter, elem_of_seq. split; [by intros [? ?]|].
  intros H. split; [done|]. split; [lia|].
  destruct (decide (k < 8)) as [L|L]; [lia|].
  exfalso. rewrite N.bits_above_log2 in H; [done|].
  destruct (decide (m = 0%N)) as [->|]; [simpl; lia|].
  assert (N.log2 m < 8)%N; [|lia]. apply N.log2_lt_pow2; [lia|]. apply Hm.
Qed.

Lemma bits_nodup m : NoDup (bits m).
Proof. apply list.NoDup_filter, NoDup_ListNoDup, seq_NoDup. Qed.

Lemma bits_lt m k : k ∈ bits m -> k < 8.
Proof. unfold bits. rewrite elem_of_list_filter, elem_of_seq. lia. Qed.

Lemma mask_bits_ok m fuel : byte m -> length (bits m) < fuel -> mask_bits fuel m = Ok (bits m).
Proof.
  revert m. induction fuel as [|fuel IH]; intros m Hm HL; [lia|]. cbn [mask_bits].
  destruct (N.eqb_spec m 0) as [->|Hn]; [done|].
  destruct (first_bit_bits m Hm Hn) as (k & b & -> & E2 & E3 & E4 & _). cbn [rbind]. rewrite E2. cbn [rbind].
  rewrite E3 in HL |- *. simpl in HL. rewrite IH by (done || lia). done.
Qed.

Lemma bits_length m : length (bits m) <= 8.
Proof. unfold bits. etrans; [apply filter_length|]. by rewrite seq_length. Qed.

Lemma mask_bits_9 m : byte m -> mask_bits 9 m = Ok (bits m).
Proof. intros. apply mask_bits_ok; [done|]. pose proof (bits_length m). lia. Qed.

Lemma mask_bit_ok k : k < 8 -> mask_bit k = Ok (N.shiftl 1 (N.of_nat k)).
Proof. intros H. do 8 (destruct k as [|k]; [done|]). lia. Qed.

Lemma mask_bit_inv k b : mask_bit k = Ok b -> k < 8 /\ b = N.shiftl 1 (N.of_nat k).
Proof.
  intros H. destruct (decide (k < 8)) as [L|L].
  - rewrite mask_bit_ok in H by done. by injection H as <-.
  - exfalso. unfold mask_bit, vget in H. rewrite lookup_ge_None_2 in H; [done|]. simpl. lia.
Qed.

Lemma onebit_spec k j : N.testbit (N.shiftl 1 (N.of_nat k)) (N.of_nat j) = bool_decide (j = k).
Proof.
  rewrite N.shiftl_1_l, N.pow2_bits_eqb. destruct (N.eqb_spec (N.of_nat k) (N.of_nat j)) as [E|E].
  - rewrite bool_decide_true by lia. done.
  - rewrite bool_decide_false by lia. done.
Qed.

Lemma onebit_byte k : k < 8 -> byte (N.shiftl 1 (N.of_nat k)).
Proof. intros H. do 8 (destruct k as [|k]; [done|]). lia. Qed.

Lemma byte_lor a b : byte a -> byte b -> byte (N.lor a b).
Proof.
  unfold byte. intros Ha Hb. destruct (decide (N.lor a b = 0%N)) as [->|]; [done|].
  change 256%N with (2 ^ 8)%N. apply N.log2_lt_pow2; [lia|]. rewrite N.log2_lor.
  assert (G : forall c, (c < 256 -> N.log2 c < 8)%N).
  { intros c Hc. destruct (decide (c = 0%N)) as [->|]; [done|]. apply N.log2_lt_pow2; [lia|done]. }
  apply N.max_lub_lt; by apply G.
Qed.

Lemma byte_sub a b : (forall j, N.testbit b j = true -> N.testbit a j = true) -> byte a -> byte b.
Proof.
  unfold byte. intros Hs Ha. destruct (decide (b = 0%N)) as [->|Hb]; [done|].
  change 256%N with (2 ^ 8)%N. apply N.log2_lt_pow2; [lia|].
  pose proof (Hs _ (N.bit_log2 b Hb)) as Ht.
  destruct (decide (N.log2 b < 8)%N) as [?|L]; [done|]. exfalso.
  destruct (decide (a = 0%N)) as [->|Ha']; [by rewrite N.bits_0 in Ht|].
  rewrite N.bits_above_log2 in Ht; [done|].
  assert (N.log2 a < 8)%N by (apply N.log2_lt_pow2; [lia|done]). lia.
Qed.
Lemma byte_land a b : byte a -> byte (N.land a b).
Proof. apply byte_sub. intros j. rewrite N.land_spec. by intros [? ?]%andb_true_iff. Qed.
Lemma byte_ldiff a b : byte a -> byte (N.ldiff a b).
Proof. apply byte_sub. intros j. rewrite N.ldiff_spec. by intros [? ?]%andb_true_iff. Qed.

(** bit [k] of entry [i] of a mask array; absent entries have no bits *)
Definition mbit (mem : list N) (i k : nat) : bool :=
  match mem !! i with Some m => N.testbit m (N.of_nat k) | None => false end.
Definition bytes (mem : list N) : Prop := Forall byte mem.

Lemma bytes_lookup mem i m : bytes mem -> mem !! i = Some m -> byte m.
Proof. intros H E. by apply (proj1 (Forall_lookup _ _) H i m). Qed.

Lemma bytes_replicate n : bytes (replicate n 0%N).
Proof. by apply Forall_replicate. Qed.

Lemma mbit_replicate n i k : mbit (replicate n 0%N) i k = false.
Proof.
  unfold mbit. destruct (replicate n 0%N !! i) as [m|] eqn:E; [|done].
  apply lookup_replicate in E as [-> _]. by rewrite N.bits_0.
Qed.

Lemma mor_ok mem i k : i < length mem -> bytes mem -> k < 8 ->
  exists mem', mor mem i (N.shiftl 1 (N.of_nat k)) = Ok mem' /\ length mem' = length mem /\ bytes mem' /\
    forall j l, mbit mem' j l = mbit mem j l || bool_decide (j = i /\ l = k).
Proof.
  intros Hi Hb Hk. destruct (lookup_lt_is_Some_2 _ _ Hi) as [m Em].
  exists (<[i := N.lor m (N.shiftl 1 (N.of_nat k))]> mem).
  unfold mor, vget, vset. rewrite Em. cbn [rbind]. split_and!.
  - done.
  - by rewrite insert_length.
  - apply Forall_insert; [done|]. apply byte_lor; [by eapply bytes_lookup|by apply onebit_byte].
  - intros j l. unfold mbit. destruct (decide (j = i)) as [->|Hn].
    + rewrite list_lookup_insert by done. rewrite Em, N.lor_spec, onebit_spec.
      f_equal. apply bool_decide_ext. naive_solver.
    + rewrite list_lookup_insert_ne by done. rewrite bool_decide_false by naive_solver. by rewrite orb_false_r.
Qed.

Lemma mclear_ok mem i k : i < length mem -> bytes mem ->
  exists mem', mclear mem i (N.shiftl 1 (N.of_nat k)) = Ok mem' /\ length mem' = length mem /\ bytes mem' /\
    forall j l, mbit mem' j l = mbit mem j l && negb (bool_decide (j = i /\ l = k)).
Proof.
  intros Hi Hb. destruct (lookup_lt_is_Some_2 _ _ Hi) as [m Em].
  exists (<[i := N.ldiff m (N.shiftl 1 (N.of_nat k))]> mem).
  unfold mclear, vget, vset. rewrite Em. cbn [rbind]. split_and!.
  - done.
  - by rewrite insert_length.
  - apply Forall_insert; [done|]. apply byte_ldiff. by eapply bytes_lookup.
  - intros j l. unfold mbit. destruct (decide (j = i)) as [->|Hn].
    + rewrite list_lookup_insert by done. rewrite Em, N.ldiff_spec, onebit_spec.
      f_equal. f_equal. apply bool_decide_ext. naive_solver.
    + rewrite list_lookup_insert_ne by done. rewrite (bool_decide_false (j = i /\ l = k)) by naive_solver. by rewrite andb_true_r.
Qed.

Lemma mand_ok mem i m : i < length mem -> bytes mem ->
  exists mem', mand mem i m = Ok mem' /\ length mem' = length mem /\ bytes mem' /\
    forall j l, mbit mem' j l = mbit mem j l && (bool_decide (j <> i) || N.testbit m (N.of_nat l)).
Proof.
  intros Hi Hb. destruct (lookup_lt_is_Some_2 _ _ Hi) as [x Em].
  exists (<[i := N.land x m]> mem).
  unfold mand, vget, vset. rewrite Em. cbn [rbind]. split_and!.
  - done.
  - by rewrite insert_length.
  - apply Forall_insert; [done|]. apply byte_land. by eapply bytes_lookup.
  - intros j l. unfold mbit. destruct (decide (j = i)) as [->|Hn].
    + rewrite list_lookup_insert by done. rewrite Em, N.land_spec.
      rewrite bool_decide_false by naive_solver. done.
    + rewrite list_lookup_insert_ne by done. rewrite (bool_decide_true (j <> i)) by done. by rewrite andb_true_r.
Qed.

Lemma mbit_bits mem i m k : bytes mem -> mem !! i = Some m -> k ∈ bits m <-> mbit mem i k = true.
Proof. intros Hb E. rewrite bits_elem by (by eapply bytes_lookup). unfold mbit. by rewrite E. Qed.

Lemma mbit_lt mem i k : bytes mem -> mbit mem i k = true -> k < 8 /\ i < length mem.
Proof.
  intros Hb. unfold mbit. destruct (mem !! i) as [m|] eqn:E; [|done]. intros H.
  split; [|by eapply lookup_lt_Some]. apply (bits_lt m). by rewrite bits_elem by (by eapply bytes_lookup).
Qed.
