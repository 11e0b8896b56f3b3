(** The density of a packing: rectangles are counted by their unit squares. *)
From Coq Require Import QArith Lia Lqa.
From stdpp Require Import base list numbers list_numbers.
From Verif Require Import Base RpackModel SpecLayoutGen SpecRpack RpackProofs.

Definition cells (r : rectangle) : list (Z * Z) :=
  let '((x, y), (w, h)) := r in flat_map (fun a => (fun b => (a, b)) <$> seqZ y h) (seqZ x w).
Lemma elem_of_flat_map {A B} (f : A -> list B) l b : b ∈ flat_map f l <-> exists a, a ∈ l /\ b ∈ f a.
Proof. rewrite elem_of_list_In, in_flat_map. setoid_rewrite elem_of_list_In. done. Qed.
Lemma NoDup_flat_map {A B} (f : A -> list B) l : NoDup l -> (forall a, a ∈ l -> NoDup (f a)) ->
  (forall a a' b, a ∈ l -> a' ∈ l -> b ∈ f a -> b ∈ f a' -> a = a') -> NoDup (flat_map f l).
Proof.
  intros HN. induction HN as [|a l Ha HN IH]; intros H1 H2; simpl; [constructor|].
  apply NoDup_app. split; [apply H1; by left|]. split.
  - intros b Hb Hb'. apply elem_of_flat_map in Hb' as (a' & Ha' & Hb').
    assert (a = a') by (eapply H2; [by left|by right|exact Hb|exact Hb']). by subst.
  - apply IH; [intros; apply H1; by right|]. intros a1 a2 b ? ?. apply H2; by right.
Qed.
Lemma elem_of_cells r ab : ab ∈ cells r <-> covers r ab.
Proof.
  destruct r as [[x y] [w h]], ab as [a b]. unfold cells, covers. rewrite elem_of_flat_map. simpl. split.
  - intros (a' & Ha & Hb). apply elem_of_seqZ in Ha. apply elem_of_list_fmap in Hb as (b' & E & Hb).
    apply elem_of_seqZ in Hb. simplify_eq. lia.
  - intros [Ha Hb]. exists a. split; [by apply elem_of_seqZ|]. apply elem_of_list_fmap. exists b. split; [done|]. by apply elem_of_seqZ.
Qed.
Lemma NoDup_cells r : NoDup (cells r).
Proof.
  destruct r as [[x y] [w h]]. unfold cells. apply NoDup_flat_map; [apply NoDup_seqZ| |].
  - intros a _. apply NoDup_fmap_2; [|apply NoDup_seqZ]. by intros b b' [= ->].
  - intros a a' [c d] _ _ H1 H2. apply elem_of_list_fmap in H1 as (? & ? & _). apply elem_of_list_fmap in H2 as (? & ? & _). congruence.
Qed.
Lemma length_cells x y w h : (0 <= w)%Z -> (0 <= h)%Z -> Z.of_nat (length (cells ((x, y), (w, h)))) = (w * h)%Z.
Proof.
  intros Hw Hh. unfold cells.
  assert (G : forall l : list Z, Z.of_nat (length (flat_map (fun a => (fun b => (a, b)) <$> seqZ y h) l)) = (Z.of_nat (length l) * h)%Z).
  { induction l as [|a l IH]; simpl; [lia|]. rewrite app_length, fmap_length, seqZ_length, Nat2Z.inj_add, IH, Z2Nat.id by lia. lia. }
  rewrite G, seqZ_length, Z2Nat.id by lia. done.
Qed.

Definition area (sizes : list (Z * Z)) : Z := foldl (fun s wh => (s + wh.1 * wh.2)%Z) 0%Z sizes.
Lemma area_acc sizes s : foldl (fun s wh => (s + wh.1 * wh.2)%Z) s sizes = (s + area sizes)%Z.
Proof.
  unfold area. revert s. induction sizes as [|wh l IH]; intros s; simpl; [lia|]. rewrite IH, (IH (0 + _)%Z). lia.
Qed.
Lemma area_cells positions sizes : length positions = length sizes -> (forall r, r ∈ zip positions sizes -> sensible r) ->
  Z.of_nat (length (flat_map cells (zip positions sizes))) = area sizes.
Proof.
  revert sizes. induction positions as [|[x y] ps IH]; intros [|[w h] ss] Hl Hs; simplify_eq/=; [done|].
  unfold area. simpl. rewrite area_acc, app_length, Nat2Z.inj_add, IH; [|done|intros; apply Hs; by right].
  destruct (Hs ((x, y), (w, h))) as [? ?]; [by left|]. pose proof (length_cells x y w h) as HL. unfold cells in HL. rewrite HL by lia. lia.
Qed.
Lemma NoDup_all positions sizes : (forall i j, ~ clash sizes positions i j) -> NoDup (flat_map cells (zip positions sizes)).
Proof.
  unfold clash. generalize (zip positions sizes) as l. intros l. induction l as [|r l IH]; intros HC; simpl; [constructor|].
  apply NoDup_app. split; [apply NoDup_cells|]. split.
  - intros ab Hab Hab'. apply elem_of_flat_map in Hab' as (r' & [k Hk]%elem_of_list_lookup & Hr').
    apply (HC 0 (S k)). split; [done|]. exists r, r'. split; [done|]. split; [done|].
    exists ab. split; by apply elem_of_cells.
  - apply IH. intros i j (Hn & r1 & r2 & E1 & E2 & Ho). apply (HC (S i) (S j)). split; [lia|]. exists r1, r2. done.
Qed.

Section density.
  Context (sizes positions : list (Z * Z)).
  Notation rects := (zip positions sizes).
  Context (Hlen : length positions = length sizes) (Hs : forall r, r ∈ rects -> sensible r).
  Context (Hpos : forall x y wh, ((x, y), wh) ∈ rects -> (0 <= x)%Z /\ (0 <= y)%Z) (Hne : sizes <> []).
  Lemma density_spec : (forall i j, ~ clash sizes positions i j) ->
    exists W H q, bbox_size sizes positions = Ok (W, H) /\ (0 < W * H)%Z /\ packing_density sizes positions = Ok q /\
      (q * inject_Z (W * H) == inject_Z (area sizes))%Q /\ (0 < q <= 1)%Q /\
      ((q == 1)%Q <-> forall ab, covers ((0, 0), (W, H))%Z ab -> exists r, r ∈ rects /\ covers r ab).
  Proof using Hlen Hs Hpos Hne.
    intros HC. destruct (bbox_spec sizes positions Hlen) as (W & H & E & HW & HH & Hf & _).
    assert (Hr : exists r, r ∈ rects).
    { destruct (rects_at sizes positions Hlen 0) as (wh & xy & _ & _ & E'); [destruct sizes; simpl; [done|lia]|].
      eexists. by eapply elem_of_list_lookup_2. }
    assert (Hsub : forall r ab, r ∈ rects -> covers r ab -> covers ((0, 0), (W, H))%Z ab).
    { intros [[x y] [w h]] [a b] Hr' Hc. specialize (Hf _ Hr'). destruct (Hpos _ _ _ Hr'). unfold covers, fits in *. simpl in *. lia. }
    assert (HWH : (0 < W)%Z /\ (0 < H)%Z).
    { destruct Hr as [[[x y] [w h]] Hr]. specialize (Hf _ Hr). destruct (Hpos _ _ _ Hr). specialize (Hs _ Hr). simpl in *. lia. }
    assert (HP : (0 < W * H)%Z) by (apply Z.mul_pos_pos; lia).
    assert (HN := NoDup_all positions sizes HC). assert (HA := area_cells positions sizes Hlen Hs).
    assert (HB := length_cells 0 0 W H HW HH).
    assert (Hin : forall ab, ab ∈ flat_map cells rects -> ab ∈ cells ((0, 0), (W, H))%Z).
    { intros ab (r & Hr' & Hab)%elem_of_flat_map. apply elem_of_cells. apply elem_of_cells in Hab. eauto. }
    assert (Hm : flat_map cells rects ⊆+ cells ((0, 0), (W, H))%Z) by (apply NoDup_submseteq; done).
    assert (Hle := submseteq_length _ _ Hm).
    assert (Hpo : (0 < area sizes)%Z).
    { rewrite <- HA. destruct Hr as [[[x y] [w h]] Hr]. assert (Hc : (x, y) ∈ flat_map cells rects).
      { apply elem_of_flat_map. eexists. split; [exact Hr|]. apply elem_of_cells. specialize (Hs _ Hr). unfold covers. simpl in *. lia. }
      destruct (flat_map cells rects); [inversion Hc|]. simpl. lia. }
    exists W, H, (inject_Z (area sizes) / inject_Z (W * H))%Q. split; [done|]. split; [done|].
    assert (HQ : (0 < inject_Z (W * H))%Q) by (change 0%Q with (inject_Z 0); by rewrite <- Zlt_Qlt).
    assert (Hq : (inject_Z (area sizes) / inject_Z (W * H) * inject_Z (W * H) == inject_Z (area sizes))%Q) by (field; lra).
    split.
    { unfold packing_density. rewrite E. simpl. destruct (Z.eqb_spec (W * H) 0); [lia|]. done. }
    split; [done|]. assert (HL : (area sizes <= W * H)%Z) by lia. split; [split|split].
    - apply Qlt_shift_div_l; [done|]. rewrite Qmult_0_l. change 0%Q with (inject_Z 0). by rewrite <- Zlt_Qlt.
    - apply Qle_shift_div_r; [done|]. rewrite Qmult_1_l. by rewrite <- Zle_Qle.
    - intros Hq1. rewrite Hq1, Qmult_1_l in Hq. apply (proj1 (inject_Z_injective _ _)) in Hq.
      assert (HPm : flat_map cells rects ≡ₚ cells ((0, 0), (W, H))%Z) by
        (destruct (submseteq_Permutation _ _ Hm) as [k Hk]; assert (HLk := Permutation_length Hk); rewrite app_length in HLk;
         assert (Hk0 : length k = 0) by lia; apply length_zero_iff_nil in Hk0; subst k; by rewrite Hk, app_nil_r).
      intros ab Hab. apply elem_of_cells in Hab. rewrite <- HPm in Hab. apply elem_of_flat_map in Hab as (r & Hr' & Hc).
      exists r. split; [done|]. by apply elem_of_cells.
    - intros Hall. assert (Hm' : cells ((0, 0), (W, H))%Z ⊆+ flat_map cells rects).
      { apply NoDup_submseteq; [apply NoDup_cells|]. intros ab Hab. apply elem_of_cells in Hab. destruct (Hall ab Hab) as (r & Hr' & Hc).
        apply elem_of_flat_map. exists r. split; [done|]. by apply elem_of_cells. }
      apply submseteq_length in Hm'. assert (Ea : area sizes = (W * H)%Z) by lia. rewrite Ea. field. lra.
  Qed.
End density.
