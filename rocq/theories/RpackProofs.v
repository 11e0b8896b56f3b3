(** Proofs about the checks of packings. *)
From Coq Require Import QArith Lia Lqa.
From stdpp Require Import base list numbers list_numbers.
From Verif Require Import Base RpackModel SpecLayoutGen SpecRpack.

Lemma overlap_dec (x y w h x' y' w' h' : Z) : (0 < w)%Z -> (0 < h)%Z -> (0 < w')%Z -> (0 < h')%Z ->
  negb (((x + w <=? x') || (x' + w' <=? x)) || ((y + h <=? y') || (y' + h' <=? y)))%Z = true <->
  overlap ((x, y), (w, h)) ((x', y'), (w', h')).
Proof.
  intros Hw Hh Hw' Hh'. rewrite negb_true_iff, !orb_false_iff, !Z.leb_gt. unfold overlap, covers. split.
  - intros [[? ?] [? ?]]. exists (Z.max x x', Z.max y y'). simpl. lia.
  - intros [[a b] H]. simpl in H. lia.
Qed.

  Lemma seq_split n js1 j js2 a : seq a n = js1 ++ j :: js2 -> forall j', a <= j' < j -> j' ∈ js1.
  Proof.
    intros E j' Hj'. assert (Hl : j = a + length js1).
    { assert (F : seq a n !! length js1 = Some j) by (rewrite E; apply list_lookup_middle; done).
      apply lookup_seq in F. lia. }
    assert (Hn : length js1 < n) by (apply (f_equal length) in E; rewrite seq_length, app_length in E; simpl in E; lia).
    assert (F : seq a n !! (j' - a) = Some j') by (apply lookup_seq; lia).
    rewrite E, lookup_app_l in F by lia. by apply elem_of_list_lookup_2 in F.
  Qed.


Section rects.
  Context (sizes positions : list (Z * Z)).
  Notation rects := (zip positions sizes).
  Context (Hlen : length positions = length sizes) (Hs : forall r, r ∈ rects -> sensible r).

  Lemma rects_at i : i < length sizes ->
    exists wh xy, sizes !! i = Some wh /\ positions !! i = Some xy /\ rects !! i = Some (xy, wh).
  Proof using Hlen.
    intros H. destruct (lookup_lt_is_Some_2 sizes i H) as [wh E]. destruct (lookup_lt_is_Some_2 positions i) as [xy E']; [lia|].
    exists wh, xy. split; [done|]. split; [done|]. apply lookup_zip_with_Some. eauto.
  Qed.
  Definition clash (i j : nat) : Prop := i <> j /\ exists r r', rects !! i = Some r /\ rects !! j = Some r' /\ overlap r r'.

  Lemma row_spec i wh xy js : sizes !! i = Some wh -> positions !! i = Some xy -> (forall j, j ∈ js -> j < length sizes) ->
    (overlapping_row sizes positions i wh.1 wh.2 xy.1 xy.2 js = Ok None /\ forall j, j ∈ js -> ~ clash i j) \/
    exists js1 j js2, js = js1 ++ j :: js2 /\ overlapping_row sizes positions i wh.1 wh.2 xy.1 xy.2 js = Ok (Some (i, j)) /\
      clash i j /\ forall j', j' ∈ js1 -> ~ clash i j'.
  Proof using Hlen Hs.
    intros Ei Ei'. assert (Er : rects !! i = Some (xy, wh)) by (apply lookup_zip_with_Some; eauto).
    induction js as [|j js IH]; intros Hj; simpl.
    { left. split; [done|]. intros j Hj0. inversion Hj0. }
    destruct IH as [[E IH]|(js1 & j0 & js2 & -> & E & Hc & IH)]; [intros; apply Hj; by right| |].
    all: destruct (Nat.eqb_spec j i) as [->|Hn].
    - left. split; [done|]. intros j' [->|?]%elem_of_cons; [intros [? _]; done|by apply IH].
    - destruct (rects_at j) as (wh' & xy' & E1 & E2 & E3); [apply Hj; by left|]. unfold item. rewrite E1, E2. simpl.
      assert (S1 := Hs _ (elem_of_list_lookup_2 _ _ _ Er)). assert (S2 := Hs _ (elem_of_list_lookup_2 _ _ _ E3)).
      destruct wh as [w h], xy as [x y], wh' as [w' h'], xy' as [x' y']. simpl in *.
      pose proof (overlap_dec x y w h x' y' w' h') as HD. destruct S1, S2. specialize (HD ltac:(done) ltac:(done) ltac:(done) ltac:(done)).
      destruct (negb _) eqn:En.
      + right. exists [], j, js. split; [done|]. split; [done|]. split.
        * split; [done|]. eexists _, _. split; [exact Er|]. split; [exact E3|]. by apply HD.
        * intros j' Hj'. inversion Hj'.
      + left. split; [done|]. intros j' [->|?]%elem_of_cons; [|by apply IH].
        intros (_ & r & r' & F1 & F2 & F3). rewrite Er in F1. rewrite E3 in F2. simplify_eq. apply HD in F3. done.
    - right. exists (i :: js1), j0, js2. split; [done|]. split; [done|]. split; [done|].
      intros j' [->|?]%elem_of_cons; [intros [? _]; done|by apply IH].
    - destruct (rects_at j) as (wh' & xy' & E1 & E2 & E3); [apply Hj; by left|]. unfold item. rewrite E1, E2. simpl.
      assert (S1 := Hs _ (elem_of_list_lookup_2 _ _ _ Er)). assert (S2 := Hs _ (elem_of_list_lookup_2 _ _ _ E3)).
      destruct wh as [w h], xy as [x y], wh' as [w' h'], xy' as [x' y']. simpl in *.
      pose proof (overlap_dec x y w h x' y' w' h') as HD. destruct S1, S2. specialize (HD ltac:(done) ltac:(done) ltac:(done) ltac:(done)).
      destruct (negb _) eqn:En; right.
      + exists [], j, (js1 ++ j0 :: js2). split; [done|]. split; [done|]. split.
        * split; [done|]. eexists _, _. split; [exact Er|]. split; [exact E3|]. by apply HD.
        * intros j' Hj'. inversion Hj'.
      + exists (j :: js1), j0, js2. split; [done|]. split; [done|]. split; [done|].
        intros j' [->|?]%elem_of_cons; [|by apply IH].
        intros (_ & r & r' & F1 & F2 & F3). rewrite Er in F1. rewrite E3 in F2. simplify_eq. apply HD in F3. done.
  Qed.

  Lemma rows_spec n a : a + n = length sizes -> (forall i j, i < a -> ~ clash i j) ->
    (overlapping_rows sizes positions (seq a n) = Ok None /\ forall i j, ~ clash i j) \/
    exists i j, overlapping_rows sizes positions (seq a n) = Ok (Some (i, j)) /\ clash i j /\
      forall i' j', before i' j' i j -> ~ clash i' j'.
  Proof using Hlen Hs.
    revert a. induction n as [|n IH]; intros a Ha Hb; simpl.
    - left. split; [done|]. intros i j Hc. apply (Hb i j); [|done]. destruct Hc as (_ & r & _ & E & _).
      apply lookup_lt_Some in E. rewrite zip_with_length in E. lia.
    - destruct (rects_at a) as (wh & xy & E1 & E2 & E3); [lia|]. assert (J1 : item sizes a = Ok wh) by (unfold item; by rewrite E1).
      assert (J2 : item positions a = Ok xy) by (unfold item; by rewrite E2). rewrite J1, J2. simpl.
      destruct (row_spec a wh xy (seq 0 (length sizes)) E1 E2) as [[E H]|(js1 & j & js2 & Es & E & Hc & H)].
      { intros j Hj. apply elem_of_seq in Hj. lia. }
      + rewrite E. simpl. apply (IH (S a)); [lia|]. intros i j Hi Hc.
        destruct (decide (i < a)) as [|Hn]; [by apply (Hb i j)|]. replace i with a in * by lia.
        apply (H j); [|done]. apply elem_of_seq. destruct Hc as (_ & _ & r & _ & Er & _).
        apply lookup_lt_Some in Er. rewrite zip_with_length in Er. lia.
      + rewrite E. simpl. right. exists a, j. split; [done|]. split; [done|].
        intros i' j' [Hi|[-> Hj]]; [by apply Hb|]. apply H. eapply seq_split; [exact Es|lia].
  Qed.
  Lemma overlapping_spec :
    (overlapping sizes positions = Ok None /\ forall i j, ~ clash i j) \/
    exists i j, overlapping sizes positions = Ok (Some (i, j)) /\ clash i j /\
      forall i' j', before i' j' i j -> ~ clash i' j'.
  Proof using Hlen Hs. apply rows_spec; [lia|]. intros; lia. Qed.

  Definition fits (W H : Z) (r : rectangle) : Prop := let '((x, y), (w, h)) := r in (x + w <= W)%Z /\ (y + h <= H)%Z.
  Lemma bbox_spec : exists W H, bbox_size sizes positions = Ok (W, H) /\ (0 <= W)%Z /\ (0 <= H)%Z /\ (forall r, r ∈ rects -> fits W H r) /\
    forall W' H', (0 <= W')%Z -> (0 <= H')%Z -> (forall r, r ∈ rects -> fits W' H' r) -> (W <= W')%Z /\ (H <= H')%Z.
  Proof using Hlen.
    unfold bbox_size.
    destruct (foldM_inv (fun m i =>
    let! wh := item sizes i in
    let! xy := item positions i in
    let mw := if (m.1 <? wh.1 + xy.1)%Z then (wh.1 + xy.1)%Z else m.1 in
    let mh := if (m.2 <? wh.2 + xy.2)%Z then (wh.2 + xy.2)%Z else m.2 in
    Ok (mw, mh)) (fun dn (m : Z * Z) => (0 <= m.1)%Z /\ (0 <= m.2)%Z /\
      (forall i r, i ∈ dn -> rects !! i = Some r -> fits m.1 m.2 r) /\
      forall W' H', (0 <= W')%Z -> (0 <= H')%Z -> (forall r, r ∈ rects -> fits W' H' r) -> (m.1 <= W')%Z /\ (m.2 <= H')%Z)
      (seq 0 (length sizes)) (0, 0)%Z) as ([W H] & E & I1 & I2 & I3 & I4).
    - simpl. split; [lia|]. split; [lia|]. split; [intros i r Hi; inversion Hi|]. intros; lia.
    - intros dn i rest [mw mh] Es (I1 & I2 & I3 & I4). simpl in *.
      assert (Hi : i ∈ seq 0 (length sizes)) by (rewrite Es; apply elem_of_app; right; by left). apply elem_of_seq in Hi.
      destruct (rects_at i) as ([w h] & [x y] & E1 & E2 & E3); [lia|]. unfold item. rewrite E1, E2. simpl.
      eexists. split; [done|]. simpl.
      destruct (Z.ltb_spec mw (w + x)), (Z.ltb_spec mh (h + y)); simpl.
      all: split; [lia|]; split; [lia|]; split.
      all: try (intros i' r [Hi'|Hi'%elem_of_list_singleton]%elem_of_app Er;
        [specialize (I3 i' r Hi' Er); destruct r as [[x' y'] [w' h']]; simpl in *; lia
        |subst i'; rewrite E3 in Er; injection Er as <-; simpl; lia]).
      all: intros W' H' HW HH Hf; specialize (I4 W' H' HW HH Hf);
        specialize (Hf _ (elem_of_list_lookup_2 _ _ _ E3)); simpl in Hf; lia.
    - exists W, H. simpl in *. split; [done|]. split; [done|]. split; [done|]. split; [|done].
      intros r [i Er]%elem_of_list_lookup. apply (I3 i r); [|done]. apply elem_of_seq.
      apply lookup_lt_Some in Er. rewrite zip_with_length in Er. lia.
  Qed.
End rects.
