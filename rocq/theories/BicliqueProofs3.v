(** The chains of a rectangle are a biclique embedding; the table of shortest rectangles. *)
From stdpp Require Import base list list_numbers numbers gmap relations.
From Verif Require Import Base BusModel BicliqueModel SpecBus CoordProofs BitProofs BundleProofs MaskProofs MaskProofs2 TopoProofs BusTop
  CliqueProofs2 CliqueProofs5 CliqueProofs6 BicliqueProofs1 BicliqueProofs2.

Section rect.
Context (t : topo) (nodes : list nat) (edges : list (nat * nat)) (lm : list N) (Hrd : ready t nodes edges lm).
Notation lq := (line_qubit (dim_x t) (shore t)).
Notation present := (segment_present (dim_x t) (shore t) nodes edges).

(** the complete lines: line and index *)
Definition slines (u : bool) (w0 n z0 z1 : nat) : list (nat * nat) :=
  seq w0 n ≫= fun w => (fun k => (w, k)) <$> bits (lmask t lm u w z0 z1).
Lemma slines_S u w0 n z0 z1 : slines u w0 (S n) z0 z1 = slines u w0 n z0 z1 ++ ((fun k => (w0 + n, k)) <$> bits (lmask t lm u (w0 + n) z0 z1)).
Proof. unfold slines. rewrite seq_S, bind_app. simpl. by rewrite app_nil_r. Qed.
Lemma slines_length u w0 n z0 a : 1 <= a -> length (slines u w0 n z0 (z0 + a - 1)) = lsum t lm u a n z0 w0.
Proof.
  intros Ha. induction n as [|n IH]; [done|]. rewrite slines_S, app_length, IH, lsum_S, fmap_length. done.
Qed.
Lemma slines_elem u w0 n z0 z1 w k : (w, k) ∈ slines u w0 n z0 z1 <-> w0 <= w < w0 + n /\ k ∈ bits (lmask t lm u w z0 z1).
Proof.
  unfold slines. rewrite elem_of_list_bind. split.
  - intros (w' & (k' & [= -> ->] & Hk)%elem_of_list_fmap & Hw%elem_of_seq). done.
  - intros [Hw Hk]. exists w. split; [apply elem_of_list_fmap; by exists k|by apply elem_of_seq].
Qed.
Lemma bits_nodup m : NoDup (bits m).
Proof. unfold bits. apply NoDup_filter. rewrite NoDup_ListNoDup. apply seq_NoDup. Qed.
Lemma slines_nodup u w0 n z0 z1 : NoDup (slines u w0 n z0 z1).
Proof.
  induction n as [|n IH]; [constructor|]. rewrite slines_S. apply NoDup_app. split_and!; [done| |].
  - intros [w k] [Hw _]%slines_elem (k' & [= -> _] & _)%elem_of_list_fmap. lia.
  - apply NoDup_fmap_2_strong; [|apply bits_nodup]. intros k k' _ _ [=]. done.
Qed.

Section lines.
Context (line : liner).
Definition chains_of (u : bool) (z0 z1 : nat) (l : list (nat * nat)) : list (list nat) := (fun wk => line u wk.1 z0 z1 wk.2) <$> l.
Lemma side_ok u y0 y1 x0 x1 emb : y0 <= y1 < dim_y t -> x0 <= x1 < dim_x t ->
  side_inflate t line lm u y0 y1 x0 x1 emb = Ok (emb ++
    if u then chains_of true x0 x1 (slines true y0 (S y1 - y0) x0 x1) else chains_of false y0 y1 (slines false x0 (S x1 - x0) y0 y1)).
Proof using Hrd.
  intros Hy Hx. unfold side_inflate.
  assert (G : forall w0 w1 z0 z1, w0 <= w1 < dim_w t u -> z0 <= z1 < dim_z t u ->
    foldM (fun emb w =>
      let! k := get_line_mask t lm u w z0 z1 in
      let! ks := mask_bits 9 k in
      Ok (emb ++ ((fun k => line u w z0 z1 k) <$> ks))) (seq w0 (S w1 - w0)) emb = Ok (emb ++ chains_of u z0 z1 (slines u w0 (S w1 - w0) z0 z1))).
  { intros w0 w1 z0 z1 Hw Hz.
    assert (HK : w0 + (S w1 - w0) <= dim_w t u) by lia. revert HK. generalize (S w1 - w0) as n. intros n Hn.
    induction n as [|n IH]; [by rewrite app_nil_r|]. rewrite seq_S, foldM_app, IH by lia. cbn [rbind foldM].
    destruct (get_line_ok t lm (rd_len _ _ _ _ Hrd) (rd_bytes _ _ _ _ Hrd) u (w0 + n) z0 z1) as [E B]; [lia..|].
    rewrite E. cbn [rbind]. rewrite mask_bits_9 by done. cbn [rbind].
    rewrite slines_S. unfold chains_of. rewrite fmap_app, <- list_fmap_compose, app_assoc. done. }
  destruct u; apply G; simpl; lia.
Qed.

Definition rect_emb (y0 y1 x0 x1 : nat) : list (list nat) :=
  chains_of false y0 y1 (slines false x0 (S x1 - x0) y0 y1) ++ chains_of true x0 x1 (slines true y0 (S y1 - y0) x0 x1).
Lemma rect_ok y0 y1 x0 x1 : y0 <= y1 < dim_y t -> x0 <= x1 < dim_x t -> rect_inflate t line lm y0 y1 x0 x1 [] = Ok (rect_emb y0 y1 x0 x1).
Proof using Hrd.
  intros Hy Hx. unfold rect_inflate. rewrite side_ok by done. cbn [rbind]. rewrite side_ok by done. done.
Qed.

End lines.

Notation line := (chimera_line t).
Lemma line_good u w z0 z1 k : w < dim_w t u -> z0 <= z1 < dim_z t u -> k < shore t -> present u w z0 z1 k -> good_chain nodes edges (line u w z0 z1 k).
Proof using.
  intros Hw Hz Hk HP. split_and!.
  - intros E. apply (f_equal length) in E. rewrite line_length in E. simpl in E. lia.
  - apply line_nodup; lia.
  - intros q (z & Hz' & ->)%line_elem. by apply HP.
  - intros p q (z & Hz1 & ->)%line_elem (z' & Hz2 & ->)%line_elem. etrans.
    + apply step_sym. eapply line_reach; [exact HP|done|done].
    + eapply line_reach; [exact HP|done|done].
Qed.

Lemma slines_present u w0 w1 z0 z1 w k : w0 <= w1 < dim_w t u -> z0 <= z1 < dim_z t u ->
  (w, k) ∈ slines u w0 (S w1 - w0) z0 z1 <-> w0 <= w <= w1 /\ k < shore t /\ present u w z0 z1 k.
Proof using Hrd.
  intros Hw Hz. rewrite slines_elem. split.
  - intros [H1 H2]. split; [lia|]. apply (rd_lines _ _ _ _ Hrd) in H2; [done|lia..].
  - intros [H1 H2]. split; [lia|]. apply (rd_lines _ _ _ _ Hrd); [lia..|done].
Qed.
Lemma lines_through_ok u w0 w1 z0 z1 : w0 <= w1 < dim_w t u -> z0 <= z1 < dim_z t u ->
  lines_through (dim_x t) (shore t) nodes edges u w0 w1 z0 z1 (lsum t lm u (z1 - z0 + 1) (w1 - w0 + 1) z0 w0).
Proof using Hrd.
  intros Hw Hz. exists (slines u w0 (S w1 - w0) z0 z1). split_and!.
  - apply slines_nodup.
  - replace z1 with (z0 + (z1 - z0 + 1) - 1) at 1 by lia. rewrite slines_length by lia. f_equal; lia.
  - intros w k. by apply slines_present.
Qed.
Lemma rect_offers y0 y1 x0 x1 : y0 <= y1 < dim_y t -> x0 <= x1 < dim_x t ->
  rectangle_offers (dim_x t) (shore t) nodes edges y0 y1 x0 x1 (rcount t lm false y0 y1 x0 x1) (rcount t lm true y0 y1 x0 x1).
Proof using Hrd. intros Hy Hx. split; apply lines_through_ok; simpl; lia. Qed.
Lemma lines_unique n s nds eds u w0 w1 z0 z1 a b : lines_through n s nds eds u w0 w1 z0 z1 a -> lines_through n s nds eds u w0 w1 z0 z1 b -> a = b.
Proof using.
  intros (l & N & <- & H) (l' & N' & <- & H'). apply Permutation_length, NoDup_Permutation; [done..|]. intros [w k]. by rewrite H, H'.
Qed.

Lemma rcount_le u y0 y1 x0 x1 : y0 <= y1 < dim_y t -> x0 <= x1 < dim_x t -> rcount t lm u y0 y1 x0 x1 <= (if u then dim_y t else dim_x t) * shore t.
Proof using Hrd.
  intros Hy Hx.
  assert (G : forall u a b p l, 1 <= a -> p + a <= dim_z t u -> l + b <= dim_w t u -> lsum t lm u a b p l <= b * shore t).
  { intros u' a b p l Ha Hp Hl. induction b as [|b IH]; [unfold lsum, sum_to; simpl; lia|]. rewrite lsum_S. specialize (IH ltac:(lia)).
    enough (ls t lm u' a p (l + b) <= shore t) by lia. unfold ls. rewrite <- (seq_length (shore t) 0).
    apply submseteq_length, NoDup_submseteq; [apply bits_nodup|]. intros k Hk. apply (rd_lines _ _ _ _ Hrd) in Hk; [|lia..].
    apply elem_of_seq. lia. }
  unfold rcount. destruct u.
  - pose proof (G true (x1 - x0 + 1) (y1 - y0 + 1) x0 y0 ltac:(lia) ltac:(simpl; lia) ltac:(simpl; lia)). nia.
  - pose proof (G false (y1 - y0 + 1) (x1 - x0 + 1) y0 x0 ltac:(lia) ltac:(simpl; lia) ltac:(simpl; lia)). nia.
Qed.

Lemma rect_biclique y0 y1 x0 x1 : y0 <= y1 < dim_y t -> x0 <= x1 < dim_x t ->
  biclique_embedding nodes edges (rcount t lm false y0 y1 x0 x1) (rcount t lm true y0 y1 x0 x1) (rect_emb line y0 y1 x0 x1) /\
  (forall i ch, rect_emb line y0 y1 x0 x1 !! i = Some ch -> length ch = if i <? rcount t lm false y0 y1 x0 x1 then y1 - y0 + 1 else x1 - x0 + 1).
Proof using Hrd.
  intros Hy Hx.
  set (V := slines false x0 (S x1 - x0) y0 y1). set (H := slines true y0 (S y1 - y0) x0 x1).
  assert (LV : length (chains_of line false y0 y1 V) = rcount t lm false y0 y1 x0 x1).
  { unfold chains_of, V. rewrite fmap_length. replace y1 with (y0 + (y1 - y0 + 1) - 1) at 1 by lia. rewrite slines_length by lia. unfold rcount. f_equal; lia. }
  assert (LH : length (chains_of line true x0 x1 H) = rcount t lm true y0 y1 x0 x1).
  { unfold chains_of, H. rewrite fmap_length. replace x1 with (x0 + (x1 - x0 + 1) - 1) at 1 by lia. rewrite slines_length by lia. unfold rcount. f_equal; lia. }
  assert (PV : forall w k, (w, k) ∈ V <-> x0 <= w <= x1 /\ k < shore t /\ present false w y0 y1 k) by (intros; apply slines_present; simpl; lia).
  assert (PH : forall w k, (w, k) ∈ H <-> y0 <= w <= y1 /\ k < shore t /\ present true w x0 x1 k) by (intros; apply slines_present; simpl; lia).
  assert (IV : forall i c, chains_of line false y0 y1 V !! i = Some c -> exists w k, V !! i = Some (w, k) /\ c = line false w y0 y1 k).
  { intros i c. unfold chains_of. rewrite list_lookup_fmap. destruct (V !! i) as [[w k]|] eqn:E; [|done]. intros [= <-]. by exists w, k. }
  assert (IH : forall i c, chains_of line true x0 x1 H !! i = Some c -> exists w k, H !! i = Some (w, k) /\ c = line true w x0 x1 k).
  { intros i c. unfold chains_of. rewrite list_lookup_fmap. destruct (H !! i) as [[w k]|] eqn:E; [|done]. intros [= <-]. by exists w, k. }
  assert (DJ : forall u w k z0 z1 u' w' k' z0' z1', w < dim_w t u -> z1 < dim_z t u -> w' < dim_w t u' -> z1' < dim_z t u' -> k < shore t -> k' < shore t ->
     (u, w, k) <> (u', w', k') -> line u w z0 z1 k ## line u' w' z0' z1' k').
  { intros u w k z0 z1 u' w' k' z0' z1' ? ? ? ? ? ? Hne q (z & Hz & ->)%line_elem (z' & Hz' & E)%line_elem.
    apply line_qubit_inj in E; [|lia..]. congruence. }
  unfold rect_emb. fold V H. split; [split_and!|].
  - by rewrite app_length, LV, LH.
  - intros c [Hc|Hc]%elem_of_app; apply elem_of_list_lookup in Hc as [i Hi].
    + apply IV in Hi as (w & k & E & ->). apply elem_of_list_lookup_2, PV in E as (? & ? & ?). apply line_good; simpl; (done || lia).
    + apply IH in Hi as (w & k & E & ->). apply elem_of_list_lookup_2, PH in E as (? & ? & ?). apply line_good; simpl; (done || lia).
  - intros i j c d Hij Hc Hd.
    apply lookup_app_Some in Hc as [Hc|[Hi Hc]]; apply lookup_app_Some in Hd as [Hd|[Hj Hd]].
    + apply IV in Hc as (w & k & E & ->). apply IV in Hd as (w' & k' & E' & ->).
      pose proof (elem_of_list_lookup_2 _ _ _ E) as (? & ? & _)%PV. pose proof (elem_of_list_lookup_2 _ _ _ E') as (? & ? & _)%PV.
      apply DJ; simpl; try lia. intros [= <- <-]. destruct Hij. exact (NoDup_lookup _ _ _ _ (slines_nodup _ _ _ _ _) E E').
    + apply IV in Hc as (w & k & E & ->). apply IH in Hd as (w' & k' & E' & ->).
      pose proof (elem_of_list_lookup_2 _ _ _ E) as (? & ? & _)%PV. pose proof (elem_of_list_lookup_2 _ _ _ E') as (? & ? & _)%PH.
      apply DJ; simpl; try lia. done.
    + apply IH in Hc as (w & k & E & ->). apply IV in Hd as (w' & k' & E' & ->).
      pose proof (elem_of_list_lookup_2 _ _ _ E) as (? & ? & _)%PH. pose proof (elem_of_list_lookup_2 _ _ _ E') as (? & ? & _)%PV.
      apply DJ; simpl; try lia. done.
    + apply IH in Hc as (w & k & E & ->). apply IH in Hd as (w' & k' & E' & ->).
      pose proof (elem_of_list_lookup_2 _ _ _ E) as (? & ? & _)%PH. pose proof (elem_of_list_lookup_2 _ _ _ E') as (? & ? & _)%PH.
      apply DJ; simpl; try lia. intros [= <- <-]. pose proof (NoDup_lookup _ _ _ _ (slines_nodup _ _ _ _ _) E E'). lia.
  - intros i j c d Hi Hj Hc Hd. rewrite lookup_app_l in Hc by lia. rewrite lookup_app_r in Hd by lia.
    apply IV in Hc as (w & k & E & ->). apply IH in Hd as (w' & k' & E' & ->).
    apply elem_of_list_lookup_2, PV in E as (? & ? & P1). apply elem_of_list_lookup_2, PH in E' as (? & ? & P2).
    exists (lq false w w' k), (lq true w' w k'). split_and!; [apply line_elem; by exists w'|apply line_elem; by exists w|].
    unfold line_qubit. apply (rd_full _ _ _ _ Hrd); [lia..| |].
    + destruct P1 as [P1 _]. by apply (P1 w').
    + destruct P2 as [P2 _]. by apply (P2 w).
  - intros i ch Hc. destruct (Nat.ltb_spec i (rcount t lm false y0 y1 x0 x1)) as [Hi|Hi].
    + rewrite lookup_app_l in Hc by lia. apply IV in Hc as (w & k & _ & ->). rewrite line_length. lia.
    + rewrite lookup_app_r in Hc by lia. apply IH in Hc as (w & k & _ & ->). rewrite line_length. lia.
Qed.
End rect.
