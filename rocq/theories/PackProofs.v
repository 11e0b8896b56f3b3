(** The box that the search of rpack chooses respects the bounds. *)
From Coq Require Import ZArith Lia.
From stdpp Require Import base list numbers list_numbers.
From Verif Require Import GridModel PackModel SpecLayoutGen SpecRpack GridProofs GridProofs2.

Lemma max_of_le l m : (0 <= m)%Z -> (forall x, x ∈ l -> (x <= m)%Z) -> (max_of l <= m)%Z.
Proof.
  intros Hm. unfold max_of. induction l as [|x l IH]; intros H; simpl; [done|].
  apply Z.max_lub; [apply H; by left|apply IH; intros; apply H; by right].
Qed.
Lemma max_of_ge l x : x ∈ l -> (x <= max_of l)%Z.
Proof. unfold max_of. induction 1 as [|x y l _ IH]; simpl; lia. Qed.
Definition fine (sizes : list (Z * Z)) : Prop := sizes <> [] /\ forall w h, (w, h) ∈ sizes -> (0 < w)%Z /\ (0 < h)%Z.
Lemma fine_max1 rs : fine rs -> (0 < max_of rs.*1)%Z.
Proof.
  intros [Hn Hp]. destruct rs as [|[w h] rs]; [done|]. destruct (Hp w h); [by left|].
  assert (w <= max_of ((w, h) :: rs).*1)%Z by (apply max_of_ge; by left). lia.
Qed.
Lemma fine_max2 rs : fine rs -> (0 < max_of rs.*2)%Z.
Proof.
  intros [Hn Hp]. destruct rs as [|[w h] rs]; [done|]. destruct (Hp w h); [by left|].
  assert (h <= max_of ((w, h) :: rs).*2)%Z by (apply max_of_ge; by left). lia.
Qed.
Lemma arranged_fine order b sizes : order ≡ₚ seq 0 (length sizes) -> fine sizes -> fine (arranged order b sizes).
Proof.
  intros HO [Hn Hp]. unfold arranged. split.
  - destruct sizes as [|s sizes]; [done|]. intros E. apply fmap_nil_inv in E.
    assert (Hi : 0 ∈ order) by (rewrite HO; apply elem_of_seq; simpl; lia).
    assert (Hs : s ∈ omap (fun i => (s :: sizes) !! i) order) by (apply elem_of_list_omap; exists 0; done).
    rewrite E in Hs. inversion Hs.
  - intros w h Hi. apply elem_of_list_fmap in Hi as ([w0 h0] & E & Hi). apply elem_of_list_omap in Hi as (i & _ & Hi).
    apply elem_of_list_lookup_2, Hp in Hi. destruct b; simpl in E; simplify_eq; tauto.
Qed.

Section search.
  Context (mw mh : Z) (rs : list (Z * Z)) (Hf : fine rs).
  Definition good (b : Z * Z) : Prop := (0 < b.1 <= mw)%Z /\ (0 < b.2 <= mh)%Z.
  Lemma round_good width height gw : (0 < width <= mw)%Z -> (0 < height <= mh)%Z -> round width height rs = Some gw -> good (gw, height).
  Proof using Hf.
    intros HW HH. unfold round. destruct (grid_pack width height rs) as [ps|] eqn:E; [|done]. intros [= <-].
    destruct Hf as [Hn Hp]. destruct (grid_pack_spec width height rs ps ltac:(lia) ltac:(lia) Hp E) as (L & B & _).
    split; simpl; [|done]. split.
    - destruct rs as [|[w h] rs']; [done|]. destruct ps as [|[x y] ps]; [done|].
      destruct (B x y w h) as (? & _); [simpl; by left|]. destruct (Hp w h); [by left|].
      match goal with |- (0 < max_of ?l)%Z => assert (x + w <= max_of l)%Z by (apply max_of_ge; simpl; by left) end. lia.
    - apply max_of_le; [lia|]. intros z [k Hk]%elem_of_list_lookup. apply lookup_zip_with_Some in Hk as ([x y] & [w h] & -> & H1 & H2).
      destruct (B x y w h) as (? & ? & _); [|simpl; lia]. eapply elem_of_list_lookup_2, lookup_zip_with_Some. eauto.
  Qed.
  Lemma loop_good minw deltas a0 : (0 < minw)%Z -> (forall d, d ∈ deltas -> (0 <= d)%Z) -> forall height width area best area' best',
    (0 < height)%Z -> (width <= mw)%Z -> (area = a0 \/ good best) -> search_loop mw mh minw rs deltas height width area best = (area', best') ->
    area' = a0 \/ good best'.
  Proof using Hf.
    intros Hm. induction deltas as [|d ds IH]; intros Hd height width area best area' best' H0 H1 H2; simpl.
    { intros [= <- <-]. done. }
    destruct (Z.leb_spec height mh); simpl; [|by intros [= <- <-]].
    destruct (Z.leb_spec minw width); simpl; [|by intros [= <- <-]].
    destruct (round width height rs) as [gw|] eqn:E.
    - assert (G : good (gw, height)) by (eapply round_good; [| |exact E]; lia).
      destruct (height * gw <=? 1)%Z; [intros [= <- <-]; auto|].
      intros El. eapply IH; [| | | |exact El].
      + intros; apply Hd; by right.
      + assert (0 <= d)%Z by (apply Hd; by left). lia.
      + destruct (Z.ltb_spec mw (height * gw / (height + d))); [destruct (_ =? _)%Z|destruct (_ =? _)%Z]; lia.
      + auto.
    - intros El. eapply IH; [| | | |exact El].
      + intros; apply Hd; by right.
      + assert (0 <= d)%Z by (apply Hd; by left). lia.
      + destruct (Z.ltb_spec mw (area / (height + d))); [destruct (_ =? _)%Z|destruct (_ =? _)%Z]; lia.
      + auto.
  Qed.
  Lemma search_good area deltas b : (forall d, d ∈ deltas -> (0 <= d)%Z) -> search_bbox mw mh area rs deltas = Some b -> good b.
  Proof using Hf.
    intros Hd. unfold search_bbox. destruct (search_loop _ _ _ _ _ _ _ _ _) as [a' b'] eqn:E.
    destruct (Z.eqb_spec (area - 1) a') as [|Hn]; [done|]. intros [= <-].
    eapply (loop_good (max_of rs.*1) deltas (area - 1)%Z (fine_max1 _ Hf) Hd) in E as [?|?]; [lia|done|by apply fine_max2| |by left].
    destruct (Z.ltb_spec mw (area / max_of rs.*2)); lia.
  Qed.
End search.

Definition box_ok (mw mh : Z) (st : Z * (nat * (Z * Z))) : Prop :=
  match st.2.1 with 0 => True | 1 | 2 => good mw mh st.2.2 | _ => good mh mw st.2.2 end.
Lemma improve_ok mw mh case box st : box_ok mw mh st ->
  (forall b, box = Some b -> match case with 0 => True | 1 | 2 => good mw mh b | _ => good mh mw b end) -> box_ok mw mh (improve case box st).
Proof. intros Hs Hb. destruct box as [[w h]|]; simpl; [|done]. destruct (_ && _); [|done]. unfold box_ok. simpl. by apply Hb. Qed.
Lemma bound_spec given sum largest m : bound given sum largest = Some m ->
  (largest <= sum)%Z -> (largest <= m)%Z /\ m = (if (given <? 0)%Z then sum else given).
Proof.
  unfold bound. destruct (Z.ltb_spec given 0); [intros [= <-]; auto|]. destruct (Z.eqb_spec given 0); [done|].
  destruct (Z.ltb_spec given largest); [done|]. intros [= <-]. auto.
Qed.
Lemma max_sum l : (forall x, x ∈ l -> (0 < x)%Z) -> (0 <= max_of l <= sum_of l)%Z.
Proof.
  unfold max_of, sum_of. induction l as [|x l IH]; intros H; simpl; [lia|]. assert (0 < x)%Z by (apply H; by left).
  specialize (IH (fun y Hy => H y (elem_of_list_further _ _ _ Hy))). lia.
Qed.
Lemma pack_choice long_max o ds sizes gw gh ps : (forall k, o k ≡ₚ seq 0 (length sizes)) -> (forall k d, d ∈ ds k -> (0 <= d)%Z) -> sizes <> [] ->
  pack long_max o ds sizes gw gh = Some ps ->
  exists order rotated W H, order ≡ₚ seq 0 (length sizes) /\ (0 < W)%Z /\ (0 < H)%Z /\ pack_in order rotated W H sizes = Some ps /\
    ((if rotated then H else W) <= (if gw <? 0 then sum_of sizes.*1 else gw))%Z /\
    ((if rotated then W else H) <= (if gh <? 0 then sum_of sizes.*2 else gh))%Z.
Proof.
  intros Ho Hd Hn. unfold pack. destruct sizes as [|s0 sizes0] eqn:Es; [done|]. rewrite <- Es in *. clear Hn.
  destruct (existsb _ sizes) eqn:Eb; [done|].
  assert (Hf : fine sizes).
  { split; [by rewrite Es|]. intros w h Hi. destruct (decide ((0 < w)%Z /\ (0 < h)%Z)) as [|Hn]; [done|]. exfalso.
    assert (E : existsb (fun wh => (wh.1 <=? 0)%Z || (wh.2 <=? 0)%Z) sizes = true); [|congruence].
    apply existsb_exists. exists (w, h). split; [by apply elem_of_list_In|]. simpl. apply orb_true_iff. rewrite !Z.leb_le. lia. }
  clear Es Eb s0 sizes0.
  assert (M1 := fine_max1 _ Hf). assert (M2 := fine_max2 _ Hf).
  assert (S1 : (0 <= max_of sizes.*1 <= sum_of sizes.*1)%Z).
  { apply max_sum. intros x Hx. apply elem_of_list_fmap in Hx as ([w h] & -> & Hi). by destruct (proj2 Hf w h Hi). }
  assert (S2 : (0 <= max_of sizes.*2 <= sum_of sizes.*2)%Z).
  { apply max_sum. intros x Hx. apply elem_of_list_fmap in Hx as ([w h] & -> & Hi). by destruct (proj2 Hf w h Hi). }
  destruct (bound gw _ _) as [mw|] eqn:E1; [|done]. destruct (bound gh _ _) as [mh|] eqn:E2; [|done].
  apply bound_spec in E1 as [L1 E1]; [|lia]. apply bound_spec in E2 as [L2 E2]; [|lia]. rewrite <- E1, <- E2.
  set (st0 := (long_max, (0, (mw, mh)))).
  set (st1 := improve 1 (search_bbox mw mh st0.1 (arranged (o 0) false sizes) (ds 0)) st0).
  set (st2 := improve 2 (search_bbox mw mh st1.1 (arranged (o 1) false sizes) (ds 1)) st1).
  set (st3 := improve 3 (search_bbox mh mw st2.1 (arranged (o 1) true sizes) (ds 2)) st2).
  set (st4 := improve 4 (search_bbox mh mw st3.1 (arranged (o 2) true sizes) (ds 3)) st3).
  assert (OK : box_ok mw mh st4).
  { apply improve_ok; [|intros b; apply search_good; [by apply arranged_fine|apply Hd]].
    apply improve_ok; [|intros b; apply search_good; [by apply arranged_fine|apply Hd]].
    apply improve_ok; [|intros b; apply search_good; [by apply arranged_fine|apply Hd]].
    apply improve_ok; [done|intros b; apply search_good; [by apply arranged_fine|apply Hd]]. }
  cbv zeta. fold st0. fold st1. fold st2. fold st3. fold st4. clearbody st4. clear st3 st2 st1 st0.
  unfold box_ok in OK. destruct st4 as [a [case [w h]]]. simpl in *.
  destruct case as [|[|[|[|case]]]]; intros E; [exists (o 2), true, mh, mw|exists (o 2), false, w, h|exists (o 3), false, w, h|exists (o 4), true, w, h|exists (o 2), true, w, h].
  all: unfold good in OK; simpl in OK; (split; [apply Ho|]); (split; [lia|]); (split; [lia|]); (split; [done|]); lia.
Qed.
