(** Paths of the dynamic program are peelings, and their chains are clique embeddings. *)
From stdpp Require Import base list list_numbers numbers gmap relations.
From Verif Require Import Base BusModel CliqueModel SpecBus CoordProofs BitProofs BundleProofs MaskProofs MaskProofs2 TopoProofs BusTop
  CliqueProofs1 CliqueProofs2 CliqueProofs3.

(** ** paths and peelings *)
Section peel.
Context (t : topo) (width : nat).
Context (Hw2 : 2 <= width) (Hwy : width <= dim_y t) (Hwx : width <= dim_x t).
Notation wd := (wd width).
Notation valid := (valid t width).
Notation path := (path t width).
Notation event := (nat * nat * nat * corner)%type.

Definition ev2ell (ev : event) : ell :=
  let '(i, y, x0, c) := ev in mkEll (yc i y c) (xc (wd i) x0 c) y (y + i) x0 (x0 + wd i).

Lemma valid_ell i y x0 c : valid i y x0 c -> ell_in (dim_y t) (dim_x t) (ev2ell (i, y, x0, c)).
Proof.
  intros (Hy & Hx & _). unfold ell_in, ev2ell. cbn. unfold yc, xc. destruct (isN c), (isW c); split_and!; lia.
Qed.

Lemma path_peels i y X L : i < width -> path i y X L ->
  length L = S i /\ (forall e, e ∈ map ev2ell L -> ell_in (dim_y t) (dim_x t) e) /\
  (forall j a b, map ev2ell L !! j = Some a -> map ev2ell L !! S j = Some b -> peels a b) /\
  exists x0 c L', L = (i, y, x0, c) :: L' /\ valid i y x0 c /\ X = tx x0 c.
Proof.
  revert y X L. induction i as [|i IH]; intros y X L Hi (x0 & c & L' & -> & V & -> & HL).
  - subst L'. split_and!; [done| | |by exists x0, c, []].
    + intros e ->%elem_of_list_singleton. by apply valid_ell.
    + intros [|j] a b _ Hb; done.
  - destruct (IH _ _ _ ltac:(lia) HL) as (H1 & H2 & H3 & (x1 & c1 & L1 & E & V1 & Ex)). split_and!.
    + simpl. by rewrite H1.
    + intros e [->|He]%elem_of_cons; [by apply valid_ell|by apply H2].
    + intros [|j] a b Ha Hb; [|by apply (H3 j a b)]. subst L'. cbn in Ha, Hb. injection Ha as <-. injection Hb as <-.
      subst x0. unfold peels, yc, xc, ty, tx, CliqueProofs2.wd. cbn. destruct (isN c), (isW c1); lia.
    + by exists x0, c, L'.
Qed.

Lemma path_peeling y X L : path (width - 1) y X L -> peeling (dim_y t) (dim_x t) width (map ev2ell L).
Proof.
  intros HP. destruct (path_peels (width - 1) y X L ltac:(lia) HP) as (H1 & H2 & H3 & (x0 & c & L' & -> & V & Ex)).
  split_and!; [rewrite map_length, H1; lia|done| |done].
  intros e [= <-]. unfold CliqueProofs2.wd. cbn. lia.
Qed.

Lemma peels_path i y X L : i < width -> length L = S i ->
  (forall e, e ∈ L -> ell_in (dim_y t) (dim_x t) e) ->
  (forall j a b, L !! j = Some a -> L !! S j = Some b -> peels a b) ->
  (forall a, L !! 0 = Some a -> e_top a = y /\ e_bot a = y + i /\ e_right a = e_left a + wd i /\
     ((S (e_left a) = X /\ e_col a = e_left a /\ i < width - 1) \/ (e_left a = X /\ e_col a = e_right a))) ->
  exists L', path i y X L' /\ map ev2ell L' = L.
Proof.
  revert y X L. induction i as [|i IH]; intros y X [|a L] Hi HL Hin Hp Ha; try done.
  - destruct L; [|done]. destruct (Ha a eq_refl) as (Et & Eb & Er & Hc).
    destruct (Hin a ltac:(left)) as (Hr & _ & Hb & Hb').
    set (c := if decide (S (e_left a) = X) then SW else SE).
    assert (Hx : X = tx (e_left a) c /\ e_col a = xc (wd 0) (e_left a) c).
    { unfold c, tx, xc. destruct (decide _); cbn; lia. }
    exists [(0, y, e_left a, c)]. split.
    + exists (e_left a), c, []. split_and!; try done; [|tauto]. split_and!; [lia|lia|].
      unfold cs. simpl. unfold c. destruct (decide _); [left|right; left].
    + cbn [map ev2ell]. f_equal. destruct a; cbn in *. destruct Hx as [_ ->]. f_equal; try lia.
      unfold yc. replace (isN c) with false; [lia|]. unfold c. by destruct (decide _).
  - destruct L as [|b L]; [done|]. destruct (Ha a eq_refl) as (Et & Eb & Er & Hc).
    destruct (Hin a ltac:(left)) as (Hr & _ & Hb & Hb'). pose proof (Hp 0 a b eq_refl eq_refl) as (Pr & Pc).
    set (c := if decide (e_row a = e_top a) then (if decide (S (e_left a) = X) then NW else NE)
              else (if decide (S (e_left a) = X) then SW else SE)).
    assert (Hx : X = tx (e_left a) c /\ e_col a = xc (wd (S i)) (e_left a) c /\ e_row a = yc (S i) y c).
    { clear Pr Pc Hb Hb'. unfold c, tx, xc, yc. destruct (decide (e_row a = e_top a)), (decide (S (e_left a) = X)); cbn;
        destruct Hr, Hc as [(? & ? & ?)|(? & ?)]; split_and!; try lia. }
    destruct (Hin b) as (_ & _ & Hbb & Hbb'). { right. left. }
    destruct (IH (ty y c) (e_left a) (b :: L)) as (L' & HP & HM).
    + lia.
    + simpl in *. lia.
    + intros e He. apply Hin. by right.
    + intros j a' b' Ha' Hb''. by apply (Hp (S j)).
    + intros b' [= <-]. clear Hx Hc. unfold ty, c. unfold CliqueProofs2.wd in *.
      assert (Ht : (if isN (if decide (e_row a = e_top a) then (if decide (S (e_left a) = X) then NW else NE)
              else (if decide (S (e_left a) = X) then SW else SE)) then S y else y) = if decide (e_row a = e_top a) then S y else y).
      { by destruct (decide (e_row a = e_top a)), (decide (S (e_left a) = X)). }
      rewrite Ht. clear Ht.
      assert (Hrow : e_top b = (if decide (e_row a = e_top a) then S y else y) /\ e_bot b = e_top b + i).
      { destruct (decide (e_row a = e_top a)); destruct Pr as [(? & ? & ?)|(? & ? & ?)]; lia. }
      destruct Hrow as [-> ->]. split_and!; [done|done| |]; destruct Pc as [(? & ? & ?)|(? & ? & ?)]; lia.
    + exists ((S i, y, e_left a, c) :: L'). split.
      * exists (e_left a), c, L'. split_and!; try done; [|tauto]. split_and!; [lia|lia|].
        unfold cs. change (S i =? 0) with false. cbv iota. destruct (Nat.eqb_spec (S i) (width - 1)).
        -- assert (HX : S (e_left a) <> X) by (destruct Hc as [(? & ? & ?)|[? ?]]; lia).
           unfold c. rewrite !(decide_False (P := S (e_left a) = X)) by done.
           destruct (decide (e_row a = e_top a)); [left|right; left].
        -- clear. destruct c; repeat (first [by left|right]).
      * cbn [map]. rewrite HM. f_equal. cbn [ev2ell]. clearbody c. clear Hp Ha Hc Hr. destruct a; cbn in *. destruct Hx as (_ & -> & ->). f_equal; congruence.
Qed.

Lemma peeling_path L : peeling (dim_y t) (dim_x t) width L -> exists y X L', path (width - 1) y X L' /\ map ev2ell L' = L.
Proof.
  intros (H1 & H2 & H3 & H4). destruct L as [|a L]; [simpl in H1; lia|]. destruct (H3 a eq_refl) as [E1 E2].
  exists (e_top a), (e_left a). apply peels_path; [lia|lia|done|done|].
  intros a' [= <-]. destruct (H2 a ltac:(left)) as (_ & Hc & _). unfold CliqueProofs2.wd. split_and!; try lia.
Qed.
End peel.
