(** The loops of [fragment_nodes] and [fragment_edges] as list comprehensions. *)
From stdpp Require Import base list list_numbers numbers gmap relations sorting.
From Verif Require Import Base BusModel CliqueModel FragModel DrawModel SpecBus SpecFrag SpecDraw CoordProofs BitProofs BundleProofs MaskProofs MaskProofs2 TopoProofs.

Lemma collect {A B} (f : list B * nat -> A -> res (list B * nat)) (F : A -> list B) (n : nat) l out q :
  (forall i x out, l !! i = Some x -> f (out, q + i * n) x = Ok (out ++ F x, q + i * n + n)) ->
  foldM f l (out, q) = Ok (out ++ (l ≫= F), q + length l * n).
Proof.
  revert out q. induction l as [|x l IH]; intros out q H.
  - cbn. by rewrite app_nil_r, Nat.add_0_r.
  - cbn [foldM]. pose proof (H 0 x out eq_refl) as E. rewrite Nat.mul_0_l, Nat.add_0_r in E. rewrite E. cbn [rbind].
    rewrite IH.
    + change ((x :: l) ≫= F) with (F x ++ (l ≫= F)). rewrite app_assoc. do 2 f_equal. cbn [length]. lia.
    + intros i x' out' Hx. pose proof (H (S i) x' out' Hx) as E'.
      replace (q + n + i * n) with (q + S i * n) by lia. exact E'.
Qed.

Lemma sorted_app {B} (R : B -> B -> Prop) l1 l2 : StronglySorted R l1 -> StronglySorted R l2 ->
  (forall b c, b ∈ l1 -> c ∈ l2 -> R b c) -> StronglySorted R (l1 ++ l2).
Proof.
  intros H1 H2 H. induction H1 as [|x l1 H1 IH Hx]; [done|]. cbn. constructor.
  - apply IH. intros b c Hb. apply H. by right.
  - apply Forall_app. split; [done|]. apply Forall_forall. intros c Hc. apply H; [left|done].
Qed.
Lemma sorted_bind {A B} (R : B -> B -> Prop) (Rl : A -> A -> Prop) (F : A -> list B) l : StronglySorted Rl l ->
  (forall x, x ∈ l -> StronglySorted R (F x)) ->
  (forall x y b c, x ∈ l -> y ∈ l -> Rl x y -> b ∈ F x -> c ∈ F y -> R b c) -> StronglySorted R (l ≫= F).
Proof.
  intros Hl. induction Hl as [|x l Hl IH Hx]; intros H1 H2; [constructor|]. change ((x :: l) ≫= F) with (F x ++ (l ≫= F)). apply sorted_app.
  - apply H1. left.
  - apply IH; [intros; apply H1; by right|]. intros x1 y b c Hx1 Hy. apply H2; by right.
  - intros b c Hb (y & Hc & Hy)%elem_of_list_bind. apply (H2 x y); [left|by right| |done|done].
    by apply (proj1 (Forall_forall _ _) Hx).
Qed.
Lemma sorted_seq a n : StronglySorted lt (seq a n).
Proof.
  revert a. induction n as [|n IH]; intros a; cbn; constructor; [apply IH|]. apply Forall_forall. intros x Hx%elem_of_seq. lia.
Qed.
Lemma sorted_nodup {B} (R : B -> B -> Prop) l : (forall b, ~ R b b) -> StronglySorted R l -> NoDup l.
Proof.
  intros HR Hl. induction Hl as [|x l Hl IH Hx]; constructor; [|done]. intros Hin. apply (HR x). by apply (proj1 (Forall_forall _ _) Hx).
Qed.

Section grids.
Context (t : topo).
Notation lin := (chimera_linear t).
Definition grid_list {B} (F : bool -> nat -> nat -> nat -> list B) : list B :=
  seq 0 (dim_y t) ≫= fun y => seq 0 (dim_x t) ≫= fun x => (seq 0 (shore t) ≫= F false y x) ++ (seq 0 (shore t) ≫= F true y x).
(** what is in such a list, and in what order *)
Lemma elem_of_grid {B} (F : bool -> nat -> nat -> nat -> list B) b :
  b ∈ grid_list F <-> exists u y x k, y < dim_y t /\ x < dim_x t /\ k < shore t /\ b ∈ F u y x k.
Proof.
  unfold grid_list. rewrite elem_of_list_bind. split.
  - intros (y & H & Hy%elem_of_seq). apply elem_of_list_bind in H as (x & H & Hx%elem_of_seq).
    apply elem_of_app in H as [H|H]; apply elem_of_list_bind in H as (k & H & Hk%elem_of_seq); [exists false|exists true]; exists y, x, k; (split_and!; [lia..|done]).
  - intros (u & y & x & k & Hy & Hx & Hk & H). exists y. split; [|apply elem_of_seq; lia].
    apply elem_of_list_bind. exists x. split; [|apply elem_of_seq; lia]. apply elem_of_app.
    destruct u; [right|left]; (apply elem_of_list_bind; exists k; split; [done|apply elem_of_seq; lia]).
Qed.

(** the elements of [F u y x k] come in the order of the numbers [lin y x u k] *)
Lemma sorted_grid {B} (R : B -> B -> Prop) (F : bool -> nat -> nat -> nat -> list B) :
  (forall u y x k, y < dim_y t -> x < dim_x t -> k < shore t -> StronglySorted R (F u y x k)) ->
  (forall u y x k u' y' x' k' b c, y < dim_y t -> x < dim_x t -> k < shore t -> y' < dim_y t -> x' < dim_x t -> k' < shore t ->
     lin y x u k < lin y' x' u' k' -> b ∈ F u y x k -> c ∈ F u' y' x' k' -> R b c) ->
  StronglySorted R (grid_list F).
Proof.
  intros H1 H2. unfold grid_list.
  assert (Hside : forall u y x, y < dim_y t -> x < dim_x t -> StronglySorted R (seq 0 (shore t) ≫= F u y x)).
  { intros u y x Hy Hx. apply (sorted_bind R lt); [apply sorted_seq| |].
    - intros k Hk%elem_of_seq. apply H1; lia.
    - intros k k' b c Hk%elem_of_seq Hk'%elem_of_seq Hlt. apply H2; try lia. unfold chimera_linear. lia. }
  assert (Hcell : forall y x, y < dim_y t -> x < dim_x t -> StronglySorted R ((seq 0 (shore t) ≫= F false y x) ++ (seq 0 (shore t) ≫= F true y x))).
  { intros y x Hy Hx. apply sorted_app; [by apply Hside..|].
    intros b c (k & Hb & Hk%elem_of_seq)%elem_of_list_bind (k' & Hc & Hk'%elem_of_seq)%elem_of_list_bind.
    apply (H2 false y x k true y x k' b c); try lia; try done. unfold chimera_linear, b2n. lia. }
  assert (Hin : forall b y x, x < dim_x t -> b ∈ (seq 0 (shore t) ≫= F false y x) ++ (seq 0 (shore t) ≫= F true y x) ->
    exists u k, k < shore t /\ b ∈ F u y x k).
  { intros b y x Hx [H|H]%elem_of_app; apply elem_of_list_bind in H as (k & Hb & Hk%elem_of_seq); [exists false|exists true]; exists k; (split; [lia|done]). }
  apply (sorted_bind R lt); [apply sorted_seq| |].
  - intros y Hy%elem_of_seq. apply (sorted_bind R lt); [apply sorted_seq| |].
    + intros x Hx%elem_of_seq. apply Hcell; lia.
    + intros x x' b c Hx%elem_of_seq Hx'%elem_of_seq Hlt Hb Hc. apply Hin in Hb as (u & k & Hk & Hb); [|lia]. apply Hin in Hc as (u' & k' & Hk' & Hc); [|lia].
      apply (H2 u y x k u' y x' k' b c); try lia; try done.
      unfold chimera_linear. assert (b2n u <= 1) by (destruct u; cbn; lia). nia.
  - intros y y' b c Hy%elem_of_seq Hy'%elem_of_seq Hlt Hb Hc.
    apply elem_of_list_bind in Hb as (x & Hb & Hx%elem_of_seq). apply elem_of_list_bind in Hc as (x' & Hc & Hx'%elem_of_seq).
    apply Hin in Hb as (u & k & Hk & Hb); [|lia]. apply Hin in Hc as (u' & k' & Hk' & Hc); [|lia].
    apply (H2 u y x k u' y' x' k' b c); try lia; try done.
    unfold chimera_linear. assert (b2n u <= 1) by (destruct u; cbn; lia).
    assert (x + dim_x t * y + 1 <= x' + dim_x t * y') by nia. nia.
Qed.
End grids.

Section loops.
Context (t : topo) (Hsh : shore t <= 8).
Notation lin := (chimera_linear t).

Lemma test_bit_ok mem u w z k : length mem = num_cells t -> w < dim_w t u -> z < dim_z t u -> k < 8 ->
  test_bit t mem u w z k = Ok (mbit mem (cell_index_wz t u w z) k).
Proof.
  intros L Hw Hz Hk. unfold test_bit. destruct (cell_get t mem u w z L Hw Hz) as [m Em]. rewrite (vget_ok _ _ _ Em). cbn [rbind].
  rewrite mask_bit_ok by done. cbn [rbind]. unfold mbit. rewrite Em. f_equal.
  destruct (N.testbit m (N.of_nat k)) eqn:E.
  - destruct (N.eqb_spec (N.land m (N.shiftl 1 (N.of_nat k))) 0) as [H|H]; [|done].
    apply (f_equal (fun x => N.testbit x (N.of_nat k))) in H. rewrite N.land_spec, E, N.bits_0 in H.
    by rewrite N.shiftl_1_l, N.pow2_bits_true in H.
  - destruct (N.eqb_spec (N.land m (N.shiftl 1 (N.of_nat k))) 0) as [H|H]; [done|]. exfalso. apply H.
    apply N.bits_inj. intros j. rewrite N.land_spec, N.bits_0, N.shiftl_1_l.
    destruct (N.eq_dec j (N.of_nat k)) as [->|Hj]; [by rewrite E|]. rewrite N.pow2_bits_false by done. by rewrite andb_false_r.
Qed.

(** the three nested loops *)
Lemma grid_loop {B} (f0 f1 : nat -> nat -> list B * nat -> nat -> res (list B * nat)) (F0 F1 : nat -> nat -> nat -> list B) :
  (forall y x k out, y < dim_y t -> x < dim_x t -> k < shore t -> f0 y x (out, lin y x false k) k = Ok (out ++ F0 y x k, S (lin y x false k))) ->
  (forall y x k out, y < dim_y t -> x < dim_x t -> k < shore t -> f1 y x (out, lin y x true k) k = Ok (out ++ F1 y x k, S (lin y x true k))) ->
  foldM (fun s y =>
    foldM (fun s x =>
      let! s := foldM (f0 y x) (seq 0 (shore t)) s in
      foldM (f1 y x) (seq 0 (shore t)) s) (seq 0 (dim_x t)) s) (seq 0 (dim_y t)) ([], 0) =
  Ok (seq 0 (dim_y t) ≫= fun y => seq 0 (dim_x t) ≫= fun x => (seq 0 (shore t) ≫= F0 y x) ++ (seq 0 (shore t) ≫= F1 y x),
      dim_y t * (dim_x t * (2 * shore t))).
Proof.
  intros H0 H1.
  rewrite (collect _ (fun y => seq 0 (dim_x t) ≫= fun x => (seq 0 (shore t) ≫= F0 y x) ++ (seq 0 (shore t) ≫= F1 y x)) (dim_x t * (2 * shore t)));
    [by rewrite seq_length|].
  intros y y' out [-> Hy]%lookup_seq. cbn [Nat.add] in *.
  rewrite (collect _ (fun x => (seq 0 (shore t) ≫= F0 y x) ++ (seq 0 (shore t) ≫= F1 y x)) (2 * shore t));
    [by rewrite seq_length|].
  intros x x' out' [-> Hx]%lookup_seq. cbn [Nat.add] in *.
  rewrite (collect _ (F0 y x) 1).
  - cbn [rbind]. rewrite (collect _ (F1 y x) 1).
    + rewrite seq_length, app_assoc. do 2 f_equal. lia.
    + intros k k' out1 [-> Hk]%lookup_seq. rewrite seq_length. cbn [Nat.add].
      replace (y * (dim_x t * (2 * shore t)) + x * (2 * shore t) + shore t * 1 + k * 1) with (lin y x true k) by (unfold chimera_linear, b2n; lia).
      rewrite H1 by done. do 2 f_equal. lia.
  - intros k k' out1 [-> Hk]%lookup_seq. cbn [Nat.add].
    replace (y * (dim_x t * (2 * shore t)) + x * (2 * shore t) + k * 1) with (lin y x false k) by (unfold chimera_linear, b2n; lia).
    rewrite H0 by done. do 2 f_equal. lia.
Qed.

Context (nm em bm : list N) (Ln : length nm = num_cells t) (Le : length em = num_cells t) (Lb : length bm = num_cells t * shore t).

Definition nodeF (u : bool) (y x k : nat) : list nat := if mbit nm (cell_index t y x u) k then [lin y x u k] else [].

Lemma fragment_nodes_list : fragment_nodes t nm = Ok (grid_list t nodeF).
Proof.
  unfold fragment_nodes. rewrite (grid_loop _ _ (nodeF false) (nodeF true)); [done| |];
    intros y x k out Hy Hx Hk; unfold draw_node, nodeF; rewrite test_bit_ok by (done || lia); cbn [rbind]; unfold cell_index_wz;
    destruct (mbit _ _ _); by rewrite ?app_nil_r.
Qed.

(** the couplers entered for a qubit *)
Definition backF (u : bool) (y x k : nat) : list (nat * nat) :=
  if mbit em (cell_index t y x u) k then
    [(lin y x u k, if u then lin y (x - 1) u k else lin (y - 1) x u k)] else [].
Definition crossF (y x k : nat) : list (nat * nat) :=
  if mbit nm (cell_index t y x false) k then
    seq 0 (shore t) ≫= fun l => if mbit nm (cell_index t y x true) l && negb (mbit bm (lin y x false k) l) then [(lin y x false k, lin y x true l)] else []
  else [].
Definition edgeF (u : bool) (y x k : nat) : list (nat * nat) := backF u y x k ++ (if u then [] else crossF y x k).

Context (Hz : forall u y x k, y < dim_y t -> x < dim_x t -> mbit em (cell_index t y x u) k = true -> if u then x <> 0 else y <> 0).
Lemma ldiff_bit m b l : (N.ldiff (N.land m (N.shiftl 1 (N.of_nat l))) b =? 0)%N = negb (N.testbit m (N.of_nat l) && negb (N.testbit b (N.of_nat l))).
Proof.
  destruct (N.eqb_spec (N.ldiff (N.land m (N.shiftl 1 (N.of_nat l))) b) 0) as [H|H].
  - apply (f_equal (fun x => N.testbit x (N.of_nat l))) in H. rewrite N.ldiff_spec, N.land_spec, N.shiftl_1_l, N.pow2_bits_true, N.bits_0, andb_true_r in H.
    by rewrite H.
  - destruct (N.testbit m (N.of_nat l) && negb (N.testbit b (N.of_nat l))) eqn:E; [done|]. exfalso. apply H.
    apply N.bits_inj. intros j. rewrite N.ldiff_spec, N.land_spec, N.bits_0, N.shiftl_1_l.
    destruct (N.eq_dec j (N.of_nat l)) as [->|Hj]; [by rewrite N.pow2_bits_true, andb_true_r|].
    rewrite N.pow2_bits_false by done. by rewrite andb_false_r.
Qed.
Lemma cross_loop y x k out : y < dim_y t -> x < dim_x t -> k < shore t ->
  foldM (fun edges k1 =>
      let! m := vget nm (cell_index_wz t true y x) in
      let! b := mask_bit k1 in
      let! bad := vget bm (lin y x false k) in
      Ok (if (N.ldiff (N.land m b) bad =? 0)%N then edges else edges ++ [(lin y x false k, chimera_linear t y x true k1)]))
      (seq 0 (shore t)) out =
  Ok (out ++ (seq 0 (shore t) ≫= fun l => if mbit nm (cell_index t y x true) l && negb (mbit bm (lin y x false k) l) then [(lin y x false k, lin y x true l)] else [])).
Proof.
  intros Hy Hx Hk. destruct (cell_get t nm true y x Ln Hy Hx) as [m Em]. rewrite (vget_ok _ _ _ Em).
  destruct (lookup_lt_is_Some_2 bm (lin y x false k)) as [b Eb].
  { rewrite Lb. unfold num_cells. by apply chimera_linear_lt. }
  rewrite (vget_ok _ _ _ Eb). cbn [rbind].
  assert (G : forall ls out, (forall l, l ∈ ls -> l < shore t) ->
    foldM (fun edges k1 => let! b0 := mask_bit k1 in
       Ok (if (N.ldiff (N.land m b0) b =? 0)%N then edges else edges ++ [(lin y x false k, chimera_linear t y x true k1)])) ls out =
    Ok (out ++ (ls ≫= fun l => if mbit nm (cell_index t y x true) l && negb (mbit bm (lin y x false k) l) then [(lin y x false k, lin y x true l)] else []))).
  { induction ls as [|l ls IH]; intros o Hl; [cbn; by rewrite app_nil_r|]. cbn [foldM].
    assert (l < shore t) by (apply Hl; left). rewrite mask_bit_ok by lia. cbn [rbind]. rewrite ldiff_bit.
    assert (E1 : mbit nm (cell_index t y x true) l = N.testbit m (N.of_nat l)) by (unfold mbit; unfold cell_index_wz in Em; by rewrite Em).
    assert (E2 : mbit bm (lin y x false k) l = N.testbit b (N.of_nat l)) by (unfold mbit; by rewrite Eb).
    rewrite IH by (intros; apply Hl; by right). rewrite bind_cons, E1, E2. destruct (_ && _); cbn [negb]; by rewrite <- ?app_assoc. }
  apply G. intros l Hl%elem_of_seq. lia.
Qed.

Lemma fragment_edges_list : fragment_edges t nm em bm = Ok (grid_list t edgeF).
Proof.
  unfold fragment_edges. rewrite (grid_loop _ _ (edgeF false) (edgeF true)); [done| |];
    intros y x k out Hy Hx Hk.
  - unfold draw_edge_vert, edgeF, backF, crossF. rewrite !test_bit_ok by (done || lia). cbn [rbind]. unfold cell_index_wz at 1 2.
    destruct (mbit em (cell_index t y x false) k) eqn:E.
    + pose proof (Hz false y x k Hy Hx E) as Hy0. cbn in Hy0. destruct y as [|y]; [done|]. cbn [rbind].
      replace (S y - 1) with y by lia. destruct (mbit nm (cell_index t (S y) x false) k); [rewrite cross_loop by done|]; cbn [rbind];
        by rewrite <- ?app_assoc, ?app_nil_r.
    + cbn [rbind]. destruct (mbit nm (cell_index t y x false) k); [rewrite cross_loop by done|]; cbn [rbind]; by rewrite ?app_nil_r.
  - unfold draw_edge_horz, edgeF, backF. rewrite !test_bit_ok by (done || lia). cbn [rbind]. unfold cell_index_wz at 1.
    destruct (mbit em (cell_index t y x true) k) eqn:E.
    + pose proof (Hz true y x k Hy Hx E) as Hx0. cbn in Hx0. destruct x as [|x]; [done|]. cbn [rbind].
      replace (S x - 1) with x by lia. by rewrite ?app_nil_r.
    + cbn [rbind]. by rewrite ?app_nil_r.
Qed.

End loops.
