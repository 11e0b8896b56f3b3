(** The clique dynamic program: what the table holds when it is filled. *)
From stdpp Require Import base list list_numbers numbers gmap.
From Verif Require Import Base BusModel CliqueModel CoordProofs BitProofs BundleProofs CliqueProofs1.

(** ** one packed word *)
Definition bix (c : corner) (skip : bool) : nat :=
  match c with NW => 0 | NE => 1 | SW => 2 | SE => 3 end + if skip then 4 else 0.

Lemma corner_bit_bix c s : corner_bit c s = N.shiftl 1 (N.of_nat (bix c s)).
Proof. by destruct c, s. Qed.
Lemma bix_inj c s c' s' : bix c s = bix c' s' -> c = c' /\ s = s'.
Proof. by destruct c, s, c', s'. Qed.

Lemma score_lor e c s : entry_score (N.lor e (corner_bit c s)) = entry_score e.
Proof.
  unfold entry_score. rewrite N.shiftr_lor. replace (N.shiftr (corner_bit c s) 8) with 0%N by (by destruct c, s).
  apply N.lor_0_r.
Qed.
Lemma corners_lor e c s : entry_corners (N.lor e (corner_bit c s)) = N.lor (entry_corners e) (corner_bit c s).
Proof.
  unfold entry_corners. rewrite N.land_lor_distr_l. f_equal. by destruct c, s.
Qed.
Lemma score_new v c s : entry_score (N.lor (N.shiftl v 8) (corner_bit c s)) = v.
Proof.
  rewrite score_lor. unfold entry_score. rewrite N.shiftr_shiftl_l by done. apply N.shiftl_0_r.
Qed.
Lemma corners_new v c s : entry_corners (N.lor (N.shiftl v 8) (corner_bit c s)) = corner_bit c s.
Proof.
  rewrite corners_lor. unfold entry_corners at 1. change 255%N with (N.ones 8).
  rewrite N.land_ones, N.shiftl_mul_pow2, N.mod_mul by done. done.
Qed.
Lemma corners_byte e : byte (entry_corners e).
Proof.
  unfold byte, entry_corners. change 255%N with (N.ones 8). rewrite N.land_ones. by apply N.mod_lt.
Qed.
Lemma corner_bit_ne c s : corner_bit c s <> 0%N.
Proof. by destruct c, s. Qed.

(** ** geometry of one corner of the rectangle with top row [y], left column [x0] at level [i] *)
Definition isN (c : corner) : bool := match c with NW | NE => true | _ => false end.
Definition isW (c : corner) : bool := match c with NW | SW => true | _ => false end.
Definition tx (x0 : nat) (c : corner) : nat := if isW c then S x0 else x0.
Definition ty (y : nat) (c : corner) : nat := if isN c then S y else y.
Definition yc (i y : nat) (c : corner) : nat := if isN c then y else y + i.
Definition xc (w x0 : nat) (c : corner) : nat := if isW c then x0 else x0 + w.

Section dp.
Context (t : topo) (width : nat) (lm : list N) (check : nat -> nat -> nat -> nat -> nat -> nat -> bool).
Context (Hw2 : 2 <= width) (Hwy : width <= dim_y t) (Hwx : width <= dim_x t).
Context (Hlm : length lm = line_mask_size t) (Hby : bytes lm).

Notation rows := (rows t).
Notation cols := (cols t width).
Notation addr := (addr t width).
Notation header := (header t width).

Definition lmask (u : bool) (w z0 z1 : nat) : N := default 0%N (lm !! line_addr t u w z0 z1).
Lemma get_line_ok u w z0 z1 : w < dim_w t u -> z0 <= z1 -> z1 < dim_z t u ->
  get_line_mask t lm u w z0 z1 = Ok (lmask u w z0 z1) /\ byte (lmask u w z0 z1).
Proof.
  intros Hw Hz Hz1. destruct (lookup_lt_is_Some_2 lm (line_addr t u w z0 z1)) as [m Em].
  { rewrite Hlm. by apply line_addr_lt. }
  unfold get_line_mask, lmask. rewrite Em. split; [by apply vget_ok|]. by eapply bytes_lookup.
Qed.

Definition sc (r c y0 y1 x0 x1 : nat) : nat :=
  length (bits (lmask false c y0 y1)) `min` length (bits (lmask true r x0 x1)).
Lemma bundle_score_ok r c y0 y1 x0 x1 : r < dim_y t -> c < dim_x t -> y0 <= y1 -> y1 < dim_y t -> x0 <= x1 -> x1 < dim_x t ->
  bundle_score t lm r c y0 y1 x0 x1 = Ok (sc r c y0 y1 x0 x1).
Proof.
  intros Hr Hc ? ? ? ?. unfold bundle_score, get_line_score.
  destruct (get_line_ok false c y0 y1) as [-> B0]; [done..|]. cbn [rbind]. rewrite popcount_bits by done. cbn [rbind].
  destruct (get_line_ok true r x0 x1) as [-> B1]; [done..|]. cbn [rbind]. rewrite popcount_bits by done. done.
Qed.

(** the ell of an event: rows y..y+i, columns x0..x0+wd i *)
Definition wd (i : nat) : nat := width - 1 - i.
Definition chk (i y x0 : nat) (c : corner) : bool :=
  check (yc i y c) (xc (wd i) x0 c) y (y + i) x0 (x0 + wd i).
Definition gain (i y x0 : nat) (c : corner) : nat :=
  if chk i y x0 c then sc (yc i y c) (xc (wd i) x0 c) y (y + i) x0 (x0 + wd i) else 0.

Definition cs (i : nat) : list corner :=
  if i =? 0 then [SW; SE] else if i =? width - 1 then [NE; SE] else [NE; NW; SW; SE].
Definition valid (i y x0 : nat) (c : corner) : Prop := y + i < dim_y t /\ x0 + wd i < dim_x t /\ c ∈ cs i.

Lemma valid_target i y x0 c : i < width -> valid i y x0 c -> y < rows i /\ tx x0 c < cols i.
Proof using Hw2 Hwy Hwx. clear Hlm Hby lm check.
  intros Hi (Hy & Hx & Hc). unfold rows, cols, tx, wd in *. split; [lia|].
  destruct (Nat.ltb_spec (i + 1) width).
  - destruct (isW c); lia.
  - assert (i = width - 1) as -> by lia. unfold cs in Hc.
    destruct (Nat.eqb_spec (width - 1) 0); [lia|]. rewrite Nat.eqb_refl in Hc.
    assert (isW c = false) as ->; [|lia]. set_solver.
Qed.
Lemma valid_prev i y x0 c : S i < width -> valid (S i) y x0 c -> ty y c < rows i /\ x0 < cols i.
Proof using Hw2 Hwy Hwx. clear Hlm Hby lm check.
  intros Hi (Hy & Hx & Hc). unfold rows, cols, ty, wd in *.
  destruct (Nat.ltb_spec (i + 1) width); [|lia]. destruct (isN c); lia.
Qed.
(** wherever a level leads, the level below has a rectangle *)
Lemma valid_next i y x0 c : S i < width -> valid (S i) y x0 c -> exists x' c', valid i (ty y c) x' c' /\ x0 = tx x' c'.
Proof using Hw2 Hwy Hwx. clear Hlm Hby lm check.
  intros Hi (Hy & Hx & Hc). unfold valid, wd in *.
  assert (HW : SW ∈ cs i /\ SE ∈ cs i).
  { unfold cs. destruct (Nat.eqb_spec i 0); [set_solver|]. destruct (Nat.eqb_spec i (width - 1)); [lia|]. set_solver. }
  assert (ty y c + i < dim_y t) by (unfold ty; destruct (isN c); lia).
  destruct (decide (x0 + (width - 1 - i) < dim_x t)).
  - exists x0, SE. split_and!; try tauto; try lia.
  - exists (x0 - 1), SW. unfold tx. simpl. split_and!; try tauto; lia.
Qed.

Definition ent (mem : list N) (i y x : nat) : N := default 0%N (mem !! addr i y x).
Lemma ent_get mem i y x : header mem -> i < width -> y < rows i -> x < cols i -> mem !! addr i y x = Some (ent mem i y x).
Proof using Hw2 Hwy Hwx. clear Hlm Hby lm check. intros H Hi Hy Hx. unfold ent. by destruct (header_get t width Hw2 Hwy Hwx mem i y x H Hi Hy Hx) as [e ->]. Qed.

Definition pv (mem : list N) (i y x0 : nat) (c : corner) : N :=
  match i with 0 => 0%N | S j => entry_score (ent mem j (ty y c) x0) end.
Definition val (mem : list N) (i y x0 : nat) (c : corner) : N := (pv mem i y x0 c + N.of_nat (gain i y x0 c))%N.

Definition espec (i : nat) (D : nat -> nat -> corner -> Prop) (v : nat -> nat -> corner -> N) (mem : list N) : Prop :=
  forall y X, y < rows i -> X < cols i ->
    (forall x0 c, D y x0 c -> X = tx x0 c -> (v y x0 c <= entry_score (ent mem i y X))%N /\ entry_corners (ent mem i y X) <> 0%N) /\
    (forall b, b ∈ bits (entry_corners (ent mem i y X)) -> exists x0 c, D y x0 c /\ X = tx x0 c /\
       v y x0 c = entry_score (ent mem i y X) /\ b = bix c (negb (chk i y x0 c))) /\
    (entry_corners (ent mem i y X) = 0%N -> ent mem i y X = 0%N).

Definition linv (mem0 : list N) (i : nat) (D : nat -> nat -> corner -> Prop) (mem : list N) : Prop :=
  header mem /\ espec i D (val mem0 i) mem /\
  forall j y x, j < width -> j <> i -> y < rows j -> x < cols j -> ent mem j y x = ent mem0 j y x.

Lemma linv_weaken mem0 i (D D' : nat -> nat -> corner -> Prop) mem :
  (forall y x c, D y x c <-> D' y x c) -> linv mem0 i D mem -> linv mem0 i D' mem.
Proof.
  intros HD (H1 & H2 & H3). split_and!; try done. intros y X Hy HX. destruct (H2 y X Hy HX) as (A & B & C). split_and!; try done.
  - intros x0 c Hd. apply A. by apply HD.
  - intros b Hb. destruct (B b Hb) as (x0 & c & ? & ?). exists x0, c. split; [by apply HD|done].
Qed.

Definition prev_of (i : nat) : option (nat * nat * nat) :=
  match i with 0 => None | S j => Some (rows j, cols j, off t width j) end.

Lemma ent_insert mem i y x e j y' x' : header mem -> i < width -> y < rows i -> x < cols i -> j < width -> y' < rows j -> x' < cols j ->
  ent (<[addr i y x := e]> mem) j y' x' = if decide ((j, y', x') = (i, y, x)) then e else ent mem j y' x'.
Proof.
  intros H Hi Hy Hx Hj Hy' Hx'. unfold ent. destruct (decide _) as [E|E].
  - injection E as -> -> ->. rewrite list_lookup_insert; [done|]. eapply lookup_lt_Some. by apply ent_get.
  - rewrite list_lookup_insert_ne; [done|]. intros Ea. apply addr_inj in Ea; [|done..].
    destruct Ea as (-> & -> & ->). done.
Qed.

Lemma extend_corner_ok mem0 i (D : nat -> nat -> corner -> Prop) mem y x0 c : i < width -> linv mem0 i D mem -> valid i y x0 c ->
  exists mem', extend_corner t lm check (prev_of i) (rows i, cols i, off t width i) y (y + i) x0 (x0 + wd i) mem c = Ok mem' /\
    linv mem0 i (fun y' x' c' => D y' x' c' \/ (y', x', c') = (y, x0, c)) mem'.
Proof.
  intros Hi (Hh & Hs & Hf) V. destruct (valid_target i y x0 c Hi V) as [Ty Tx].
  set (e := ent mem i y (tx x0 c)).
  assert (Ee : mem !! addr i y (tx x0 c) = Some e) by (by apply ent_get).
  set (s := val mem0 i y x0 c). set (b := corner_bit c (negb (chk i y x0 c))).
  assert (Em : extend_corner t lm check (prev_of i) (rows i, cols i, off t width i) y (y + i) x0 (x0 + wd i) mem c =
    Ok (<[addr i y (tx x0 c) := entry_setmax e s b]> mem)).
  { unfold extend_corner.
    replace (match c with NW | SW => x0 + 1 | _ => x0 end) with (tx x0 c) by (unfold tx; destruct c; simpl; lia).
    replace (match c with NW | NE => y + 1 | _ => y end) with (ty y c) by (unfold ty; destruct c; simpl; lia).
    replace (match c with SW | SE => y + i | _ => y end) with (yc i y c) by (by destruct c).
    replace (match c with NE | SE => x0 + wd i | _ => x0 end) with (xc (wd i) x0 c) by (by destruct c).
    assert (Ep : match prev_of i with None => Ok 0%N | Some lv => let! e := lv_get mem lv (ty y c) x0 in Ok (entry_score e) end = Ok (pv mem0 i y x0 c)).
    { destruct i as [|j]; cbn [prev_of pv]; [done|]. destruct (valid_prev j y x0 c Hi V) as [Py Px].
      rewrite (lv_get_ok t width mem j (ty y c) x0 (ent mem j (ty y c) x0)) by (apply ent_get; [done|lia|done|done]).
      cbn [rbind]. rewrite Hf by (try done; lia). done. }
    rewrite Ep. cbn [rbind]. unfold s, b, val, gain. fold (chk i y x0 c). destruct V as (Vy & Vx & Vc). destruct (chk i y x0 c) eqn:Ec.
    - rewrite bundle_score_ok; [|unfold yc; destruct (isN c); lia|unfold xc; destruct (isW c); lia|lia..].
      cbn [rbind]. by apply lv_setmax_ok.
    - rewrite N.add_0_r. by apply lv_setmax_ok. }
  rewrite Em. eexists. split; [done|]. split_and!.
  - by apply header_insert.
  - intros y' X Hy' HX. rewrite ent_insert by done. destruct (decide ((i, y', X) = (i, y, tx x0 c))) as [E|E].
    + injection E as -> ->. destruct (Hs y (tx x0 c) Ty Tx) as (A & B & C). fold e in A, B, C. unfold entry_setmax.
      destruct (N.eqb_spec s (entry_score e)) as [E1|E1]; [|destruct (N.ltb_spec (entry_score e) s) as [E2|E2]].
      * unfold b. rewrite score_lor, corners_lor.
        assert (Hne : N.lor (entry_corners e) (corner_bit c (negb (chk i y x0 c))) <> 0%N).
        { rewrite N.lor_eq_0_iff. intros [_ ?]. by eapply corner_bit_ne. }
        split_and!.
        -- intros x0' c' [Hd|Hd] Ht; (split; [|done]).
           ++ by apply (A x0' c').
           ++ injection Hd as -> ->. fold s. lia.
        -- intros k Hk. rewrite bits_elem in Hk by (apply byte_lor; [apply corners_byte|by destruct c, (chk i y x0 _)]).
           rewrite N.lor_spec in Hk. apply orb_true_iff in Hk as [Hk|Hk].
           ++ destruct (B k) as (x0' & c' & ? & ? & ? & ?). { apply bits_elem; [apply corners_byte|done]. }
              exists x0', c'. split_and!; try done. by left.
           ++ rewrite corner_bit_bix, onebit_spec in Hk. apply bool_decide_eq_true in Hk as ->.
              exists x0, c. split_and!; try done. by right.
        -- done.
      * unfold b. rewrite score_new, corners_new. split_and!.
        -- intros x0' c' [Hd|Hd] Ht; (split; [|by apply corner_bit_ne]).
           ++ destruct (A x0' c' Hd Ht). lia.
           ++ injection Hd as -> ->. fold s. lia.
        -- intros k Hk. rewrite bits_elem in Hk by (by destruct c, (chk i y x0 _)).
           rewrite corner_bit_bix, onebit_spec in Hk. apply bool_decide_eq_true in Hk as ->.
           exists x0, c. split_and!; try done. by right.
        -- intros ?. exfalso. by eapply corner_bit_ne.
      * split_and!; [|intros k Hk|done].
        -- intros x0' c' [Hd|Hd] Ht.
           ++ by apply (A x0' c').
           ++ injection Hd as -> ->. fold s. split; [lia|]. intros E0. specialize (C E0). rewrite C in E1, E2. change (entry_score 0) with 0%N in *. lia.
        -- destruct (B k Hk) as (x0' & c' & ? & ? & ? & ?). exists x0', c'. split_and!; try done. by left.
    + destruct (Hs y' X Hy' HX) as (A & B & C). split_and!; [| |done].
      * intros x0' c' [Hd|Hd] Ht; [by apply (A x0' c')|]. injection Hd as -> -> ->. by subst X.
      * intros k Hk. destruct (B k Hk) as (x0' & c' & ? & ? & ? & ?). exists x0', c'. split_and!; try done. by left.
  - intros j y' x' Hj Hn Hy' Hx'. rewrite ent_insert by done. rewrite decide_False by congruence. by apply Hf.
Qed.

Lemma extend_level_ok mem0 i : i < width -> header mem0 ->
  (forall y x, y < rows i -> x < cols i -> ent mem0 i y x = 0%N) ->
  exists mem, extend_level t lm check width (prev_of i) (S i) (width - i) (cs i) mem0 = Ok mem /\ linv mem0 i (valid i) mem.
Proof.
  intros Hi Hh Hz. unfold extend_level. replace (S i - 1) with i by lia. rewrite level_ok by done. cbn [rbind].
  destruct (Nat.ltb_spec (dim_y t) (S i)) as [?|Hdy]; [lia|]. destruct (Nat.ltb_spec (dim_x t) (width - i)) as [?|Hdx]; [lia|]. cbn [orb].
  match goal with |- exists zz, foldM ?F ?l ?a = _ /\ _ =>
    destruct (foldM_inv F (fun dn mem => linv mem0 i (fun y' x' c' => y' ∈ dn /\ valid i y' x' c') mem) l a) as (mem & E & H) end.
  - split_and!; [done| |done]. intros y X Hy HX. rewrite Hz by done. split_and!; [|intros b Hb|done].
    + intros x0 c [?%elem_of_nil _]. done.
    + change (b ∈ []) in Hb. by apply elem_of_nil in Hb.
  - intros dny y rest mem Hspy HIy.
    assert (Ly : y + i < dim_y t).
    { assert (E : y ∈ seq 0 (S (dim_y t - S i))) by (rewrite Hspy; set_solver). apply elem_of_seq in E. lia. }
    match goal with |- exists zz, foldM ?F ?l ?a = _ /\ _ =>
      destruct (foldM_inv F (fun dn mem => linv mem0 i (fun y' x' c' => (y' ∈ dny \/ y' = y /\ x' ∈ dn) /\ valid i y' x' c') mem) l a) as (mem' & E & H) end.
    + eapply linv_weaken; [|exact HIy]. intros y' x' c'. set_solver.
    + clear mem HIy. intros dnx x restx mem Hspx HIx.
      assert (Lx : x + wd i < dim_x t).
      { assert (E : x ∈ seq 0 (S (dim_x t - (width - i)))) by (rewrite Hspx; set_solver). apply elem_of_seq in E. unfold wd. lia. }
      match goal with |- exists zz, foldM ?F ?l ?a = _ /\ _ =>
        destruct (foldM_inv F (fun dn mem => linv mem0 i (fun y' x' c' => ((y' ∈ dny \/ y' = y /\ x' ∈ dnx) /\ valid i y' x' c') \/ (y' = y /\ x' = x /\ c' ∈ dn)) mem) l a) as (mem' & E & H) end.
      * eapply linv_weaken; [|exact HIx]. intros y' x' c'. set_solver.
      * clear mem HIx. intros dnc c restc mem Hspc HIc.
        replace (y + S i - 1) with (y + i) by lia. replace (x + (width - i) - 1) with (x + wd i) by (unfold wd; lia).
        destruct (extend_corner_ok mem0 i _ mem y x c Hi HIc) as (mem' & E & H).
        { split_and!; [done..|]. rewrite Hspc. set_solver. }
        exists mem'. split; [exact E|]. eapply linv_weaken; [|exact H]. intros y' x' c'. cbv beta.
        rewrite elem_of_app, elem_of_list_singleton. split.
        -- intros [[?|(? & ? & ?)]|E']; [tauto|tauto|]. injection E' as -> -> ->. tauto.
        -- intros [?|(-> & -> & [?| ->])]; [tauto|tauto|]. by right.
      * exists mem'. split; [exact E|]. eapply linv_weaken; [|exact H]. intros y' x' c'. cbv beta.
        rewrite elem_of_app, elem_of_list_singleton. split.
        -- intros [?|(-> & -> & Hc)]; [tauto|]. split; [tauto|]. split_and!; [lia|lia|done].
        -- intros [[?|[? [?| ->]]] Hv]; [tauto|tauto|]. right. split_and!; [done|done|apply Hv].
    + exists mem'. split; [exact E|]. eapply linv_weaken; [|exact H]. intros y' x' c'. cbv beta.
      rewrite elem_of_app, elem_of_list_singleton. split; [tauto|].
      intros [[?| ->] Hv]; [tauto|]. split; [|done]. right. split; [done|]. apply elem_of_seq. destruct Hv as (_ & Hv & _). unfold wd in Hv. lia.
  - exists mem. split; [exact E|]. eapply linv_weaken; [|exact H]. intros y' x' c'. cbv beta. split; [tauto|].
    intros Hv. split; [|done]. apply elem_of_seq. destruct Hv as (Hv & _). lia.
Qed.

(** the state after the levels below [n] are filled *)
Definition filled (n : nat) (mem : list N) : Prop :=
  header mem /\ (forall i, i < n -> espec i (valid i) (val mem i) mem) /\
  (forall i y x, n <= i -> i < width -> y < rows i -> x < cols i -> ent mem i y x = 0%N).

Lemma espec_ext i (D : nat -> nat -> corner -> Prop) v v' mem mem' :
  (forall y x, y < rows i -> x < cols i -> ent mem i y x = ent mem' i y x) ->
  (forall y x c, D y x c -> v y x c = v' y x c) -> espec i D v mem -> espec i D v' mem'.
Proof.
  intros He Hv H y X Hy HX. destruct (H y X Hy HX) as (A & B & C). rewrite He in A, B, C by done. split_and!; [| |done].
  - intros x0 c Hd Ht. rewrite <- Hv by done. by apply A.
  - intros b Hb. destruct (B b Hb) as (x0 & c & ? & ? & ? & ?). exists x0, c. split_and!; try done. by rewrite <- Hv.
Qed.

Lemma filled_step n mem : n < width -> filled n mem ->
  exists mem', extend_level t lm check width (prev_of n) (S n) (width - n) (cs n) mem = Ok mem' /\ filled (S n) mem'.
Proof.
  intros Hn (Hh & Hs & Hz). destruct (extend_level_ok mem n Hn Hh) as (mem' & E & (Hh' & Hs' & Hf)).
  { intros. by apply Hz. }
  assert (Hv : forall i y x c, i <= n -> valid i y x c -> val mem i y x c = val mem' i y x c).
  { intros i y x c Hi V. unfold val, pv. destruct i as [|j]; [done|]. destruct (valid_prev j y x c ltac:(lia) V).
    rewrite Hf by (try done; lia). done. }
  exists mem'. split; [done|]. split_and!; [done| |].
  - intros i Hi. destruct (decide (i = n)) as [->|Hne].
    + eapply espec_ext; [| |exact Hs']; [done|]. intros y x c V. apply Hv; [lia|done].
    + eapply espec_ext; [| |apply Hs; lia].
      * intros y x Hy Hx. symmetry. apply Hf; [lia|done..].
      * intros y x c V. apply Hv; [lia|done].
  - intros i y x Hi Hi' Hy Hx. rewrite Hf by (try done; lia). apply Hz; [lia|done..].
Qed.

Lemma clique_cache_ok : exists mem, clique_cache t lm check width = Ok mem /\ filled width mem.
Proof.
  unfold clique_cache. destruct (alloc_ok t width Hw2 Hwy Hwx) as (mem0 & -> & Hh & Hz). cbn [rbind].
  assert (F0 : filled 0 mem0).
  { split_and!; [done|lia|]. intros i y x _ Hi Hy Hx. unfold ent. by rewrite Hz. }
  unfold compute_cache.
  destruct (filled_step 0 mem0 ltac:(lia) F0) as (mem1 & E1 & F1). rewrite Nat.sub_0_r in E1.
  change (cs 0) with [SW; SE] in E1. change (prev_of 0) with (@None (nat * nat * nat)) in E1. rewrite E1. cbn [rbind]. clear E1.
  match goal with |- context [foldM ?F (seq 1 (width - 2)) mem1] =>
    destruct (foldM_inv F (fun dn mem => filled (S (length dn)) mem) (seq 1 (width - 2)) mem1) as (mem2 & E2 & F2) end.
  - exact F1.
  - intros dn i rest mem Hsp HF.
    assert (Hi : i = S (length dn) /\ S (length dn) < width - 1).
    { assert (E : seq 1 (width - 2) !! length dn = Some i) by (by rewrite Hsp, list_lookup_middle).
      apply lookup_seq in E. simpl in E. lia. }
    destruct Hi as [-> Hi]. rewrite level_ok by (try apply HF; try done; lia). cbn [rbind].
    destruct (filled_step (S (length dn)) mem ltac:(lia) HF) as (mem' & E & F').
    replace (cs (S (length dn))) with [NE; NW; SW; SE] in E.
    2:{ unfold cs. destruct (Nat.eqb_spec (S (length dn)) 0); [lia|]. destruct (Nat.eqb_spec (S (length dn)) (width - 1)); [lia|done]. }
    exists mem'. split.
    + rewrite <- E. cbn [prev_of]. rewrite Nat.add_1_r. replace (S (length dn) - 1) with (length dn) by lia. done.
    + rewrite app_length. cbn [length]. rewrite Nat.add_1_r. done.
  - rewrite E2. cbn [rbind]. clear E2. destruct (Nat.ltb_spec width 2); [lia|].
    rewrite seq_length in F2. replace (S (width - 2)) with (width - 1) in F2 by lia.
    rewrite level_ok by (try apply F2; try done; lia). cbn [rbind].
    destruct (filled_step (width - 1) mem2 ltac:(lia) F2) as (mem3 & E & F3).
    replace (S (width - 1)) with width in F3, E by lia. exists mem3. split; [|done]. rewrite <- E.
    replace (width - (width - 1)) with 1 by lia.
    replace (cs (width - 1)) with [NE; SE].
    2:{ unfold cs. rewrite Nat.eqb_refl. destruct (Nat.eqb_spec (width - 1) 0); [lia|done]. }
    replace (prev_of (width - 1)) with (prev_of (S (width - 2))) by (f_equal; lia). done.
Qed.
End dp.
