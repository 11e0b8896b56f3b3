(** The line masks hold exactly the unbroken segments (C34). *)
From stdpp Require Import base list list_numbers numbers.
From Verif Require Import Base BusModel CoordProofs BitProofs.

Section bundle.
Context (t : topo) (nm em : list N).
Context (Ln : length nm = num_cells t) (Le : length em = num_cells t) (Bn : bytes nm).

(** bit [k] can be followed down from [z] to [z0] *)
Definition rawok (u : bool) (w z0 z k : nat) : Prop :=
  mbit nm (cell_index_wz t u w z) k = true /\
  forall z', z0 < z' <= z -> mbit em (cell_index_wz t u w z') k = true.

Definition inv (D : bool -> nat -> nat -> Prop) (mem : list N) : Prop :=
  length mem = line_mask_size t /\ bytes mem /\
  forall u w z0 z, D u w z -> w < dim_w t u -> z0 <= z -> z < dim_z t u ->
    forall k, mbit mem (line_addr t u w z0 z) k = true <-> rawok u w z0 z k.

Lemma cell_get (mem : list N) u w z : length mem = num_cells t -> w < dim_w t u -> z < dim_z t u ->
  exists m, mem !! cell_index_wz t u w z = Some m.
Proof. intros L Hw Hz. apply lookup_lt_is_Some_2. rewrite L. by apply cell_wz_lt; destruct u. Qed.

Lemma line_addr_split u w z0 z : line_addr t u w z0 z = line_addr t u w 0 z + z0.
Proof. unfold line_addr, bundle_cache_index. lia. Qed.

Lemma vset_ok {A} (l : list A) i x : i < length l -> vset l i x = Ok (<[i := x]> l).
Proof. intros H. unfold vset. by destruct (lookup_lt_is_Some_2 _ _ H) as [? ->]. Qed.
Lemma vget_ok {A} (l : list A) i x : l !! i = Some x -> vget l i = Ok x.
Proof. unfold vget. by intros ->. Qed.

Lemma inv_insert D mem u w z0 z m : inv D mem ->
  w < dim_w t u -> z0 <= z -> z < dim_z t u -> byte m ->
  let mem' := <[line_addr t u w z0 z := m]> mem in
  length mem' = line_mask_size t /\ bytes mem' /\
  (forall k, mbit mem' (line_addr t u w z0 z) k = N.testbit m (N.of_nat k)) /\
  (forall u' w' z0' z', w' < dim_w t u' -> z0' <= z' -> z' < dim_z t u' ->
     (u', w', z0', z') <> (u, w, z0, z) -> forall k,
     mbit mem' (line_addr t u' w' z0' z') k = mbit mem (line_addr t u' w' z0' z') k).
Proof.
  intros (HL & HB & _) Hw Hz Hz1 Hm mem'. unfold mem'. split_and!.
  - by rewrite insert_length.
  - by apply Forall_insert.
  - intros k. unfold mbit. rewrite list_lookup_insert; [done|]. rewrite HL. by apply line_addr_lt.
  - intros u' w' z0' z' Hw' Hz' Hz1' Hne k. unfold mbit. rewrite list_lookup_insert_ne; [done|].
    intros E. apply Hne. eapply line_addr_inj in E; [|done..]. by destruct E as (-> & -> & -> & ->).
Qed.

Lemma fill_down_ok D mem u w z : inv D mem -> w < dim_w t u -> z < dim_z t u ->
  exists mem', fill_down t (nm, em) u w z (line_addr t u w 0 z) mem = Ok mem' /\
    inv (fun u' w' z' => D u' w' z' \/ (u', w', z') = (u, w, z)) mem'.
Proof.
  intros HI Hw Hz. unfold fill_down, qmask. change (nm, em).1 with nm.
  destruct (cell_get nm u w z Ln Hw Hz) as [m0 Em0]. rewrite (vget_ok _ _ _ Em0). cbn [rbind].
  assert (Hb0 : byte m0) by (by eapply bytes_lookup).
  assert (HL : length mem = line_mask_size t) by apply HI.
  rewrite vset_ok by (rewrite <- line_addr_split, HL; by apply line_addr_lt). cbn [rbind].
  rewrite <- line_addr_split.
  destruct (inv_insert D mem u w z z m0 HI Hw ltac:(done) Hz Hb0) as (L1 & B1 & V1 & F1). cbv zeta in *.
  set (mem1 := <[line_addr t u w z z := m0]> mem) in *.
  (* inner loop *)
  destruct (foldM_inv (fun '(mem, m) z0 =>
      let! e := emask t (nm, em) u w (z0 + 1) in
      let m := N.land m e in
      let! mem := vset mem (line_addr t u w 0 z + z0) m in
      Ok (mem, m))
    (fun dn '(mem2, m) => exists j, dn = rev (seq j (z - j)) /\ j <= z /\
       length mem2 = line_mask_size t /\ bytes mem2 /\ byte m /\
       (forall k, N.testbit m (N.of_nat k) = true <-> rawok u w j z k) /\
       (forall z0, j <= z0 <= z -> forall k, mbit mem2 (line_addr t u w z0 z) k = true <-> rawok u w z0 z k) /\
       (forall u' w' z0' z', w' < dim_w t u' -> z0' <= z' -> z' < dim_z t u' -> (u', w', z') <> (u, w, z) ->
          forall k, mbit mem2 (line_addr t u' w' z0' z') k = mbit mem (line_addr t u' w' z0' z') k))
    (rev (seq 0 z)) (mem1, m0)) as ([mem2 m2] & E & HF).
  - exists z. rewrite Nat.sub_diag. split_and!; try done.
    + intros k. unfold rawok, mbit. rewrite Em0. split; [|by intros [? _]]. intros ?. split; [done|]. intros; lia.
    + intros z0 Hz0 k. assert (z0 = z) as -> by lia. rewrite V1. unfold rawok, mbit. rewrite Em0.
      split; [|by intros [? _]]. intros ?. split; [done|]. intros; lia.
    + intros u' w' z0' z' ? ? ? Hne k. apply F1; try done. intros [=]. naive_solver.
  - intros dn z0 rest [mem2 m] Hsp (j & -> & Hj & L2 & B2 & Bm & Hm & Hseg & Hfr).
    assert (Hj0 : exists j', j = S j' /\ z0 = j').
    { assert (E : rev (seq 0 z) = rev (seq j (z - j)) ++ rev (seq 0 j)).
      { rewrite <- rev_app_distr. f_equal. replace z with (j + (z - j)) at 1 by lia. by rewrite seq_app. }
      rewrite E in Hsp. apply app_inv_head in Hsp. destruct j as [|j']; [done|].
      exists j'. split; [done|]. rewrite seq_S, rev_app_distr in Hsp. simpl in Hsp. by injection Hsp as <- _. }
    destruct Hj0 as (j' & -> & ->).
    destruct (cell_get em u w (j' + 1) Le Hw ltac:(lia)) as [e Ee].
    unfold emask. change (nm, em).2 with em. rewrite (vget_ok _ _ _ Ee). cbn [rbind].
    rewrite vset_ok by (rewrite <- line_addr_split, L2; apply line_addr_lt; lia). cbn [rbind].
    rewrite <- line_addr_split. eexists. split; [done|].
    assert (Bm' : byte (N.land m e)) by (by apply byte_land).
    destruct (inv_insert (fun _ _ _ => False) mem2 u w j' z (N.land m e)) as (L3 & B3 & V3 & F3); try done; try lia.
    cbv zeta in *. set (mem3 := <[line_addr t u w j' z := N.land m e]> mem2) in *.
    assert (Hbit : forall k, N.testbit (N.land m e) (N.of_nat k) = true <-> rawok u w j' z k).
    { intros k. rewrite N.land_spec, andb_true_iff, Hm. unfold rawok. 
      assert (He : N.testbit e (N.of_nat k) = mbit em (cell_index_wz t u w (S j')) k).
      { unfold mbit. replace (S j') with (j' + 1) by lia. by rewrite Ee. }
      rewrite He. split.
      - intros [[H1 H2] H3]. split; [done|]. intros z' Hz'. destruct (decide (z' = S j')) as [->|]; [done|].
        apply H2. lia.
      - intros [H1 H2]. split; [split; [done|]|].
        + intros z' Hz'. apply H2. lia.
        + apply H2. lia. }
    exists j'. split_and!; try done; try lia.
    + replace (z - j') with (S (z - S j')) by lia. simpl. done.
    + intros z0 Hz0 k. destruct (decide (z0 = j')) as [->|Hn].
      * rewrite V3. apply Hbit.
      * rewrite F3 by (try done; try lia; intros [=]; done). apply Hseg. lia.
    + intros u' w' z0' z' ? ? ? Hne k. rewrite F3; [by apply Hfr|done..|]. intros [=]. naive_solver.
  - destruct HF as (j & Hdn & Hj & L2 & B2 & Bm & Hm & Hseg & Hfr).
    assert (j = 0) as ->.
    { apply (f_equal length) in Hdn. rewrite !rev_length, !seq_length in Hdn. lia. }
    cbv zeta in E |- *. rewrite E. cbn [rbind]. exists mem2. split; [done|]. split_and!; try done.
    intros u' w' z0' z' HD Hw' Hz' Hz1' k.
    destruct (decide ((u', w', z') = (u, w, z))) as [[= -> -> ->]|Hne].
    + apply Hseg. lia.
    + rewrite Hfr by done. destruct HD as [HD|?]; [|done]. by apply HI.
Qed.

Lemma inv_weaken (D D' : bool -> nat -> nat -> Prop) mem : (forall u w z, w < dim_w t u -> z < dim_z t u -> D' u w z -> D u w z) -> inv D mem -> inv D' mem.
Proof. intros H (A & B & C). split_and!; try done. intros. apply C; try done. apply H; try done. Qed.

Lemma fill_line_ok D mem u w : inv D mem -> w < dim_w t u ->
  exists mem', fill_line t (nm, em) u (dim_z t u) w (mem, b2n u * orthstride t + w * linestride t u)
      = Ok (mem', b2n u * orthstride t + S w * linestride t u) /\
    inv (fun u' w' z' => D u' w' z' \/ (u', w') = (u, w)) mem'.
Proof.
  intros HI Hw. unfold fill_line.
  destruct (foldM_inv (fun '(mem, p) z => let p := p + z in
      let! mem := fill_down t (nm, em) u w z p mem in Ok (mem, p))
    (fun dn '(mem1, p) => dn = seq 0 (length dn) /\
       p + length dn = b2n u * orthstride t + w * linestride t u + binom (length dn) /\
       inv (fun u' w' z' => D u' w' z' \/ (u', w') = (u, w) /\ z' < length dn) mem1)
    (seq 0 (dim_z t u)) (mem, b2n u * orthstride t + w * linestride t u)) as ([mem2 p2] & E & HF).
  - split_and!; [done|simpl; rewrite binom_0; lia|].
    eapply inv_weaken; [|exact HI]. intros u' w' z' _ _ [?|[? ?]]; [done|]. simpl in *; lia.
  - intros dn z rest [mem1 p] Hsp (Hdn & Hp & HI1).
    assert (Hz : z = length dn /\ length dn < dim_z t u).
    { assert (E : seq 0 (dim_z t u) !! length dn = Some z) by (by rewrite Hsp, list_lookup_middle).
      apply lookup_seq in E. simpl in E. lia. }
    destruct Hz as [-> Hlt]. cbv zeta.
    assert (Ep : p + length dn = line_addr t u w 0 (length dn)).
    { rewrite Hp. unfold line_addr, bundle_cache_index. lia. }
    destruct (fill_down_ok _ mem1 u w (length dn) HI1 Hw Hlt) as (mem' & E1 & HI').
    rewrite Ep, E1. cbn [rbind]. eexists. split; [done|].
    rewrite app_length. simpl. rewrite Nat.add_1_r. split_and!.
    + rewrite seq_S. rewrite <- Hdn. done.
    + rewrite <- Ep, binom_S. lia.
    + eapply inv_weaken; [|exact HI']. intros u' w' z' _ _ [?|[[= -> ->] ?]]; [naive_solver|].
      destruct (decide (z' = length dn)) as [->|]; [naive_solver|]. left. right. split; [done|lia].
  - cbv zeta in E |- *. rewrite E. cbn [rbind]. destruct HF as (_ & Hp & HI2). rewrite seq_length in *. simpl.
    exists mem2. split.
    + do 2 f_equal. rewrite Hp, <- linestride_z. lia.
    + eapply inv_weaken; [|exact HI2]. intros u' w' z' _ Hz [?|[= -> ->]]; [naive_solver|]. right. done.
Qed.

Lemma fill_side_ok D mem u : inv D mem ->
  exists mem', fill_side t (nm, em) u (dim_w t u) (dim_z t u) (mem, b2n u * orthstride t)
      = Ok (mem', b2n u * orthstride t + dim_w t u * linestride t u) /\
    inv (fun u' w' z' => D u' w' z' \/ u' = u) mem'.
Proof.
  intros HI. unfold fill_side.
  destruct (foldM_inv (fun s w => fill_line t (nm, em) u (dim_z t u) w s)
    (fun dn '(mem1, p) => p = b2n u * orthstride t + length dn * linestride t u /\
       inv (fun u' w' z' => D u' w' z' \/ u' = u /\ w' < length dn) mem1)
    (seq 0 (dim_w t u)) (mem, b2n u * orthstride t)) as ([mem2 p2] & E & HF).
  - split; [simpl; lia|]. eapply inv_weaken; [|exact HI]. intros u' w' z' _ _ [?|[? ?]]; [done|]. simpl in *; lia.
  - intros dn w rest [mem1 p] Hsp (-> & HI1).
    assert (Hz : w = length dn /\ length dn < dim_w t u).
    { assert (E : seq 0 (dim_w t u) !! length dn = Some w) by (by rewrite Hsp, list_lookup_middle).
      apply lookup_seq in E. simpl in E. lia. }
    destruct Hz as [-> Hlt].
    destruct (fill_line_ok _ mem1 u (length dn) HI1 Hlt) as (mem' & -> & HI'). eexists. split; [done|].
    rewrite app_length. simpl. rewrite Nat.add_1_r. split; [done|].
    eapply inv_weaken; [|exact HI']. intros u' w' z' _ _ [?|[-> ?]]; [naive_solver|].
    destruct (decide (w' = length dn)) as [->|]; [naive_solver|]. left. right. split; [done|lia].
  - rewrite E. destruct HF as (-> & HI2). rewrite seq_length in *. exists mem2. split; [done|].
    eapply inv_weaken; [|exact HI2]. intros u' w' z' Hw _ [?| ->]; [naive_solver|]. right. done.
Qed.

Lemma compute_line_masks_ok :
  exists lm, compute_line_masks t (nm, em) = Ok lm /\ length lm = line_mask_size t /\ bytes lm /\
    forall u w z0 z, w < dim_w t u -> z0 <= z -> z < dim_z t u ->
      forall k, mbit lm (line_addr t u w z0 z) k = true <-> rawok u w z0 z k.
Proof.
  unfold compute_line_masks.
  destruct (fill_side_ok (fun _ _ _ => False) (replicate (line_mask_size t) 0%N) false) as (mem1 & E1 & I1).
  { split_and!; [by rewrite replicate_length|apply bytes_replicate|done]. }
  simpl in E1. rewrite E1. cbn [rbind].
  destruct (fill_side_ok _ mem1 true I1) as (mem2 & E2 & I2).
  simpl in E2. rewrite Nat.add_0_r in E2. change (dim_x t * binom (dim_y t)) with (orthstride t).
  rewrite E2. cbn [rbind]. exists mem2. split; [done|].
  destruct I2 as (L & B & H). split_and!; try done. intros u w z0 z Hw Hz Hz1 k. apply H; try done.
  destruct u; naive_solver.
Qed.
End bundle.
