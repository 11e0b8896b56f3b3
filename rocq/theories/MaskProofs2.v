(** The bad-edge list and the masked topologies of a Chimera graph. *)
From stdpp Require Import base list list_numbers numbers gmap.
From Verif Require Import Base BusModel SpecBus CoordProofs BitProofs BundleProofs MaskProofs.

(** the masks stand for exactly the graph (nodes, edges) *)
Definition represents (t : topo) (nm em : list N) (nodes : list nat) (edges : list (nat * nat)) : Prop :=
  length nm = num_cells t /\ length em = num_cells t /\ bytes nm /\ bytes em /\
  (forall u w z k, w < dim_w t u -> z < dim_z t u ->
     mbit nm (cell_index_wz t u w z) k = true <-> (k < shore t /\ line_qubit (dim_x t) (shore t) u w z k ∈ nodes)) /\
  (forall u w z k, w < dim_w t u -> z < dim_z t u ->
     mbit em (cell_index_wz t u w z) k = true <->
     (k < shore t /\ exists z', z = z' + 1 /\
        has_edge edges (line_qubit (dim_x t) (shore t) u w z' k) (line_qubit (dim_x t) (shore t) u w z k))).

Section masks.
Context (t : topo) (Hsh : shore t <= 8).
Notation NQ := (dim_y t * (dim_x t * 2) * shore t).
Notation lin := (chimera_linear t).

Lemma lin_inj y x u k y' x' u' k' : x < dim_x t -> k < shore t -> x' < dim_x t -> k' < shore t ->
  lin y x u k = lin y' x' u' k' -> (y, x, u, k) = (y', x', u', k').
Proof. intros ? ? ? ? E. apply (f_equal (linear_chimera t)) in E. by rewrite !linear_of_chimera in E. Qed.

Lemma lin_ex q : q < NQ -> exists y x u k, q = lin y x u k /\ y < dim_y t /\ x < dim_x t /\ k < shore t.
Proof.
  intros H. destruct (linear_chimera t q) as [[[y x] u] k] eqn:E.
  apply chimera_of_linear in E as (E & ? & ? & ?); [|done]. by exists y, x, u, k.
Qed.

Lemma bad_nodes_ok nodes : (forall q, q ∈ nodes -> q < NQ) ->
  exists bm, bad_nodes nodes (replicate (num_cells t * shore t) 0%N) = Ok bm /\ length bm = NQ /\ bytes bm /\
    forall q l, mbit bm q l = true <-> (q ∈ nodes /\ l < 8).
Proof.
  intros Hr. unfold bad_nodes.
  destruct (foldM_inv bad_node (fun dn bm => length bm = NQ /\ bytes bm /\
      forall q l, mbit bm q l = true <-> (q ∈ dn /\ l < 8))
    nodes (replicate (num_cells t * shore t) 0%N)) as (bm & E & H).
  - split_and!; [by rewrite replicate_length|apply bytes_replicate|]. intros. rewrite mbit_replicate.
    split; [done|]. by intros [?%elem_of_nil _].
  - intros dn q rest bm Hsp (L & B & HI). unfold bad_node.
    assert (Hq : q < length bm) by (rewrite L; apply Hr; set_solver).
    rewrite vset_ok by done. eexists. split; [done|]. split_and!.
    + by rewrite insert_length.
    + by apply Forall_insert.
    + intros q' l. unfold mbit. destruct (decide (q' = q)) as [->|Hn].
      * rewrite list_lookup_insert by done. 
        rewrite <- (bits_elem 255) by done. change (bits 255) with (seq 0 8). rewrite elem_of_seq. set_solver by lia.
      * rewrite list_lookup_insert_ne by done. fold (mbit bm q' l). rewrite HI. set_solver.
  - exists bm. tauto.
Qed.

Lemma bad_edges_ok (nodes : list nat) edges bm0 : (forall p q, (p, q) ∈ edges -> p < NQ /\ q < NQ) ->
  length bm0 = NQ -> bytes bm0 -> (forall q l, mbit bm0 q l = true <-> (q ∈ nodes /\ l < 8)) ->
  exists bm, bad_edges_pass t edges bm0 = Ok bm /\ length bm = NQ /\ bytes bm /\
    forall y x u k l, y < dim_y t -> x < dim_x t -> k < shore t ->
      mbit bm (lin y x u k) l = true <->
        (lin y x u k ∈ nodes /\ l < 8 /\ ~ (l < shore t /\ has_edge edges (lin y x u k) (lin y x (negb u) l))).
Proof.
  intros Hr L0 B0 H0. unfold bad_edges_pass.
  destruct (foldM_inv (bad_edge t) (fun dn bm => length bm = NQ /\ bytes bm /\
      forall y x u k l, y < dim_y t -> x < dim_x t -> k < shore t ->
      mbit bm (lin y x u k) l = true <->
        (lin y x u k ∈ nodes /\ l < 8 /\ ~ (l < shore t /\ has_edge dn (lin y x u k) (lin y x (negb u) l))))
    edges bm0) as (bm & E & H).
  - split_and!; [done..|]. intros. rewrite H0. unfold has_edge. set_solver.
  - intros dn e rest bm Hsp (L & B & HI).
    destruct e as [a b]. destruct (Hr a b) as [Ha Hb]; [set_solver|].
    assert (Hpq : exists p q, norm (a, b) = (p, q) /\ p < NQ /\ q < NQ /\ ((p, q) = (a, b) \/ (p, q) = (b, a))).
    { unfold norm. simpl. destruct (b <? a); eauto 10. }
    destruct Hpq as (p & q & En & Hp & Hq & Hor). clear Ha Hb.
    unfold bad_edge. fold (norm (a, b)). rewrite En.
    destruct (lin_ex p Hp) as (py & px & pu & pk & -> & Hpy & Hpx & Hpk).
    destruct (lin_ex q Hq) as (qy & qx & qu & qk & -> & Hqy & Hqx & Hqk).
    rewrite !linear_of_chimera by done.
    assert (Hhe : forall c d, has_edge (dn ++ [(a, b)]) c d <-> has_edge dn c d \/
       (c = lin py px pu pk /\ d = lin qy qx qu qk) \/ (d = lin py px pu pk /\ c = lin qy qx qu qk)).
    { intros c d. unfold has_edge. rewrite !elem_of_app, !elem_of_list_singleton.
      destruct Hor as [[= <- <-]|[= <- <-]]; naive_solver. }
    destruct (negb (eqb pu qu) && (py =? qy) && (px =? qx)) eqn:Ec.
    + rewrite !andb_true_iff, !Nat.eqb_eq in Ec. destruct Ec as [[Eu <-] <-].
      assert (qu = negb pu) as -> by (by destruct pu, qu).
      rewrite !mask_bit_ok by lia. cbn [rbind].
      destruct (mclear_ok bm (lin py px pu pk) qk) as (bm1 & -> & L1 & B1 & M1); [by rewrite L|done|]. cbn [rbind].
      destruct (mclear_ok bm1 (lin py px (negb pu) qk) pk) as (bm2 & -> & L2 & B2 & M2); [by rewrite L1, L|done|].
      exists bm2. split; [done|]. split_and!; [lia|done|]. intros y x u k l Hy Hx Hk.
      rewrite M2, M1, !andb_true_iff, !negb_true_iff, !bool_decide_eq_false, HI, Hhe by done.
      split.
      * intros [[(? & ? & Hno) Hne1] Hne2]. split_and!; [done..|]. intros (Hl & [?|[[E1 E2]|[E1 E2]]]); [naive_solver| |].
        -- apply lin_inj in E1 as [= -> -> -> ->]; [|done..].
           apply lin_inj in E2 as [= ->]; [|done..]. naive_solver.
        -- apply lin_inj in E1 as [= -> -> <- ->]; [|done..]. naive_solver.
      * intros (? & ? & Hno). split_and!; try done.
        -- intros [? ?]. naive_solver.
        -- intros [E ->]. apply Hno. split; [done|]. right. left. split; [done|].
           apply lin_inj in E as [= -> -> -> ->]; done.
        -- intros [E ->]. apply Hno. split; [done|]. right. right. split; [|done].
           apply lin_inj in E as [= -> -> -> ->]; try done. by rewrite negb_involutive.
    + eexists. split; [done|]. split_and!; [done..|]. intros y x u k l Hy Hx Hk. rewrite HI, Hhe by done.
      split.
      * intros (? & ? & Hno). split_and!; [done..|]. intros (Hl & [?|[[E1 E2]|[E1 E2]]]); [naive_solver| |].
        -- apply lin_inj in E1 as [= -> -> -> ->]; [|done..].
           apply lin_inj in E2 as [= -> -> <- ->]; [|done..]. rewrite !Nat.eqb_refl in Ec. by destruct pu.
        -- apply lin_inj in E1 as [= -> -> <- ->]; [|done..].
           apply lin_inj in E2 as [= -> -> <- ->]; [|done..]. rewrite !Nat.eqb_refl in Ec. by destruct u.
      * naive_solver.
  - exists bm. tauto.
Qed.

Definition opp_bit (nm : list N) (q l : nat) : bool :=
  let '(y, x, u, k) := linear_chimera t q in mbit nm (cell_index t y x (negb u)) l.

Definition fin_inv (nm bm0 : list N) (s : list N * nat) : Prop :=
  length s.1 = NQ /\ bytes s.1 /\
  forall q l, mbit s.1 q l = mbit bm0 q l && (bool_decide (s.2 <= q) || opp_bit nm q l).

Lemma finish_shore_ok nm bm0 y x u s : length nm = num_cells t -> bytes nm ->
  y < dim_y t -> x < dim_x t -> fin_inv nm bm0 s -> s.2 = lin y x u 0 ->
  exists s', finish_shore t nm y x u s = Ok s' /\ fin_inv nm bm0 s' /\ s'.2 = s.2 + shore t.
Proof.
  intros Ln Bn Hy Hx HI0 Hq0. unfold finish_shore.
  destruct (foldM_inv (fun '(bm, q) (_ : nat) =>
      let! m := vget nm (cell_index t y x (negb u)) in let! bm := mand bm q m in Ok (bm, S q))
    (fun dn s' => fin_inv nm bm0 s' /\ s'.2 = s.2 + length dn) (seq 0 (shore t)) s) as (s' & E & HI & Hq).
  - split; [done|]. simpl. lia.
  - intros dn k rest [bm q] Hsp [(L & B & HI) Hq]. simpl in *.
    assert (Hk : length dn < shore t).
    { apply (f_equal length) in Hsp. rewrite app_length, seq_length in Hsp. simpl in Hsp. lia. }
    assert (Eq : q = lin y x u (length dn)) by (rewrite Hq, Hq0; unfold chimera_linear; lia).
    destruct (lookup_lt_is_Some_2 nm (cell_index t y x (negb u))) as [m Em].
    { rewrite Ln. by apply cell_index_lt. }
    rewrite (vget_ok _ _ _ Em). cbn [rbind].
    destruct (mand_ok bm q m) as (bm' & -> & L' & B' & HM).
    { rewrite L, Eq. by apply chimera_linear_lt. } { done. }
    cbn [rbind]. eexists. split; [done|]. simpl. split; [|rewrite app_length; simpl; lia].
    split_and!; simpl; [lia|done|]. intros q' l. rewrite HM, HI.
    rewrite <- andb_assoc. f_equal. destruct (decide (q' = q)) as [->|Hn].
    + rewrite (bool_decide_true (q <= q)), (bool_decide_false (q <> q)), (bool_decide_false (S q <= q)) by lia.
      simpl. unfold opp_bit. rewrite Eq, linear_of_chimera by done. unfold mbit. by rewrite Em.
    + rewrite (bool_decide_true (q' <> q)), andb_true_r by done. simpl.
      rewrite (bool_decide_ext (S q <= q') (q <= q')) by lia. done.
  - rewrite seq_length in Hq. by exists s'.
Qed.

Lemma finish_badmask_ok nm bm0 : length nm = num_cells t -> bytes nm -> length bm0 = NQ -> bytes bm0 ->
  exists bm, finish_badmask t nm bm0 = Ok bm /\ length bm = NQ /\ bytes bm /\
    forall q l, q < NQ -> mbit bm q l = mbit bm0 q l && opp_bit nm q l.
Proof.
  intros Ln Bn L0 B0. unfold finish_badmask.
  destruct (foldM_inv (fun s y =>
      foldM (fun s x => let! s := finish_shore t nm y x false s in finish_shore t nm y x true s) (seq 0 (dim_x t)) s)
    (fun dn s => fin_inv nm bm0 s /\ s.2 = lin (length dn) 0 false 0) (seq 0 (dim_y t)) (bm0, 0)) as (s & E & HI & Hq).
  - split; [|simpl; unfold chimera_linear; simpl; lia]. split_and!; try done. intros q l. simpl.
    by rewrite andb_true_r.
  - intros dn y rest s Hsp [HI Hq].
    assert (Hy : y = length dn /\ length dn < dim_y t).
    { assert (E : seq 0 (dim_y t) !! length dn = Some y) by (by rewrite Hsp, list_lookup_middle).
      apply lookup_seq in E. simpl in E. lia. }
    destruct Hy as [-> Hy].
    destruct (foldM_inv (fun s x => let! s := finish_shore t nm (length dn) x false s in finish_shore t nm (length dn) x true s)
      (fun dx s => fin_inv nm bm0 s /\ s.2 = lin (length dn) (length dx) false 0) (seq 0 (dim_x t)) s) as (s' & E & HI' & Hq').
    + done.
    + intros dx x rx s1 Hsx [HI1 Hq1].
      assert (Hx : x = length dx /\ length dx < dim_x t).
      { assert (E : seq 0 (dim_x t) !! length dx = Some x) by (by rewrite Hsx, list_lookup_middle).
        apply lookup_seq in E. simpl in E. lia. }
      destruct Hx as [-> Hx].
      destruct (finish_shore_ok nm bm0 (length dn) (length dx) false s1) as (s2 & -> & HI2 & Hq2); try done. cbn [rbind].
      destruct (finish_shore_ok nm bm0 (length dn) (length dx) true s2) as (s3 & -> & HI3 & Hq3); try done.
      { rewrite Hq2, Hq1. unfold chimera_linear. simpl. lia. }
      exists s3. split_and!; try done. rewrite Hq3, Hq2, Hq1, app_length. unfold chimera_linear. simpl. lia.
    + exists s'. split_and!; try done. rewrite seq_length in Hq'. rewrite Hq', app_length. unfold chimera_linear. simpl. lia.
  - rewrite E. cbn [rbind]. rewrite seq_length in Hq. destruct HI as (L & B & HI). exists s.1. split_and!; try done.
    intros q l Hlt. rewrite HI, bool_decide_false; [done|]. rewrite Hq. unfold chimera_linear. simpl. lia.
Qed.

Lemma compute_bad_edges_ok bm : length bm = NQ -> bytes bm ->
  exists bad, compute_bad_edges t bm = Ok bad /\
    forall a b, (a, b) ∈ bad <-> exists y x k l, y < dim_y t /\ x < dim_x t /\ k < shore t /\
       a = lin y x false k /\ b = lin y x true l /\ mbit bm a l = true.
Proof.
  intros L B. unfold compute_bad_edges.
  set (binv := fun s : list (nat * nat) * nat => forall a b, (a, b) ∈ s.1 <-> exists y x k l, y < dim_y t /\ x < dim_x t /\ k < shore t /\
       a = lin y x false k /\ b = lin y x true l /\ mbit bm a l = true /\ a < s.2).
  destruct (foldM_inv (fun s y =>
    foldM (fun s x =>
      let! s := foldM (fun '(bad, q) (_ : nat) =>
        let! m := vget bm q in
        let! ks := mask_bits 9 m in
        Ok (bad ++ ((fun bk => (q, chimera_linear t y x true bk)) <$> ks), S q)) (seq 0 (shore t)) s in
      Ok (s.1, s.2 + shore t)) (seq 0 (dim_x t)) s)
    (fun dn s => binv s /\ s.2 = lin (length dn) 0 false 0) (seq 0 (dim_y t)) ([], 0)) as (s & E & HI & Hq).
  - split; [|simpl; unfold chimera_linear; simpl; lia]. intros a b. simpl. split; [by intros ?%elem_of_nil|].
    intros (? & ? & ? & ? & ? & ? & ? & ? & ? & ? & ?). lia.
  - intros dn y rest s Hsp [HI Hq].
    assert (Hy : y = length dn /\ length dn < dim_y t).
    { assert (E : seq 0 (dim_y t) !! length dn = Some y) by (by rewrite Hsp, list_lookup_middle).
      apply lookup_seq in E. simpl in E. lia. }
    destruct Hy as [-> Hy].
    destruct (foldM_inv (fun s x =>
      let! s := foldM (fun '(bad, q) (_ : nat) =>
        let! m := vget bm q in
        let! ks := mask_bits 9 m in
        Ok (bad ++ ((fun bk => (q, chimera_linear t (length dn) x true bk)) <$> ks), S q)) (seq 0 (shore t)) s in
      Ok (s.1, s.2 + shore t))
      (fun dx s => binv s /\ s.2 = lin (length dn) (length dx) false 0) (seq 0 (dim_x t)) s) as (s' & E & HI' & Hq').
    + done.
    + intros dx x rx s1 Hsx [HI1 Hq1].
      assert (Hx : x = length dx /\ length dx < dim_x t).
      { assert (E : seq 0 (dim_x t) !! length dx = Some x) by (by rewrite Hsx, list_lookup_middle).
        apply lookup_seq in E. simpl in E. lia. }
      destruct Hx as [-> Hx].
      destruct (foldM_inv (fun '(bad, q) (_ : nat) =>
        let! m := vget bm q in
        let! ks := mask_bits 9 m in
        Ok (bad ++ ((fun bk => (q, chimera_linear t (length dn) (length dx) true bk)) <$> ks), S q))
        (fun dk s => binv s /\ s.2 = lin (length dn) (length dx) false (length dk)) (seq 0 (shore t)) s1) as (s2 & E2 & HI2 & Hq2).
      * done.
      * intros dk k rk [bad q] Hsk [HI2 Hq2]. simpl in Hq2.
        assert (Hk : length dk < shore t).
        { apply (f_equal length) in Hsk. rewrite app_length, seq_length in Hsk. simpl in Hsk. lia. }
        destruct (lookup_lt_is_Some_2 bm q) as [m Em]. { rewrite L, Hq2. by apply chimera_linear_lt. }
        rewrite (vget_ok _ _ _ Em). cbn [rbind].
        rewrite mask_bits_9 by (by eapply bytes_lookup). cbn [rbind]. eexists. split; [done|]. simpl.
        split; [|rewrite app_length, Hq2; unfold chimera_linear; simpl; lia].
        intros a b. simpl. rewrite elem_of_app, elem_of_list_fmap. rewrite (HI2 a b). simpl. split.
        -- intros [(y & x & k' & l & H)|(l & [= -> ->] & Hl)].
           ++ exists y, x, k', l. naive_solver lia.
           ++ exists (length dn), (length dx), (length dk), l. rewrite <- (mbit_bits bm q m) by done.
              split_and!; try done. lia.
        -- intros (y & x & k' & l & Hy' & Hx' & Hk' & -> & -> & Hb & Hlt).
           destruct (decide (lin y x false k' < q)) as [?|Hge]; [left; by exists y, x, k', l|].
           right. assert (Eq : lin y x false k' = q) by lia. exists l. rewrite Hq2 in Eq. pose proof Eq as Eq'.
           apply lin_inj in Eq' as [= -> -> ->]; [|done..]. rewrite <- Hq2. split; [done|].
           rewrite (mbit_bits bm q m) by done. rewrite Hq2. done.
      * rewrite E2. cbn [rbind]. eexists. split; [done|]. simpl. rewrite seq_length in Hq2.
        split; [|rewrite Hq2, app_length; unfold chimera_linear; simpl; lia].
        intros a b. simpl. rewrite (HI2 a b). split.
        -- intros (y & x & k' & l & H). exists y, x, k', l. naive_solver lia.
        -- intros (y & x & k' & l & Hy' & Hx' & Hk' & -> & -> & Hb & Hlt).
           exists y, x, k', l. split_and!; try done.
           rewrite Hq2 in Hlt |- *. unfold chimera_linear in Hlt |- *. simpl in *.
           (* a vertical qubit below the horizontal shore of this cell is below its start *)
           destruct (decide (x + dim_x t * y < length dx + dim_x t * length dn)) as [?|?]; [nia|].
           destruct (decide (x + dim_x t * y = length dx + dim_x t * length dn)) as [Ee|?].
           ++ rewrite Ee. lia.
           ++ nia.
    + exists s'. split_and!; try done. rewrite seq_length in Hq'. rewrite Hq', app_length. unfold chimera_linear. simpl. lia.
  - rewrite E. cbn [rbind]. rewrite seq_length in Hq. exists s.1. split; [done|]. intros a b. rewrite (HI a b).
    split; intros (y & x & k & l & H); exists y, x, k, l; [naive_solver|].
    destruct H as (? & ? & ? & -> & ? & ?). split_and!; try done. rewrite Hq.
    pose proof (chimera_linear_lt t y x false k). unfold chimera_linear at 2. simpl. lia.
Qed.

(** two qubits of one cell on opposite shores, both present, without a coupler *)
Definition is_bad (nodes : list nat) (edges : list (nat * nat)) (a b : nat) : Prop :=
  exists y x k l, y < dim_y t /\ x < dim_x t /\ k < shore t /\ l < shore t /\
    a = lin y x false k /\ b = lin y x true l /\ a ∈ nodes /\ b ∈ nodes /\ ~ has_edge edges a b.

Lemma node_wz nm (nodes : list nat) : 
  (forall y x u k, y < dim_y t -> x < dim_x t ->
      mbit nm (cell_index t y x u) k = true <-> (k < shore t /\ lin y x u k ∈ nodes)) ->
  forall u w z k, w < dim_w t u -> z < dim_z t u ->
     mbit nm (cell_index_wz t u w z) k = true <-> (k < shore t /\ line_qubit (dim_x t) (shore t) u w z k ∈ nodes).
Proof.
  intros H u w z k Hw Hz. rewrite line_qubit_linear. unfold cell_index_wz. destruct u; by apply H.
Qed.

Lemma topo_init_ok nodes edges : good_graph NQ nodes edges ->
  exists c, topo_init t nodes edges = Ok c /\ tc_topo c = t /\
    represents t (tc_nodemask c) (tc_edgemask c) nodes edges /\
    (forall a b, (a, b) ∈ tc_bad c <-> is_bad nodes edges a b).
Proof.
  intros [Hn He]. unfold topo_init.
  destruct (node_mask_ok t Hsh nodes Hn) as (nm & -> & Ln & Bn & Mn). cbn [rbind].
  destruct (bad_nodes_ok nodes Hn) as (bm0 & -> & L0 & B0 & M0). cbn [rbind].
  assert (He' : forall p q, (p, q) ∈ edges -> p < NQ /\ q < NQ).
  { intros p q [? ?]%He. split; by apply Hn. }
  destruct (edge_mask_ok t Hsh edges He') as (em & -> & Lm & Be & Me). cbn [rbind].
  destruct (bad_edges_ok nodes edges bm0 He' L0 B0 M0) as (bm1 & -> & L1 & B1 & M1). cbn [rbind].
  destruct (finish_badmask_ok nm bm1 Ln Bn L1 B1) as (bm2 & -> & L2 & B2 & M2). cbn [rbind].
  destruct (compute_bad_edges_ok bm2 L2 B2) as (bad & -> & M3). cbn [rbind].
  eexists. split; [done|]. simpl. split_and!; try done.
  - split_and!; try done. by apply node_wz.
  - intros a b. rewrite M3. split.
    + intros (y & x & k & l & Hy & Hx & Hk & -> & -> & Hb).
      rewrite M2 in Hb by (by apply chimera_linear_lt). apply andb_true_iff in Hb as [H1 H2].
      rewrite M1 in H1 by done. unfold opp_bit in H2. rewrite linear_of_chimera in H2 by done. simpl in *.
      apply Mn in H2 as [? ?]; [|done..]. exists y, x, k, l. naive_solver.
    + intros (y & x & k & l & Hy & Hx & Hk & Hl & -> & -> & Ha & Hb & Hno). exists y, x, k, l. split_and!; try done.
      rewrite M2 by (by apply chimera_linear_lt). apply andb_true_iff. split.
      * apply M1; try done. split_and!; [done|lia|]. simpl. naive_solver.
      * unfold opp_bit. rewrite linear_of_chimera by done. simpl. by apply Mn.
Qed.

Lemma has_edge_without R edges p q : has_edge (edges_without R edges) p q <-> has_edge edges p q /\ p ∉ R /\ q ∉ R.
Proof. unfold has_edge, edges_without. rewrite !elem_of_list_filter. simpl. tauto. Qed.

Lemma cell_wz_inj u w z u' w' z' : w < dim_w t u -> z < dim_z t u -> w' < dim_w t u' -> z' < dim_z t u' ->
  cell_index_wz t u w z = cell_index_wz t u' w' z' -> (u, w, z) = (u', w', z').
Proof.
  unfold cell_index_wz, dim_w, dim_z. intros ? ? ? ? E.
  destruct u, u'; apply cell_index_inj in E as (? & ? & ?); try done; congruence.
Qed.

Lemma line_qubit_inj u w z k u' w' z' k' : w < dim_w t u -> z < dim_z t u -> w' < dim_w t u' -> z' < dim_z t u' ->
  k < shore t -> k' < shore t ->
  line_qubit (dim_x t) (shore t) u w z k = line_qubit (dim_x t) (shore t) u' w' z' k' -> (u, w, z, k) = (u', w', z', k').
Proof.
  rewrite !line_qubit_linear. unfold dim_w, dim_z. intros ? ? ? ? ? ? E.
  destruct u, u'; apply lin_inj in E; try done; congruence.
Qed.

Lemma drop_nodes_ok nm0 em0 nodes edges R : represents t nm0 em0 nodes edges -> (forall q, q ∈ R -> q < NQ) ->
  exists nm em, drop_nodes t R (nm0, em0) = Ok (nm, em) /\
    represents t nm em (without R nodes) (edges_without R edges).
Proof.
  intros (Ln & Le & Bn & Be & Mn & Me) HR. unfold drop_nodes.
  destruct (foldM_inv (drop_node t) (fun dn s => represents t s.1 s.2 (without dn nodes) (edges_without dn edges))
    R (nm0, em0)) as ([nm em] & E & H).
  - simpl. split_and!; try done.
    + intros u w z k Hw Hz. rewrite Mn by done. unfold without. rewrite elem_of_list_filter.
      split; [|tauto]. intros [? ?]. split_and!; try done. apply not_elem_of_nil.
    + intros u w z k Hw Hz. rewrite Me by done. setoid_rewrite has_edge_without.
      split; [|naive_solver]. intros (? & z' & ? & ?). split; [done|]. exists z'. split_and!; try done; apply not_elem_of_nil.
  - intros dn q rest [nm em] Hsp (Ln' & Le' & Bn' & Be' & Mn' & Me'). cbn [fst snd] in Ln', Le', Bn', Be', Mn', Me'.
    assert (Hq : q < NQ) by (apply HR; set_solver).
    destruct (lin_ex q Hq) as (y & x & u & k & -> & Hy & Hx & Hk).
    unfold drop_node. rewrite linear_of_chimera by done. rewrite mask_bit_ok by lia. cbn [rbind].
    set (W := if u then y else x). set (Z := if u then x else y).
    assert (HW : W < dim_w t u) by (by destruct u). assert (HZ : Z < dim_z t u) by (by destruct u).
    assert (Ei : cell_index t y x u = cell_index_wz t u W Z) by (by destruct u).
    assert (El : lin y x u k = line_qubit (dim_x t) (shore t) u W Z k) by (rewrite line_qubit_linear; by destruct u).
    rewrite Ei.
    destruct (mclear_ok nm (cell_index_wz t u W Z) k) as (nm' & -> & L1 & B1 & M1).
    { rewrite Ln'. by apply cell_wz_lt; destruct u. } { done. }
    cbn [rbind].
    destruct (mclear_ok em (cell_index_wz t u W Z) k) as (em' & -> & L2 & B2 & M2).
    { rewrite Le'. by apply cell_wz_lt; destruct u. } { done. }
    cbn [rbind].
    assert (Hnext : exists em'', (if u then if x + 1 <? dim_x t then mclear em' (cell_index t y (x + 1) u) (N.shiftl 1 (N.of_nat k)) else Ok em'
        else if y + 1 <? dim_y t then mclear em' (cell_index t (y + 1) x u) (N.shiftl 1 (N.of_nat k)) else Ok em') = Ok em'' /\
        length em'' = num_cells t /\ bytes em'' /\
        forall u' w' z' l, w' < dim_w t u' -> z' < dim_z t u' -> mbit em'' (cell_index_wz t u' w' z') l =
          mbit em' (cell_index_wz t u' w' z') l && negb (bool_decide (u' = u /\ w' = W /\ z' = Z + 1 /\ l = k))).
    { assert (G : (if u then if x + 1 <? dim_x t then mclear em' (cell_index t y (x + 1) u) (N.shiftl 1 (N.of_nat k)) else Ok em'
        else if y + 1 <? dim_y t then mclear em' (cell_index t (y + 1) x u) (N.shiftl 1 (N.of_nat k)) else Ok em') =
        (if Z + 1 <? dim_z t u then mclear em' (cell_index_wz t u W (Z + 1)) (N.shiftl 1 (N.of_nat k)) else Ok em')).
      { by destruct u. }
      rewrite G. destruct (Nat.ltb_spec (Z + 1) (dim_z t u)) as [HZ1|HZ1].
      - destruct (mclear_ok em' (cell_index_wz t u W (Z + 1)) k) as (em'' & -> & L3 & B3 & M3).
        { rewrite L2, Le'. by apply cell_wz_lt; destruct u. } { done. }
        exists em''. split_and!; [done|lia|done|]. intros u' w' z' l Hw' Hz'. rewrite M3. f_equal. f_equal.
        apply bool_decide_ext. split; [|naive_solver]. intros [E ->]. apply cell_wz_inj in E as [= -> -> ->]; done.
      - exists em'. split_and!; [done|lia|done|]. intros u' w' z' l Hw' Hz'.
        rewrite bool_decide_false; [by rewrite andb_true_r|]. intros (-> & -> & -> & ->). lia. }
    destruct Hnext as (em'' & -> & L3 & B3 & M3). cbn [rbind]. eexists. split; [done|]. simpl.
    split_and!; [lia|lia|done|done| |].
    + intros u' w' z' l Hw' Hz'. rewrite M1, andb_true_iff, negb_true_iff, bool_decide_eq_false, Mn' by done.
      unfold without. rewrite !elem_of_list_filter, not_elem_of_app, elem_of_list_singleton.
      split.
      * intros [(? & ? & ?) Hne]. split_and!; try done. intros E. apply Hne. rewrite El in E.
        apply line_qubit_inj in E as [= -> -> -> ->]; done.
      * intros (? & (? & Hne) & ?). split_and!; try done. intros [E ->]. apply Hne. rewrite El.
        apply cell_wz_inj in E as [= -> -> ->]; done.
    + intros u' w' z' l Hw' Hz'.
      rewrite M3, M2, !andb_true_iff, !negb_true_iff, !bool_decide_eq_false, Me' by done.
      setoid_rewrite has_edge_without. setoid_rewrite not_elem_of_app. setoid_rewrite elem_of_list_singleton. split.
      * intros [[(? & z1 & -> & (? & ? & ?)) Hne1] Hne2]. split; [done|]. exists z1. split_and!; try done.
        -- intros E. apply Hne2. rewrite El in E. apply line_qubit_inj in E as [= -> -> -> ->]; try done. lia.
        -- intros E. apply Hne1. rewrite El in E. apply line_qubit_inj in E as [= -> -> -> ->]; done.
      * intros (? & z1 & -> & (? & (? & Hne1) & (? & Hne2))). split; [split; [split; [done|]; exists z1; by split_and!|]|].
        -- intros [E ->]. apply Hne2. rewrite El. apply cell_wz_inj in E as [= -> -> ->]; done.
        -- intros (-> & -> & E & ->). apply Hne1. rewrite El. assert (z1 = Z) as -> by lia. done.
  - exists nm, em. done.
Qed.
End masks.
