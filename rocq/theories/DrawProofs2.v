(** The picture of a Chimera graph. *)
From stdpp Require Import base list list_numbers numbers gmap relations sorting.
From Verif Require Import Base BusModel CliqueModel FragModel DrawModel SpecBus SpecFrag SpecDraw CoordProofs BitProofs BundleProofs MaskProofs MaskProofs2 TopoProofs BusTop DrawProofs1.

Section chimera.
Context (t : topo) (Hsh : shore t <= 8).
Notation NQ := (dim_y t * (dim_x t * 2) * shore t).
Notation lin := (chimera_linear t).

(** the bad mask of a vertical qubit: the horizontal qubits of its cell it is not coupled to *)
Lemma topo_init_bad nodes edges c : good_graph NQ nodes edges -> topo_init t nodes edges = Ok c ->
  tc_topo c = t /\ represents t (tc_nodemask c) (tc_edgemask c) nodes edges /\ length (tc_badmask c) = NQ /\
  (forall y x k l, y < dim_y t -> x < dim_x t -> k < shore t -> l < shore t -> lin y x false k ∈ nodes -> lin y x true l ∈ nodes ->
     mbit (tc_badmask c) (lin y x false k) l = true <-> ~ has_edge edges (lin y x false k) (lin y x true l)).
Proof.
  intros [Hn He]. unfold topo_init.
  destruct (node_mask_ok t Hsh nodes Hn) as (nm & -> & Ln & Bn & Mn). cbn [rbind].
  destruct (bad_nodes_ok t Hsh nodes Hn) as (bm0 & -> & L0 & B0 & M0). cbn [rbind].
  assert (He' : forall p q, (p, q) ∈ edges -> p < NQ /\ q < NQ).
  { intros p q [? ?]%He. split; by apply Hn. }
  destruct (edge_mask_ok t Hsh edges He') as (em & -> & Lm & Be & Me). cbn [rbind].
  destruct (bad_edges_ok t Hsh nodes edges bm0 He' L0 B0 M0) as (bm1 & -> & L1 & B1 & M1). cbn [rbind].
  destruct (finish_badmask_ok t Hsh nm bm1 Ln Bn L1 B1) as (bm2 & -> & L2 & B2 & M2). cbn [rbind].
  destruct (compute_bad_edges_ok t Hsh bm2 L2 B2) as (bad & -> & M3). cbn [rbind].
  intros [= <-]. cbn [tc_topo tc_nodemask tc_edgemask tc_badmask]. split_and!; try done.
  - split_and!; try done. by apply node_wz.
  - intros y x k l Hy Hx Hk Hl Ha Hb.
    rewrite M2 by (by apply chimera_linear_lt). rewrite andb_true_iff, M1 by done. unfold opp_bit. rewrite linear_of_chimera by done. simpl.
    rewrite Mn by done. split; [naive_solver|]. intros. split_and!; [done|lia|naive_solver|done|done].
Qed.

Definition edge_lt (e e' : nat * nat) : Prop := e.1 < e'.1 \/ e.1 = e'.1 /\ e.2 < e'.2.

Theorem picture_chimera nodes edges c : good_graph NQ nodes edges -> topo_init t nodes edges = Ok c ->
  exists ns es, picture c = Ok (ns, es) /\
    pictures (dim_y t) (dim_x t) (shore t) (chimera_owner (dim_x t) (shore t)) nodes edges ns es.
Proof.
  intros Hg Ec. destruct (topo_init_bad nodes edges c Hg Ec) as (Et & HR & Lb & Hbad).
  pose proof (represents_shows _ _ _ _ _ HR) as (Ln & Le & _ & _ & Hs). unfold picture. rewrite Et.
  set (nm := tc_nodemask c) in *. set (em := tc_edgemask c) in *. set (bm := tc_badmask c) in *.
  assert (Hn : forall u y x k, y < dim_y t -> x < dim_x t -> mbit nm (cell_index t y x u) k = true <-> k < shore t /\ lin y x u k ∈ nodes).
  { intros u y x k Hy Hx. destruct (Hs y x u k Hy Hx) as [H _]. by rewrite cell_pos, bit_at_mbit, qubit_linear in H. }
  assert (Hv : forall y x k, y < dim_y t -> x < dim_x t -> mbit em (cell_index t y x false) k = true <->
    k < shore t /\ exists y', y = S y' /\ has_edge edges (lin y' x false k) (lin y x false k)).
  { intros y x k Hy Hx. destruct (Hs y x false k Hy Hx) as [_ H]. rewrite (cell_pos t y x false), bit_at_mbit in H. setoid_rewrite qubit_linear in H. exact H. }
  assert (Hh : forall y x k, y < dim_y t -> x < dim_x t -> mbit em (cell_index t y x true) k = true <->
    k < shore t /\ exists x', x = S x' /\ has_edge edges (lin y x' true k) (lin y x true k)).
  { intros y x k Hy Hx. destruct (Hs y x true k Hy Hx) as [_ H]. rewrite (cell_pos t y x true), bit_at_mbit in H. setoid_rewrite qubit_linear in H. exact H. }
  rewrite (fragment_nodes_list t Hsh nm em bm Ln Le Lb). cbn [rbind].
  rewrite (fragment_edges_list t Hsh nm em bm Ln Le Lb); [|intros [] y x k Hy Hx; [intros (_ & ? & -> & _)%Hh|intros (_ & ? & -> & _)%Hv]; done].
  cbn [rbind]. eexists _, _. split; [done|].
  assert (Hback : forall u y x k p q, y < dim_y t -> x < dim_x t -> k < shore t -> (p, q) ∈ backF t em u y x k <->
    p = lin y x u k /\ (if u then exists x', x = S x' /\ q = lin y x' true k else exists y', y = S y' /\ q = lin y' x false k) /\ has_edge edges q p).
  { intros u y x k p q Hy Hx Hk. unfold backF. destruct (mbit em (cell_index t y x u) k) eqn:E.
    - rewrite elem_of_list_singleton. destruct u.
      + apply Hh in E as (_ & x' & -> & E); [|done..]. replace (S x' - 1) with x' by lia. split; [intros [= -> ->]; naive_solver|].
        intros (-> & (x1 & [= <-] & ->) & _). done.
      + apply Hv in E as (_ & y' & -> & E); [|done..]. replace (S y' - 1) with y' by lia. split; [intros [= -> ->]; naive_solver|].
        intros (-> & (x1 & [= <-] & ->) & _). done.
    - split; [by intros ?%elem_of_nil|]. intros (-> & H & He). exfalso. assert (Hx' : mbit em (cell_index t y x u) k = true); [|congruence].
      destruct u; destruct H as (z & -> & ->); [apply Hh|apply Hv]; try done; (split; [done|]); by eexists. }
  assert (Hcross : forall y x k p q, y < dim_y t -> x < dim_x t -> k < shore t -> (p, q) ∈ crossF t nm bm y x k <->
    exists l, l < shore t /\ p = lin y x false k /\ q = lin y x true l /\ has_edge edges p q).
  { intros y x k p q Hy Hx Hk. unfold crossF.
    assert (Hin : forall p q, has_edge edges p q -> p ∈ nodes /\ q ∈ nodes).
    { intros a b. destruct Hg as [_ He]. intros [H|H]; apply He in H; tauto. }
    destruct (mbit nm (cell_index t y x false) k) eqn:E.
    - apply Hn in E as [_ Hp]; [|done..]. rewrite elem_of_list_bind. split.
      + intros (l & Hl & Hr%elem_of_seq). destruct (mbit nm (cell_index t y x true) l && _) eqn:E2; [|by apply elem_of_nil in Hl].
        apply elem_of_list_singleton in Hl. injection Hl as -> ->. apply andb_true_iff in E2 as [E2 E3].
        apply Hn in E2 as [Hl Hq]; [|done..]. exists l. split_and!; try done.
        apply negb_true_iff in E3. destruct (decide (has_edge edges (lin y x false k) (lin y x true l))) as [?|Hno]; [done|].
        apply Hbad in Hno; try done. congruence.
      + intros (l & Hl & -> & -> & He). exists l. split; [|apply elem_of_seq; lia].
        destruct (Hin _ _ He) as [_ Hq]. assert (E2 : mbit nm (cell_index t y x true) l = true) by (by apply Hn).
        rewrite E2. destruct (mbit bm (lin y x false k) l) eqn:E3; [by apply Hbad in E3|]. by left.
    - split; [by intros ?%elem_of_nil|]. intros (l & Hl & -> & -> & He). destruct (Hin _ _ He) as [Hp _]. exfalso.
      assert (mbit nm (cell_index t y x false) k = true) by (by apply Hn). congruence. }
  assert (Hedge : forall u y x k p q, y < dim_y t -> x < dim_x t -> k < shore t -> (p, q) ∈ edgeF t nm em bm u y x k -> p = lin y x u k).
  { intros u y x k p q Hy Hx Hk. unfold edgeF. rewrite elem_of_app. intros [H|H]; [by apply Hback in H as (-> & _)|].
    destruct u; [by apply elem_of_nil in H|]. by apply Hcross in H as (l & _ & -> & _). }
  split_and!.
  - apply sorted_grid.
    + intros u y x k Hy Hx Hk. unfold nodeF. destruct (mbit _ _ _); repeat constructor.
    + intros u y x k u' y' x' k' b d Hy Hx Hk Hy' Hx' Hk' Hlt. unfold nodeF.
      destruct (mbit _ _ _); [|by intros ?%elem_of_nil]. intros ->%elem_of_list_singleton.
      destruct (mbit _ _ _); [|by intros ?%elem_of_nil]. intros ->%elem_of_list_singleton. done.
  - intros f. rewrite elem_of_grid. unfold fragment, chimera_owner. split.
    + intros (u & y & x & k & Hy & Hx & Hk & H). unfold nodeF in H. destruct (mbit _ _ _) eqn:E; [|by apply elem_of_nil in H].
      apply elem_of_list_singleton in H as ->. apply Hn in E as [_ E]; [|done..]. exists (lin y x u k). split; [done|].
      destruct u; [exists true, y, x, k|exists false, x, y, k]; rewrite line_qubit_linear; done.
    + intros (q & Hq & u & w & pos & k & Hw & Hp & Hk & -> & ->).
      destruct u; rewrite line_qubit_linear in *; cbn in Hw, Hp; [exists true, w, pos, k|exists false, pos, w, k]; (split_and!; [done..|]);
        unfold nodeF; (destruct (mbit _ _ _) eqn:E; [by left|]); exfalso; apply not_true_iff_false in E; apply E; by apply Hn.
  - apply (sorted_nodup edge_lt); [intros [p q]; unfold edge_lt; cbn; lia|]. apply sorted_grid.
    + intros u y x k Hy Hx Hk. unfold edgeF. apply sorted_app.
      * unfold backF. destruct (mbit _ _ _); repeat constructor.
      * destruct u; [constructor|]. unfold crossF. destruct (mbit _ _ _); [|constructor].
        apply (sorted_bind _ lt); [apply sorted_seq| |].
        -- intros l _. destruct (_ && _); repeat constructor.
        -- intros l l' b d _ _ Hll. destruct (_ && _); [|by intros ?%elem_of_nil]. intros ->%elem_of_list_singleton.
           destruct (_ && _); [|by intros ?%elem_of_nil]. intros ->%elem_of_list_singleton. right. cbn. split; [done|]. unfold chimera_linear. lia.
      * intros [p q] [p' q'] Hb Hc. destruct u; [by apply elem_of_nil in Hc|]. apply Hback in Hb as (-> & (y' & -> & ->) & _); [|done..].
        apply Hcross in Hc as (l & Hl & -> & -> & _); [|done..]. right. cbn. split; [done|]. unfold chimera_linear, b2n. nia.
    + intros u y x k u' y' x' k' [p q] [p' q'] Hy Hx Hk Hy' Hx' Hk' Hlt Hb Hc.
      apply Hedge in Hb as ->; [|done..]. apply Hedge in Hc as ->; [|done..]. by left.
  - intros f g. rewrite !elem_of_grid. intros (u & y & x & k & Hy & Hx & Hk & H) (u' & y' & x' & k' & Hy' & Hx' & Hk' & H').
    assert (Hcase : forall u y x k p q, y < dim_y t -> x < dim_x t -> k < shore t -> (p, q) ∈ edgeF t nm em bm u y x k ->
      (q < p /\ exists y' x', x' < dim_x t /\ q = lin y' x' u k) \/
      (p < q /\ u = false /\ exists l, l < shore t /\ q = lin y x true l)).
    { intros u1 y1 x1 k1 p q Hy1 Hx1 Hk1. unfold edgeF. rewrite elem_of_app. intros [Hb|Hc].
      - left. apply Hback in Hb as (-> & Hb & _); [|done..].
        destruct u1; destruct Hb as (z & -> & ->); (split; [unfold chimera_linear, b2n; nia|]); [exists y1, z|exists z, x1]; (split; [lia|done]).
      - right. destruct u1; [by apply elem_of_nil in Hc|]. apply Hcross in Hc as (l & Hl & -> & -> & _); [|done..].
        split; [unfold chimera_linear, b2n; nia|]. split; [done|]. by exists l. }
    assert (Hno : forall u y x k u' y' x' k' p q, y < dim_y t -> x < dim_x t -> k < shore t -> y' < dim_y t -> x' < dim_x t -> k' < shore t ->
      (p, q) ∈ edgeF t nm em bm u y x k -> (q, p) ∈ edgeF t nm em bm u' y' x' k' -> p < q -> False).
    { intros u1 y1 x1 k1 u2 y2 x2 k2 p q Hy1 Hx1 Hk1 Hy2 Hx2 Hk2 H1 H2 Hpq.
      pose proof (Hedge _ _ _ _ _ _ Hy1 Hx1 Hk1 H1) as E1. pose proof (Hedge _ _ _ _ _ _ Hy2 Hx2 Hk2 H2) as E2.
      destruct (Hcase _ _ _ _ _ _ Hy1 Hx1 Hk1 H1) as [[? _]|(_ & -> & l & Hl & E3)]; [lia|].
      rewrite E2 in E3. apply lin_inj in E3 as [= -> -> -> ->]; [|done..].
      destruct (Hcase _ _ _ _ _ _ Hy2 Hx2 Hk2 H2) as [[_ (y3 & x3 & Hx3 & E4)]|(? & _)]; [|lia].
      rewrite E1 in E4. by apply lin_inj in E4. }
    destruct (Nat.lt_trichotomy f g) as [Hfg|[->|Hfg]].
    + eapply Hno; [..|exact H|exact H'|done]; done.
    + destruct (Hcase _ _ _ _ _ _ Hy Hx Hk H) as [[? _]|[? _]]; lia.
    + eapply Hno; [..|exact H'|exact H|done]; done.
  - assert (G : forall f g, (f, g) ∈ grid_list t (edgeF t nm em bm) <->
      (exists u w pos k, w < nlines (dim_y t) (dim_x t) u /\ S pos < npositions (dim_y t) (dim_x t) u /\ k < shore t /\
         f = line_qubit (dim_x t) (shore t) u w (S pos) k /\ g = line_qubit (dim_x t) (shore t) u w pos k /\ has_edge edges g f) \/
      (exists x y k l, x < dim_x t /\ y < dim_y t /\ k < shore t /\ l < shore t /\
         f = line_qubit (dim_x t) (shore t) false x y k /\ g = line_qubit (dim_x t) (shore t) true y x l /\ has_edge edges f g)).
    { intros f g. rewrite elem_of_grid. split.
      - intros (u & y & x & k & Hy & Hx & Hk & H). unfold edgeF in H. apply elem_of_app in H as [H|H].
        + left. apply Hback in H as (-> & Hb & He); [|done..]. destruct u; destruct Hb as (z & -> & ->); [exists true, y, z, k|exists false, x, z, k];
            rewrite !line_qubit_linear; done.
        + right. destruct u; [by apply elem_of_nil in H|]. apply Hcross in H as (l & Hl & -> & -> & He); [|done..].
          exists x, y, k, l. rewrite !line_qubit_linear. done.
      - intros [(u & w & pos & k & Hw & Hp & Hk & -> & -> & He)|(x & y & k & l & Hx & Hy & Hk & Hl & -> & -> & He)]; rewrite !line_qubit_linear in *.
        + destruct u; [exists true, w, (S pos), k|exists false, (S pos), w, k]; cbn in Hw, Hp; (split_and!; [done..|]); unfold edgeF; apply elem_of_app; left;
            apply Hback; try done; (split_and!; [done| |done]); by exists pos.
        + exists false, y, x, k. split_and!; [done..|]. unfold edgeF. apply elem_of_app. right. apply Hcross; try done. by exists l. }
    assert (HT : forall f g, touch (dim_y t) (dim_x t) (shore t) (chimera_owner (dim_x t) (shore t)) nodes edges f g <->
      (g, f) ∈ grid_list t (edgeF t nm em bm) /\ (exists u w pos k, w < nlines (dim_y t) (dim_x t) u /\ S pos < npositions (dim_y t) (dim_x t) u /\ k < shore t /\
         g = line_qubit (dim_x t) (shore t) u w (S pos) k /\ f = line_qubit (dim_x t) (shore t) u w pos k) \/
      (f, g) ∈ grid_list t (edgeF t nm em bm) /\ (exists x y k l, x < dim_x t /\ y < dim_y t /\ k < shore t /\ l < shore t /\
         f = line_qubit (dim_x t) (shore t) false x y k /\ g = line_qubit (dim_x t) (shore t) true y x l)).
    { intros f g. unfold touch, chimera_owner. split.
      - intros [(u & w & pos & k & p & q & Hw & Hp & Hk & -> & -> & -> & -> & He)|(x & y & k & l & p & q & Hx & Hy & Hk & Hl & -> & -> & -> & -> & He)].
        + left. destruct He as [[E _]|He]; [apply (line_qubit_inj t) in E; [|destruct u; cbn in *; lia..]; exfalso; injection E; lia|].
          split; [|by exists u, w, pos, k]. apply G. left. by exists u, w, pos, k.
        + right. split; [|by exists x, y, k, l]. apply G. right. by exists x, y, k, l.
      - intros [[H (u & w & pos & k & Hw & Hp & Hk & -> & ->)]|[H (x & y & k & l & Hx & Hy & Hk & Hl & -> & ->)]]; apply G in H.
        + left. exists u, w, pos, k. eexists _, _. split_and!; try done. right.
          destruct H as [(u1 & w1 & p1 & k1 & _ & _ & _ & _ & _ & He)|(x1 & y1 & k1 & l1 & _ & _ & _ & _ & _ & _ & He)]; [done|]. unfold has_edge in *; tauto.
        + right. exists x, y, k, l. eexists _, _. split_and!; try done.
          destruct H as [(u1 & w1 & p1 & k1 & _ & _ & _ & _ & _ & He)|(x1 & y1 & k1 & l1 & _ & _ & _ & _ & _ & _ & He)]; [|done]. unfold has_edge in *; tauto. }
    assert (HT2 : forall f g, (f, g) ∈ grid_list t (edgeF t nm em bm) -> touch (dim_y t) (dim_x t) (shore t) (chimera_owner (dim_x t) (shore t)) nodes edges f g \/
      touch (dim_y t) (dim_x t) (shore t) (chimera_owner (dim_x t) (shore t)) nodes edges g f).
    { intros f g H. pose proof H as H0. apply G in H as [(u & w & pos & k & Hw & Hp & Hk & -> & -> & He)|(x & y & k & l & Hx & Hy & Hk & Hl & -> & -> & He)].
      - right. apply HT. left. split; [done|]. by exists u, w, pos, k.
      - left. apply HT. right. split; [done|]. by exists x, y, k, l. }
    intros f g. unfold has_edge at 1. split.
    + intros [H|H]; apply HT2 in H; tauto.
    + intros [H|H]; apply HT in H; tauto.
Qed.
End chimera.
