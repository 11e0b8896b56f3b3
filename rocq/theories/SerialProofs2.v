(** For Chimera, the stored masks determine the graph. *)
Require Import Lia.
From stdpp Require Import base list list_numbers numbers.
From Verif Require Import Base BusModel SpecBus CoordProofs BitProofs BundleProofs MaskProofs MaskProofs2 TopoProofs BusTop SerialModel SpecSerial SerialProofs.
From stdpp Require Import list.

Lemma topo_init_bad t nodes edges c : shore t <= 8 -> good_graph (nqubits (dim_y t) (dim_x t) (shore t)) nodes edges ->
  topo_init t nodes edges = Ok c ->
  tc_topo c = t /\ represents t (tc_nodemask c) (tc_edgemask c) nodes edges
  /\ (forall a b, (a, b) ∈ tc_bad c <-> missing_coupler (dim_y t) (dim_x t) (shore t) nodes edges a b)
  /\ length (tc_badmask c) = num_cells t * shore t /\ bytes (tc_badmask c)
  /\ compute_bad_edges t (tc_badmask c) = Ok (tc_bad c).
Proof.
  intros Hsh Hg E. rewrite nqubits_t in Hg. destruct (topo_init_ok t Hsh nodes edges Hg) as (c' & E' & Ht & Hr & Hb).
  rewrite E in E'. injection E' as <-. split; [done|]. split; [done|].
  split; [intros a b; rewrite missing_is_bad; apply Hb|].
  destruct Hg as [Hn He]. unfold topo_init in E.
  destruct (node_mask_ok t Hsh nodes Hn) as (nm & E1 & Ln & Bn & Mn). rewrite E1 in E. cbn [rbind] in E.
  destruct (bad_nodes_ok t Hsh nodes Hn) as (bm0 & E2 & L0 & B0 & M0). rewrite E2 in E. cbn [rbind] in E.
  assert (He' : forall p q, (p, q) ∈ edges -> p < dim_y t * (dim_x t * 2) * shore t /\ q < dim_y t * (dim_x t * 2) * shore t).
  { intros p q [? ?]%He. split; by apply Hn. }
  destruct (edge_mask_ok t Hsh edges He') as (em & E3 & Lm & Be & Me). rewrite E3 in E. cbn [rbind] in E.
  destruct (bad_edges_ok t Hsh nodes edges bm0 He' L0 B0 M0) as (bm1 & E4 & L1 & B1 & M1). rewrite E4 in E. cbn [rbind] in E.
  destruct (finish_badmask_ok t Hsh nm bm1 Ln Bn L1 B1) as (bm2 & E5 & L2 & B2 & M2). rewrite E5 in E. cbn [rbind] in E.
  destruct (compute_bad_edges t bm2) as [bad|] eqn:E6; [|done]. cbn [rbind] in E. injection E as <-. done.
Qed.

Lemma N_bytes l : bytes l -> Forall SpecSerial.byte (Z.of_N <$> l).
Proof.
  intros H. apply Forall_fmap. eapply Forall_impl; [exact H|]. intros b Hb. cbn in *. unfold SpecSerial.byte. unfold BitProofs.byte in Hb. lia.
Qed.
Lemma stored_ok t nodes edges c seed : shore t <= 8 -> good_graph (nqubits (dim_y t) (dim_x t) (shore t)) nodes edges ->
  topo_init t nodes edges = Ok c -> word (Z.of_nat (dim_y t)) -> word (Z.of_nat (dim_x t)) -> word seed ->
  topo_ok Chimera (stored_of c seed).
Proof.
  intros Hsh Hg E Hy Hx Hs. destruct (topo_init_bad t nodes edges c Hsh Hg E) as (Ht & (L1 & L2 & B1 & B2 & _) & _ & L3 & B3 & _).
  unfold num_cells in *. split; cbn; rewrite ?Ht, ?fmap_length; try done; try lia.
  - unfold word. lia.
  - rewrite !Forall_app. split_and!; by apply N_bytes.
Qed.
Lemma of_N_inj (l l' : list N) : Z.of_N <$> l = Z.of_N <$> l' -> l = l'.
Proof.
  revert l'. induction l as [|x l IH]; intros [|y l'] E; try done. cbn in E. injection E as E1 E2. f_equal; [by apply N2Z.inj|by apply IH].
Qed.

Lemma chimera_graph t nodes edges seed c t' nodes' edges' seed' c' i k k' :
  shore t <= 8 -> good_graph (nqubits (dim_y t) (dim_x t) (shore t)) nodes edges -> topo_init t nodes edges = Ok c ->
  shore t' <= 8 -> good_graph (nqubits (dim_y t') (dim_x t') (shore t')) nodes' edges' -> topo_init t' nodes' edges' = Ok c' ->
  word (Z.of_nat (dim_y t)) -> word (Z.of_nat (dim_x t)) -> word seed ->
  word (Z.of_nat (dim_y t')) -> word (Z.of_nat (dim_x t')) -> word seed' ->
  identifier Chimera (stored_of c seed) = Ok (i, k) -> identifier Chimera (stored_of c' seed') = Ok (i, k') ->
  t = t' /\ seed = seed' /\ (forall q, q ∈ nodes <-> q ∈ nodes')
  /\ forall p q, chimera_coupler (dim_y t) (dim_x t) (shore t) p q -> has_edge edges p q <-> has_edge edges' p q.
Proof.
  intros Hsh Hg E Hsh' Hg' E' Hy Hx Hs Hy' Hx' Hs' Hi Hi'.
  destruct (topo_init_bad t nodes edges c Hsh Hg E) as (Ht & Hr & Hb & _ & _ & Hc).
  destruct (topo_init_bad t' nodes' edges' c' Hsh' Hg' E') as (Ht' & Hr' & Hb' & _ & _ & Hc').
  destruct (identifier_inj _ _ _ _ i k k' (stored_ok _ _ _ _ seed Hsh Hg E Hy Hx Hs) (stored_ok _ _ _ _ seed' Hsh' Hg' E' Hy' Hx' Hs') I
    ltac:(done) Hi Hi') as (_ & Heq & _).
  unfold stored_of in Heq. injection Heq as H1 H2 H3 -> H4 H5 H6.
  apply of_N_inj in H4, H5, H6. rewrite Ht, Ht' in *.
  assert (t = t') as <-. { destruct t, t'; cbn in *. f_equal; lia. }
  assert (Hbad : tc_bad c = tc_bad c') by (rewrite H6 in Hc; congruence).
  apply represents_shows in Hr as (_ & _ & _ & _ & Hr). apply represents_shows in Hr' as (_ & _ & _ & _ & Hr').
  rewrite H4, H5 in Hr.
  assert (Hnodes : forall q, q ∈ nodes <-> q ∈ nodes').
  { assert (G : forall nodes edges nodes' edges', good_graph (nqubits (dim_y t) (dim_x t) (shore t)) nodes edges ->
      shows (dim_y t) (dim_x t) (shore t) (tc_nodemask c') (tc_edgemask c') nodes edges ->
      shows (dim_y t) (dim_x t) (shore t) (tc_nodemask c') (tc_edgemask c') nodes' edges' -> forall q, q ∈ nodes -> q ∈ nodes').
    { clear. intros nodes edges nodes' edges' [Hn _] Hr Hr' q Hq. pose proof (Hn q Hq) as Hlt.
      destruct (linear_chimera t q) as [[[y x] u] k] eqn:El.
      destruct (C33_chimera_backward t q y x u k Hlt El) as (Hlin & Hy & Hx & Hk).
      assert (Hqq : qubit (dim_x t) (shore t) y x u k = q) by (rewrite <- Hlin; symmetry; apply C33_chimera_forward; done).
      destruct (Hr y x u k Hy Hx) as [Ha _]. destruct (Hr' y x u k Hy Hx) as [Ha' _]. rewrite Hqq in Ha, Ha'.
      apply Ha', Ha. done. }
    intros q. split; [by eapply (G nodes edges nodes' edges')|by eapply (G nodes' edges' nodes edges)]. }
  split; [done|]. split; [done|]. split; [done|].
  assert (G : forall nodes edges nodes' edges', (forall q, q ∈ nodes <-> q ∈ nodes') ->
     good_graph (nqubits (dim_y t) (dim_x t) (shore t)) nodes edges ->
     shows (dim_y t) (dim_x t) (shore t) (tc_nodemask c') (tc_edgemask c') nodes edges ->
     shows (dim_y t) (dim_x t) (shore t) (tc_nodemask c') (tc_edgemask c') nodes' edges' ->
     (forall a b, missing_coupler (dim_y t) (dim_x t) (shore t) nodes' edges' a b -> missing_coupler (dim_y t) (dim_x t) (shore t) nodes edges a b) ->
     forall p q, chimera_coupler (dim_y t) (dim_x t) (shore t) p q -> has_edge edges p q -> has_edge edges' p q).
  { clear. intros nodes edges nodes' edges' Hnn [Hn Hin] Hr Hr' Hm p q Hc Hpq.
    assert (Hends : p ∈ nodes /\ q ∈ nodes) by (destruct Hpq as [H|H]; apply Hin in H; tauto).
    destruct Hc as [(y & x & k & l & Hy & Hx & Hk & Hl & -> & ->)|(u & w & z & k & Hw & Hz & Hk & -> & ->)].
    - destruct (decide (has_edge edges' (qubit (dim_x t) (shore t) y x false k) (qubit (dim_x t) (shore t) y x true l))) as [|Hno]; [done|].
      exfalso. destruct (Hm (qubit (dim_x t) (shore t) y x false k) (qubit (dim_x t) (shore t) y x true l)) as (y1 & x1 & k1 & l1 & H).
      { exists y, x, k, l. split_and!; try done; apply Hnn; tauto. }
      tauto.
    - unfold line_qubit in *. destruct u; unfold nlines, npositions in *.
      + destruct (Hr w (S z) true k) as [_ Ha]; [lia|lia|]. destruct (Hr' w (S z) true k) as [_ Ha']; [lia|lia|].
        destruct Ha' as [Ha' _]. destruct Ha' as [_ (x' & Hx' & He)]; [apply Ha; split; [done|]; by exists z|].
        injection Hx' as <-. done.
      + destruct (Hr (S z) w false k) as [_ Ha]; [lia|lia|]. destruct (Hr' (S z) w false k) as [_ Ha']; [lia|lia|].
        destruct Ha' as [Ha' _]. destruct Ha' as [_ (x' & Hx' & He)]; [apply Ha; split; [done|]; by exists z|].
        injection Hx' as <-. done. }
  intros p q Hpq. split.
  - apply (G nodes edges nodes' edges'); try done. intros a b. rewrite <- Hb, <- Hb', Hbad. done.
  - apply (G nodes' edges' nodes edges); try done. intros a b. rewrite <- Hb, <- Hb', Hbad. done.
Qed.
