(** Pictures of Zephyr and Pegasus graphs, and of the cliques and bicliques found in them. *)
From stdpp Require Import base list list_numbers numbers gmap relations sorting.
From Verif Require Import Base BusModel CliqueModel SmallModel BicliqueModel FragModel FragBicliqueModel DrawModel SpecBus SpecFrag SpecUtil SpecDraw CoordProofs BitProofs BundleProofs MaskProofs MaskProofs2 TopoProofs
  CliqueProofs5 FragProofs1 FragProofs2 FragTop FragBiclique DrawProofs1 DrawProofs2 DrawProofs3.

(** ** Chimera *)
Lemma chimera_picture m n t nodes edges : t <= 8 -> good_graph (nqubits m n t) nodes edges ->
  exists c ns es, topo_init (mkTopo m n t) nodes edges = Ok c /\ picture c = Ok (ns, es) /\
    StronglySorted lt ns /\ (forall q, q ∈ ns <-> q ∈ nodes) /\
    NoDup es /\ (forall p q, (p, q) ∈ es -> (q, p) ∉ es) /\
    (forall p q, has_edge es p q <-> has_edge edges p q /\ chimera_adj m n t p q).
Proof.
  intros Ht Hg. assert (HG : good_graph (dim_y (mkTopo m n t) * (dim_x (mkTopo m n t) * 2) * shore (mkTopo m n t)) nodes edges).
  { cbn. replace (m * (n * 2) * t) with (nqubits m n t) by (unfold nqubits; lia). done. }
  destruct (topo_init_ok (mkTopo m n t) Ht nodes edges HG) as (c & Ec & _).
  destruct (picture_chimera (mkTopo m n t) Ht nodes edges c HG Ec) as (ns & es & Ep & (P1 & P2 & P3 & P4 & P5)). cbn [dim_x dim_y shore] in *.
  exists c, ns, es. split_and!; [done|done|done| |done|done|].
  - intros q. rewrite P2. unfold fragment, chimera_owner. split.
    + intros (p & Hp & u & w & pos & k & _ & _ & _ & -> & ->). done.
    + intros Hq. exists q. split; [done|]. destruct HG as [HG _]. specialize (HG q Hq).
      destruct (lin_ex (mkTopo m n t) q HG) as (y & x & u & k & -> & Hy & Hx & Hk). cbn [dim_x dim_y shore] in *.
      rewrite <- qubit_linear. cbn [dim_x shore]. destruct u; [exists true, y, x, k|exists false, x, y, k]; done.
  - assert (HT : forall f g, touch m n t (chimera_owner n t) nodes edges f g <-> chimera_coupler m n t f g /\ has_edge edges f g).
    { intros f g. unfold touch, chimera_owner. split.
      - intros [(u & w & pos & k & p & q & Hw & Hp & Hk & -> & -> & -> & -> & H)|(x & y & k & l & p & q & Hx & Hy & Hk & Hl & -> & -> & -> & -> & H)].
        + destruct H as [[E _]|H]; [apply (line_qubit_inj (mkTopo m n t)) in E; [|destruct u; cbn in *; lia..]; exfalso; injection E; lia|].
          split; [|done]. destruct u; cbn in *; by constructor.
        + split; [|done]. cbn. by constructor.
      - intros [Hc He]. inversion Hc; subst.
        + right. exists x, y, k, l. eexists _, _. split_and!; try done.
        + left. exists false, x, y, k. eexists _, _. split_and!; try done. by right.
        + left. exists true, y, x, k. eexists _, _. split_and!; try done. by right. }
    intros p q. rewrite P5, !HT. unfold chimera_adj. assert (has_edge edges p q <-> has_edge edges q p) by (unfold has_edge; tauto). tauto.
Qed.

(** ** owners *)
Lemma pictures_ext D sh (o o' : bool -> nat -> nat -> nat -> nat -> Prop) nodes edges ns es :
  (forall u w k pos q, w < D -> k < sh -> o u w k pos q <-> o' u w k pos q) ->
  pictures D D sh o nodes edges ns es -> pictures D D sh o' nodes edges ns es.
Proof.
  intros H (P1 & P2 & P3 & P4 & P5). split_and!; [done| |done|done|].
  - intros f. rewrite P2. split; intros (q & Hq & u & w & pos & k & Hw & Hp & Hk & -> & Ho); exists q; (split; [done|]); exists u, w, pos, k;
      (split_and!; try done); (eapply H; [|done|done]); by destruct u.
  - intros f g. rewrite P5.
    assert (HT : forall f g, touch D D sh o nodes edges f g <-> touch D D sh o' nodes edges f g).
    { intros f' g'. unfold touch. split.
      - intros [(u & w & pos & k & p & q & Hw & Hp & Hk & -> & -> & O1 & O2 & HE)|(x & y & k & l & p & q & Hx & Hy & Hk & Hl & -> & -> & O1 & O2 & HE)].
        + left. exists u, w, pos, k, p, q. assert (w < D) by (by destruct u). split_and!; try done; by apply H.
        + right. exists x, y, k, l, p, q. split_and!; try done; by apply H.
      - intros [(u & w & pos & k & p & q & Hw & Hp & Hk & -> & -> & O1 & O2 & HE)|(x & y & k & l & p & q & Hx & Hy & Hk & Hl & -> & -> & O1 & O2 & HE)].
        + left. exists u, w, pos, k, p, q. assert (w < D) by (by destruct u). split_and!; try done; by apply H.
        + right. exists x, y, k, l, p, q. split_and!; try done; by apply H. }
    by rewrite !HT.
Qed.
Lemma fragment_ext D sh (o o' : bool -> nat -> nat -> nat -> nat -> Prop) f q :
  (forall u w k pos q, w < D -> k < sh -> o u w k pos q <-> o' u w k pos q) -> fragment D D sh o f q <-> fragment D D sh o' f q.
Proof.
  intros H. unfold fragment. split; intros (u & w & pos & k & Hw & Hp & Hk & -> & Ho); exists u, w, pos, k; (split_and!; try done); (eapply H; [|done|done]); by destruct u.
Qed.
Lemma zephyr_owner_ok d t u w k pos q : st_owner (zephyr_spec d t) (2 * d + 1) (2 * t) d (fun _ _ k => k mod 2) u w k pos q <-> zephyr_owner d t u w k pos q.
Proof.
  unfold st_owner, zephyr_owner, zephyr_covers. cbn [fs_len zephyr_spec].
  assert (E : forall j, zephyr_number d t u w (k / 2) (k mod 2) j = snum (2 * d + 1) (2 * t) d u w k j).
  { intros j. rewrite zephyr_num. pose proof (Nat.div_mod k 2 ltac:(lia)). f_equal. lia. }
  split; intros (j & Hj & Hb & ->); exists j; (split_and!; [done|lia|by rewrite E || (rewrite E; lia)]) || (split_and!; [done|lia|lia|by rewrite E]).
Qed.
Lemma pegasus_owner_ok d offs u w k pos q : k < 2 ->
  st_owner (pegasus_spec d offs) (6 * d) 2 (d - 1) (fun u w _ => offs u (w mod 6)) u w k pos q <-> pegasus_owner d offs u w k pos q.
Proof.
  intros Hk. unfold st_owner, pegasus_owner, pegasus_covers. cbn [fs_len pegasus_spec]. destruct (half (w mod 6) k Hk) as [E0 E1]. rewrite E0.
  assert (E : forall j, pegasus_number d u (w / 6) (2 * (w mod 6) + k) j = snum (6 * d) 2 (d - 1) u w k j).
  { intros j. rewrite pegasus_num, E0, E1. f_equal. by rewrite <- Nat.div_mod. }
  split; intros (j & Hj & Hb & ->); exists j; rewrite E; (split_and!; [done|lia|lia|done]).
Qed.

(** ** what is drawn *)
Section frag.
Context (fs : fspec) (D sh nz : nat) (off : bool -> nat -> nat -> nat) (coupler : nat -> nat -> Prop).
Context (St : striped fs D sh nz off coupler).
Notation L := (fs_len fs).
Notation num := (fun u w k j => linemajor_linear u w k j D sh nz).
Notation lq := (line_qubit D sh).
Notation owner := (st_owner fs D sh nz off).
Notation pic := (draw_chain fs).

Lemma clique_picture nodes edges edges' ns es emb : lattice D sh nz coupler nodes edges -> pictures D D sh owner nodes edges ns es ->
  (forall p q, has_edge edges' p q -> drawn fs D sh nz off es p q) ->
  clique_embedding nodes edges' emb -> clique_embedding ns es (pic <$> emb).
Proof.
  intros HLt HP Hdr [H1 H2]. split.
  - intros c (c0 & -> & Hc)%elem_of_list_fmap. by apply (chain_picture fs D sh nz off coupler St nodes edges HLt ns es HP edges' Hdr), H1.
  - intros i j c d Hij Hi Hj. rewrite list_lookup_fmap in Hi, Hj.
    destruct (emb !! i) as [c0|] eqn:Ei; [|done]. destruct (emb !! j) as [d0|] eqn:Ej; [|done]. injection Hi as <-. injection Hj as <-.
    destruct (H2 i j c0 d0 Hij Ei Ej) as [Hd Hc].
    assert (G1 : forall q, q ∈ c0 -> q ∈ nodes) by (apply H1; by eapply elem_of_list_lookup_2).
    assert (G2 : forall q, q ∈ d0 -> q ∈ nodes) by (apply H1; by eapply elem_of_list_lookup_2). split.
    + by apply (disjoint_picture fs D sh nz off coupler St nodes edges HLt).
    + by apply (coupled_picture fs D sh nz off coupler St nodes edges HLt es edges' Hdr).
Qed.
Lemma biclique_picture nodes edges edges' ns es a b emb : lattice D sh nz coupler nodes edges -> pictures D D sh owner nodes edges ns es ->
  (forall p q, has_edge edges' p q -> drawn fs D sh nz off es p q) ->
  biclique_embedding nodes edges' a b emb -> biclique_embedding ns es a b (pic <$> emb).
Proof.
  intros HLt HP Hdr (H0 & H1 & H2 & H3). split_and!.
  - by rewrite fmap_length.
  - intros c (c0 & -> & Hc)%elem_of_list_fmap. by apply (chain_picture fs D sh nz off coupler St nodes edges HLt ns es HP edges' Hdr), H1.
  - intros i j c d Hij Hi Hj. rewrite list_lookup_fmap in Hi, Hj.
    destruct (emb !! i) as [c0|] eqn:Ei; [|done]. destruct (emb !! j) as [d0|] eqn:Ej; [|done]. injection Hi as <-. injection Hj as <-.
    apply (disjoint_picture fs D sh nz off coupler St nodes edges HLt); [apply H1; by eapply elem_of_list_lookup_2..|by eapply H2].
  - intros i j c d Hia Hja Hi Hj. rewrite list_lookup_fmap in Hi, Hj.
    destruct (emb !! i) as [c0|] eqn:Ei; [|done]. destruct (emb !! j) as [d0|] eqn:Ej; [|done]. injection Hi as <-. injection Hj as <-.
    apply (coupled_picture fs D sh nz off coupler St nodes edges HLt es edges' Hdr); [apply H1; by eapply elem_of_list_lookup_2..|by eapply H3].
Qed.

(** the couplers that leave a trace in the grid of fragments *)
Definition traced (edges : list (nat * nat)) : list (nat * nat) := filter (fun e => efrags fs D sh e <> []) edges.
Lemma traced_lattice nodes edges : lattice D sh nz coupler nodes edges -> lattice D sh nz coupler nodes (traced edges).
Proof.
  intros (H1 & H2 & H3). split_and!; [done| |].
  - intros p q [_ H]%elem_of_list_filter. by apply H2.
  - intros p q [_ H]%elem_of_list_filter. by apply H3.
Qed.
Lemma traced_init nodes edges c : lattice D sh nz coupler nodes edges -> frag_init fs nodes edges = Ok c -> frag_init fs nodes (traced edges) = Ok c.
Proof.
  intros HLt Ec. destruct (frag_init_sim _ _ _ _ _ _ St nodes edges HLt) as (c1 & E1 & E1').
  destruct (frag_init_sim _ _ _ _ _ _ St nodes (traced edges) (traced_lattice _ _ HLt)) as (c2 & E2 & E2').
  assert (E : fedges fs D sh nodes (traced edges) = fedges fs D sh nodes edges); [|rewrite E in E2'; congruence].
  unfold fedges. f_equal. clear. unfold traced. induction edges as [|e edges IH]; [done|]. rewrite filter_cons. case_decide as H.
  - change ((e :: ?l) ≫= ?f) with (f e ++ (l ≫= f)). change ((e :: edges) ≫= efrags fs D sh) with (efrags fs D sh e ++ (edges ≫= efrags fs D sh)). by rewrite <- IH.
  - change ((e :: edges) ≫= efrags fs D sh) with (efrags fs D sh e ++ (edges ≫= efrags fs D sh)).
    by rewrite H.
Qed.
Lemma drawn_sym es p q : drawn fs D sh nz off es p q -> drawn fs D sh nz off es q p.
Proof. intros (f & g & H1 & H2 & H3). exists g, f. split_and!; [done|done|]. by apply has_edge_sym. Qed.
Lemma drawn_ext nodes edges ns es u w k j : pictures D D sh owner nodes edges ns es -> w < D -> k < sh -> S j < nz ->
  has_edge edges (num u w k j) (num u w k (S j)) -> drawn fs D sh nz off es (num u w k j) (num u w k (S j)).
Proof.
  intros (_ & _ & _ & _ & P5) Hw Hk Hj He. pose proof (st_len _ _ _ _ _ _ St) as HL.
  assert (HD : off u w k + L * S j + 0 < D) by (apply (fit _ _ _ _ _ _ St); done || lia).
  assert (El : nlines D D u = D /\ npositions D D u = D) by (by destruct u). destruct El as [El Ep].
  exists (lq u w (off u w k + L * j + (L - 1)) k), (lq u w (S (off u w k + L * j + (L - 1))) k). split_and!.
  - exists u, w, (off u w k + L * j + (L - 1)), k. rewrite El, Ep. split_and!; try done; [lia|]. exists j. split_and!; try done; lia.
  - exists u, w, (S (off u w k + L * j + (L - 1))), k. rewrite El, Ep. split_and!; try done; [lia|]. exists (S j). split_and!; try done; lia.
  - apply P5. left. left. exists u, w, (off u w k + L * j + (L - 1)), k, (num u w k j), (num u w k (S j)). rewrite El, Ep.
    split_and!; try done; [lia|exists j; split_and!; try done; lia|exists (S j); split_and!; try done; lia|by right].
Qed.
Lemma drawn_cross nodes edges ns es w k j w' k' j' : pictures D D sh owner nodes edges ns es ->
  w < D -> k < sh -> j < nz -> w' < D -> k' < sh -> j' < nz ->
  off false w k + L * j <= w' < off false w k + L * S j -> off true w' k' + L * j' <= w < off true w' k' + L * S j' ->
  has_edge edges (num false w k j) (num true w' k' j') -> drawn fs D sh nz off es (num false w k j) (num true w' k' j').
Proof.
  intros (_ & _ & _ & _ & P5) Hw Hk Hj Hw' Hk' Hj' H1 H2 He.
  exists (lq false w w' k), (lq true w' w k'). split_and!.
  - exists false, w, w', k. split_and!; try done. by exists j.
  - exists true, w', w, k'. split_and!; try done. by exists j'.
  - apply P5. left. right. exists w, w', k, k', (num false w k j), (num true w' k' j'). split_and!; try done; [by exists j|by exists j'].
Qed.
Lemma traced_drawn nodes edges ns es p q : lattice D sh nz coupler nodes edges -> pictures D D sh owner nodes edges ns es ->
  has_edge (traced edges) p q -> drawn fs D sh nz off es p q.
Proof.
  intros HLt HP H. pose proof HLt as (Hn & He & Hg).
  assert (G : forall p q, (p, q) ∈ traced edges -> drawn fs D sh nz off es p q).
  { clear p q H. intros p q [Hne Hin]%elem_of_list_filter. pose proof (edge_kind _ _ _ _ _ _ St edges (p, q) Hg Hin) as Hk.
    assert (Hnn : forall a b, norm (p, q) = (a, b) -> drawn fs D sh nz off es a b -> drawn fs D sh nz off es p q).
    { intros a b. unfold norm. cbn [fst snd]. destruct (q <? p); intros [= <- <-]; [apply drawn_sym|done]. }
    destruct (efrags_kind _ _ _ _ _ _ St (p, q) Hk) as [(u & w & k & j & Hw & Hkk & Hj & E & Ef)|[[_ Ef]|(w & k & j & w' & k' & j' & Hw & Hkk & Hj & Hw' & Hk' & Hj' & E & H1 & H2 & Ef)]].
    - apply (Hnn _ _ E). eapply drawn_ext; try done. by eapply norm_has.
    - done.
    - apply (Hnn _ _ E). eapply drawn_cross; try done. by eapply norm_has. }
  destruct H as [H|H]; [by apply G|]. by apply drawn_sym, G.
Qed.
End frag.

(** ** the table of cliques, apart from the entry of single qubits *)
Lemma keep_bigger_other n a b new : length a = length b -> (forall i, i <> n -> a !! i = b !! i) ->
  length (keep_bigger a new) = length (keep_bigger b new) /\ (forall i, i <> n -> keep_bigger a new !! i = keep_bigger b new !! i).
Proof.
  revert n a b. induction new as [|e new IH]; intros n a b Hl H; [done|]. destruct a as [|x a], b as [|y b]; try done. cbn [keep_bigger].
  injection Hl as Hl. destruct n as [|n].
  - assert (Eab : a = b) by (apply list_eq; intros i; apply (H (S i)); lia). subst b. cbn [length]. split; [done|]. intros [|i] Hi; [done|]. done.
  - assert (x = y) as <- by (specialize (H 0 ltac:(lia)); cbn in H; congruence).
    destruct (IH n a b Hl) as [I1 I2]; [intros i Hi; apply (H (S i)); lia|]. cbn [length]. split; [by rewrite I1|].
    intros [|i] Hi; [done|]. apply I2. lia.
Qed.
Lemma best_other ys masks e e' embs : frag_best_cliques ys masks e = Ok embs ->
  exists embs', frag_best_cliques ys masks e' = Ok embs' /\ forall i, i <> 1 -> embs !! i = embs' !! i.
Proof.
  unfold frag_best_cliques.
  assert (G : forall a b, length a = length b -> (forall i, i <> 1 -> a !! i = b !! i) ->
    foldM (fun embs cells => let! y := ys cells in Ok (keep_bigger embs y.2)) masks a = Ok embs ->
    exists embs', foldM (fun embs cells => let! y := ys cells in Ok (keep_bigger embs y.2)) masks b = Ok embs' /\ forall i, i <> 1 -> embs !! i = embs' !! i).
  { induction masks as [|m masks IH]; intros a b Hl H; cbn [foldM]; [intros [= <-]; by exists b|].
    destruct (ys m) as [y|]; [|done]. cbn [rbind]. destruct (keep_bigger_other 1 a b y.2 Hl H) as [G1 G2]. by apply IH. }
  apply G; [done|]. intros [|[|i]] Hi; done.
Qed.

(** ** Zephyr *)
Lemma draw_single fs q : draw_chain fs [q] = fragments_of fs q.
Proof. unfold draw_chain. apply app_nil_r. Qed.
Section zephyr.
Context (d t : nat) (Ht : t <= 4) (nodes : list nat) (edges : list (nat * nat)).
Context (Hg : lattice_graph (zephyr_total d t) (zephyr_coupler d t) nodes edges).
Notation Z := (zephyr_striped d t Ht).
Lemma z_lattice : lattice (2 * d + 1) (2 * t) d (zephyr_coupler d t) nodes edges.
Proof. eapply of_lattice_graph; [|exact Hg]. unfold zephyr_total. lia. Qed.
Lemma z_init : exists c, frag_init (zephyr_spec d t) nodes edges = Ok c.
Proof. destruct (frag_init_sim _ _ _ _ _ _ Z nodes edges z_lattice) as (c & ? & _). by exists c. Qed.

Lemma zephyr_picture : exists c ns es, frag_init (zephyr_spec d t) nodes edges = Ok c /\ picture c = Ok (ns, es) /\
  pictures (2 * d + 1) (2 * d + 1) (2 * t) (zephyr_owner d t) nodes edges ns es /\
  forall q, q < zephyr_total d t -> NoDup (draw_chain (zephyr_spec d t) [q]) /\ length (draw_chain (zephyr_spec d t) [q]) = 2 /\
    forall f, f ∈ draw_chain (zephyr_spec d t) [q] <-> fragment (2 * d + 1) (2 * d + 1) (2 * t) (zephyr_owner d t) f q.
Proof.
  destruct z_init as [c Ec]. destruct (picture_frag _ _ _ _ _ _ Z nodes edges z_lattice c Ec) as (ns & es & Ep & HP). exists c, ns, es. split_and!; [done|done| |].
  - eapply pictures_ext; [|exact HP]. intros. apply zephyr_owner_ok.
  - intros q Hq. destruct (fragments_ok _ _ _ _ _ _ Z q) as (F1 & F2 & F3). { unfold total, zephyr_total in *. lia. }
    rewrite draw_single. split_and!; [done|done|]. intros f. rewrite F3. apply fragment_ext. intros. apply zephyr_owner_ok.
Qed.
Lemma z_straight edges' ns es c : frag_init (zephyr_spec d t) nodes edges = Ok c -> picture c = Ok (ns, es) ->
  (forall p q, (p, q) ∈ edges' -> has_edge edges p q /\ (zephyr_straight d t p q \/ zephyr_straight d t q p)) ->
  forall p q, has_edge edges' p q -> drawn (zephyr_spec d t) (2 * d + 1) (2 * t) d (fun _ _ k => k mod 2) es p q.
Proof.
  intros Ec Ep H. destruct (picture_frag _ _ _ _ _ _ Z nodes edges z_lattice c Ec) as (ns' & es' & Ep' & HP). rewrite Ep in Ep'. injection Ep' as <- <-.
  assert (G : forall p q, has_edge edges p q -> zephyr_straight d t p q -> drawn (zephyr_spec d t) (2 * d + 1) (2 * t) d (fun _ _ k => k mod 2) es p q).
  { intros p q He [Hc Hno]. destruct Hc as [u w k j z Hw Hk Hj Hz|u w k z z' Hw Hk Hz Hz' Hzz|w k j z w' k' j' z' Hw Hk Hj Hz Hw' Hk' Hj' Hz' C1 C2].
    - rewrite !zephyr_num in *. eapply (drawn_ext _ _ _ _ _ _ Z); try done. lia.
    - exfalso. apply Hno. by exists u, w, k, z, z'.
    - rewrite !zephyr_num in *. unfold zephyr_covers in *. eapply drawn_cross; try done; try lia; cbn [fs_len zephyr_spec]; rewrite mod2_j by done; lia. }
  intros p q [Hpq|Hpq]; destruct (H _ _ Hpq) as [He [Hs|Hs]].
  - by apply G.
  - apply drawn_sym, G; [by apply has_edge_sym|done].
  - apply drawn_sym. by apply G.
  - apply G; [by apply has_edge_sym|done].
Qed.
Lemma zephyr_straight_top : exists c ns es, frag_init (zephyr_spec d t) nodes edges = Ok c /\ picture c = Ok (ns, es) /\
  forall edges', (forall p q, (p, q) ∈ edges' -> has_edge edges p q /\ (zephyr_straight d t p q \/ zephyr_straight d t q p)) ->
  (forall ch, good_chain nodes edges' ch -> good_chain ns es (draw_chain (zephyr_spec d t) ch)) /\
  (forall ch ch', good_chain nodes edges' ch -> good_chain nodes edges' ch' -> ch ## ch' -> draw_chain (zephyr_spec d t) ch ## draw_chain (zephyr_spec d t) ch') /\
  (forall ch ch', good_chain nodes edges' ch -> good_chain nodes edges' ch' -> coupled edges' ch ch' ->
     coupled es (draw_chain (zephyr_spec d t) ch) (draw_chain (zephyr_spec d t) ch')).
Proof.
  destruct z_init as [c Ec]. destruct (picture_frag _ _ _ _ _ _ Z nodes edges z_lattice c Ec) as (ns & es & Ep & HP). exists c, ns, es.
  split_and!; [done|done|]. intros edges' H. pose proof (z_straight edges' ns es c Ec Ep H) as Hdr. split_and!.
  - intros ch Hch. by apply (chain_picture _ _ _ _ _ _ Z nodes edges z_lattice ns es HP edges' Hdr).
  - intros ch ch' (_ & _ & H1 & _) (_ & _ & H2 & _). by apply (disjoint_picture _ _ _ _ _ _ Z nodes edges z_lattice).
  - intros ch ch' (_ & _ & H1 & _) (_ & _ & H2 & _). by apply (coupled_picture _ _ _ _ _ _ Z nodes edges z_lattice es edges' Hdr).
Qed.
Lemma z_traced_graph : lattice_graph (zephyr_total d t) (zephyr_coupler d t) nodes (traced (zephyr_spec d t) (2 * d + 1) (2 * t) edges).
Proof. destruct Hg as [H1 H2]. split; [done|]. intros p q [_ H]%elem_of_list_filter. by apply H2. Qed.

Lemma zephyr_cliques_picture mb shuf coin : (forall i l, shuf i l ≡ₚ l) -> (1 <= mb)%N ->
  exists c ns es, frag_init (zephyr_spec d t) nodes edges = Ok c /\ picture c = Ok (ns, es) /\ forall bad, bad ≡ₚ tc_bad c -> exists n, forall fuel, n <= fuel ->
  exists masks embs, mask_run fuel c mb shuf coin 0 (mkTS 0 bad ([], [])) = Ok masks /\
    frag_best_cliques (zephyr_yields d t) masks (short_clique 4 nodes edges []) = Ok embs /\
    forall i emb, i <> 1 -> embs !! i = Some emb -> clique_embedding ns es (draw_chain (zephyr_spec d t) <$> emb).
Proof.
  intros Hp Hmb. destruct (zephyr_cliques_top d t nodes edges mb shuf coin Ht Hg Hp Hmb) as (c & Ec & H).
  destruct (zephyr_cliques_top d t nodes _ mb shuf coin Ht z_traced_graph Hp Hmb) as (c' & Ec' & H').
  rewrite (traced_init _ _ _ _ _ _ Z nodes edges c z_lattice Ec) in Ec'. injection Ec' as <-.
  destruct (picture_frag _ _ _ _ _ _ Z nodes edges z_lattice c Ec) as (ns & es & Ep & HP). exists c, ns, es. split_and!; [done|done|].
  intros bad HB. destruct (H bad HB) as [n Hn]. destruct (H' bad HB) as [n' Hn']. exists (n `max` n'). intros fuel HF.
  destruct (Hn fuel ltac:(lia)) as (masks & embs & Em & Eb & _). destruct (Hn' fuel ltac:(lia)) as (masks' & embs' & Em' & Eb' & _ & HT & _).
  rewrite Em in Em'. injection Em' as <-. exists masks, embs. split_and!; [done|done|]. intros i emb Hi Hemb.
  destruct (best_other _ _ _ (short_clique 4 nodes (traced (zephyr_spec d t) (2 * d + 1) (2 * t) edges) []) _ Eb) as (embs1 & E1 & HO).
  rewrite Eb' in E1. injection E1 as <-. rewrite (HO i Hi) in Hemb. destruct (HT i emb Hemb) as (Hc & _).
  eapply (clique_picture _ _ _ _ _ _ Z nodes edges); [exact z_lattice|exact HP| |exact Hc].
  intros p q. apply (traced_drawn _ _ _ _ _ _ Z nodes edges ns es p q z_lattice HP).
Qed.
Lemma zephyr_bicliques_picture mb shuf coin : (forall i l, shuf i l ≡ₚ l) -> (1 <= mb)%N ->
  exists c ns es, frag_init (zephyr_spec d t) nodes edges = Ok c /\ picture c = Ok (ns, es) /\ forall bad, bad ≡ₚ tc_bad c -> exists n, forall fuel, n <= fuel ->
  exists masks embs, mask_run fuel c mb shuf coin 0 (mkTS 0 bad ([], [])) = Ok masks /\
    zephyr_bicliques d t masks = Ok embs /\
    forall s0 s1 emb, embs !! (s0, s1) = Some emb -> biclique_embedding ns es s0 s1 (draw_chain (zephyr_spec d t) <$> emb).
Proof.
  intros Hp Hmb. destruct z_init as [c Ec]. destruct (zephyr_bicliques_top d t nodes _ mb shuf coin Ht z_traced_graph Hp Hmb) as (c' & Ec' & H).
  rewrite (traced_init _ _ _ _ _ _ Z nodes edges c z_lattice Ec) in Ec'. injection Ec' as <-.
  destruct (picture_frag _ _ _ _ _ _ Z nodes edges z_lattice c Ec) as (ns & es & Ep & HP). exists c, ns, es. split_and!; [done|done|].
  intros bad HB. destruct (H bad HB) as [n Hn]. exists n. intros fuel HF. destruct (Hn fuel HF) as (masks & embs & Em & Eb & HV & _).
  exists masks, embs. split_and!; [done|done|]. intros s0 s1 emb He. destruct (HV s0 s1 emb He) as (_ & _ & Hc).
  eapply (biclique_picture _ _ _ _ _ _ Z nodes edges); [exact z_lattice|exact HP| |exact Hc].
  intros p q. apply (traced_drawn _ _ _ _ _ _ Z nodes edges ns es p q z_lattice HP).
Qed.
End zephyr.

(** ** Pegasus *)
Section pegasus.
Context (d : nat) (offs : bool -> nat -> nat) (Hd : 1 <= d) (Hoff : forall u i, i < 6 -> offs u i <= 6) (nodes : list nat) (edges : list (nat * nat)).
Context (Hg : lattice_graph (pegasus_total d) (pegasus_coupler d offs) nodes edges).
Notation PG := (pegasus_striped d offs Hd Hoff).
Lemma p_lattice : lattice (6 * d) 2 (d - 1) (pegasus_coupler d offs) nodes edges.
Proof. eapply of_lattice_graph; [|exact Hg]. unfold pegasus_total. lia. Qed.
Lemma p_init : exists c, frag_init (pegasus_spec d offs) nodes edges = Ok c.
Proof. destruct (frag_init_sim _ _ _ _ _ _ PG nodes edges p_lattice) as (c & ? & _). by exists c. Qed.

Lemma pegasus_picture : exists c ns es, frag_init (pegasus_spec d offs) nodes edges = Ok c /\ picture c = Ok (ns, es) /\
  pictures (6 * d) (6 * d) 2 (pegasus_owner d offs) nodes edges ns es /\
  forall q, q < pegasus_total d -> NoDup (draw_chain (pegasus_spec d offs) [q]) /\ length (draw_chain (pegasus_spec d offs) [q]) = 6 /\
    forall f, f ∈ draw_chain (pegasus_spec d offs) [q] <-> fragment (6 * d) (6 * d) 2 (pegasus_owner d offs) f q.
Proof.
  destruct p_init as [c Ec]. destruct (picture_frag _ _ _ _ _ _ PG nodes edges p_lattice c Ec) as (ns & es & Ep & HP). exists c, ns, es. split_and!; [done|done| |].
  - eapply pictures_ext; [|exact HP]. intros. by apply pegasus_owner_ok.
  - intros q Hq. destruct (fragments_ok _ _ _ _ _ _ PG q) as (F1 & F2 & F3). { unfold total, pegasus_total in *. lia. }
    rewrite draw_single. split_and!; [done|done|]. intros f. rewrite F3. apply fragment_ext. intros. by apply pegasus_owner_ok.
Qed.
Lemma p_straight edges' ns es c : frag_init (pegasus_spec d offs) nodes edges = Ok c -> picture c = Ok (ns, es) ->
  (forall p q, (p, q) ∈ edges' -> has_edge edges p q /\ (pegasus_straight d offs p q \/ pegasus_straight d offs q p)) ->
  forall p q, has_edge edges' p q -> drawn (pegasus_spec d offs) (6 * d) 2 (d - 1) (fun u w _ => offs u (w mod 6)) es p q.
Proof.
  intros Ec Ep H. destruct (picture_frag _ _ _ _ _ _ PG nodes edges p_lattice c Ec) as (ns' & es' & Ep' & HP). rewrite Ep in Ep'. injection Ep' as <- <-.
  assert (G : forall p q, has_edge edges p q -> pegasus_straight d offs p q -> drawn (pegasus_spec d offs) (6 * d) 2 (d - 1) (fun u w _ => offs u (w mod 6)) es p q).
  { intros p q He [Hc Hno]. destruct Hc as [u w k z Hw Hk Hz|u w k z Hw Hk Hz|w k z w' k' z' Hw Hk Hz Hw' Hk' Hz' C1 C2].
    - assert (k mod 2 < 2) by (apply Nat.mod_upper_bound; lia). assert (k / 2 < 6) by (apply Nat.div_lt_upper_bound; lia).
      rewrite !pegasus_num in *. eapply (drawn_ext _ _ _ _ _ _ PG); try done. lia.
    - exfalso. apply Hno. by exists u, w, k, z.
    - assert (k mod 2 < 2) by (apply Nat.mod_upper_bound; lia). assert (k / 2 < 6) by (apply Nat.div_lt_upper_bound; lia).
      assert (k' mod 2 < 2) by (apply Nat.mod_upper_bound; lia). assert (k' / 2 < 6) by (apply Nat.div_lt_upper_bound; lia).
      assert (E : (6 * w + k / 2) mod 6 = k / 2) by (rewrite (Nat.mul_comm 6 w), Nat.add_comm, Nat.mod_add by lia; by apply Nat.mod_small).
      assert (E' : (6 * w' + k' / 2) mod 6 = k' / 2) by (rewrite (Nat.mul_comm 6 w'), Nat.add_comm, Nat.mod_add by lia; by apply Nat.mod_small).
      rewrite !pegasus_num in *. unfold pegasus_covers, pegasus_position in *.
      eapply drawn_cross; try done; try lia; cbn [fs_len pegasus_spec]; rewrite ?E, ?E'; lia. }
  intros p q [Hpq|Hpq]; destruct (H _ _ Hpq) as [He [Hs|Hs]].
  - by apply G.
  - apply drawn_sym, G; [by apply has_edge_sym|done].
  - apply drawn_sym. by apply G.
  - apply G; [by apply has_edge_sym|done].
Qed.
Lemma pegasus_straight_top : exists c ns es, frag_init (pegasus_spec d offs) nodes edges = Ok c /\ picture c = Ok (ns, es) /\
  forall edges', (forall p q, (p, q) ∈ edges' -> has_edge edges p q /\ (pegasus_straight d offs p q \/ pegasus_straight d offs q p)) ->
  (forall ch, good_chain nodes edges' ch -> good_chain ns es (draw_chain (pegasus_spec d offs) ch)) /\
  (forall ch ch', good_chain nodes edges' ch -> good_chain nodes edges' ch' -> ch ## ch' -> draw_chain (pegasus_spec d offs) ch ## draw_chain (pegasus_spec d offs) ch') /\
  (forall ch ch', good_chain nodes edges' ch -> good_chain nodes edges' ch' -> coupled edges' ch ch' ->
     coupled es (draw_chain (pegasus_spec d offs) ch) (draw_chain (pegasus_spec d offs) ch')).
Proof.
  destruct p_init as [c Ec]. destruct (picture_frag _ _ _ _ _ _ PG nodes edges p_lattice c Ec) as (ns & es & Ep & HP). exists c, ns, es.
  split_and!; [done|done|]. intros edges' H. pose proof (p_straight edges' ns es c Ec Ep H) as Hdr. split_and!.
  - intros ch Hch. by apply (chain_picture _ _ _ _ _ _ PG nodes edges p_lattice ns es HP edges' Hdr).
  - intros ch ch' (_ & _ & H1 & _) (_ & _ & H2 & _). by apply (disjoint_picture _ _ _ _ _ _ PG nodes edges p_lattice).
  - intros ch ch' (_ & _ & H1 & _) (_ & _ & H2 & _). by apply (coupled_picture _ _ _ _ _ _ PG nodes edges p_lattice es edges' Hdr).
Qed.
Lemma p_traced_graph : lattice_graph (pegasus_total d) (pegasus_coupler d offs) nodes (traced (pegasus_spec d offs) (6 * d) 2 edges).
Proof. destruct Hg as [H1 H2]. split; [done|]. intros p q [_ H]%elem_of_list_filter. by apply H2. Qed.

Lemma pegasus_cliques_picture mb shuf coin : (forall i l, shuf i l ≡ₚ l) -> (1 <= mb)%N ->
  exists c ns es, frag_init (pegasus_spec d offs) nodes edges = Ok c /\ picture c = Ok (ns, es) /\ forall bad, bad ≡ₚ tc_bad c -> exists n, forall fuel, n <= fuel ->
  exists masks embs, mask_run fuel c mb shuf coin 0 (mkTS 0 bad ([], [])) = Ok masks /\
    frag_best_cliques (pegasus_yields d offs) masks (short_clique 4 nodes edges []) = Ok embs /\
    forall i emb, i <> 1 -> embs !! i = Some emb -> clique_embedding ns es (draw_chain (pegasus_spec d offs) <$> emb).
Proof.
  intros Hp Hmb. destruct (pegasus_cliques_top d offs nodes edges mb shuf coin Hd Hoff Hg Hp Hmb) as (c & Ec & H).
  destruct (pegasus_cliques_top d offs nodes _ mb shuf coin Hd Hoff p_traced_graph Hp Hmb) as (c' & Ec' & H').
  rewrite (traced_init _ _ _ _ _ _ PG nodes edges c p_lattice Ec) in Ec'. injection Ec' as <-.
  destruct (picture_frag _ _ _ _ _ _ PG nodes edges p_lattice c Ec) as (ns & es & Ep & HP). exists c, ns, es. split_and!; [done|done|].
  intros bad HB. destruct (H bad HB) as [n Hn]. destruct (H' bad HB) as [n' Hn']. exists (n `max` n'). intros fuel HF.
  destruct (Hn fuel ltac:(lia)) as (masks & embs & Em & Eb & _). destruct (Hn' fuel ltac:(lia)) as (masks' & embs' & Em' & Eb' & _ & HT & _).
  rewrite Em in Em'. injection Em' as <-. exists masks, embs. split_and!; [done|done|]. intros i emb Hi Hemb.
  destruct (best_other _ _ _ (short_clique 4 nodes (traced (pegasus_spec d offs) (6 * d) 2 edges) []) _ Eb) as (embs1 & E1 & HO).
  rewrite Eb' in E1. injection E1 as <-. rewrite (HO i Hi) in Hemb. destruct (HT i emb Hemb) as (Hc & _).
  eapply (clique_picture _ _ _ _ _ _ PG nodes edges); [exact p_lattice|exact HP| |exact Hc].
  intros p q. apply (traced_drawn _ _ _ _ _ _ PG nodes edges ns es p q p_lattice HP).
Qed.
Lemma pegasus_bicliques_picture mb shuf coin : (forall i l, shuf i l ≡ₚ l) -> (1 <= mb)%N ->
  exists c ns es, frag_init (pegasus_spec d offs) nodes edges = Ok c /\ picture c = Ok (ns, es) /\ forall bad, bad ≡ₚ tc_bad c -> exists n, forall fuel, n <= fuel ->
  exists masks embs, mask_run fuel c mb shuf coin 0 (mkTS 0 bad ([], [])) = Ok masks /\
    pegasus_bicliques d offs masks = Ok embs /\
    forall s0 s1 emb, embs !! (s0, s1) = Some emb -> biclique_embedding ns es s0 s1 (draw_chain (pegasus_spec d offs) <$> emb).
Proof.
  intros Hp Hmb. destruct p_init as [c Ec]. destruct (pegasus_bicliques_top d offs nodes _ mb shuf coin Hd Hoff p_traced_graph Hp Hmb) as (c' & Ec' & H).
  rewrite (traced_init _ _ _ _ _ _ PG nodes edges c p_lattice Ec) in Ec'. injection Ec' as <-.
  destruct (picture_frag _ _ _ _ _ _ PG nodes edges p_lattice c Ec) as (ns & es & Ep & HP). exists c, ns, es. split_and!; [done|done|].
  intros bad HB. destruct (H bad HB) as [n Hn]. exists n. intros fuel HF. destruct (Hn fuel HF) as (masks & embs & Em & Eb & HV & _).
  exists masks, embs. split_and!; [done|done|]. intros s0 s1 emb He. destruct (HV s0 s1 emb He) as (_ & _ & Hc).
  eapply (biclique_picture _ _ _ _ _ _ PG nodes edges); [exact p_lattice|exact HP| |exact Hc].
  intros p q. apply (traced_drawn _ _ _ _ _ _ PG nodes edges ns es p q p_lattice HP).
Qed.
End pegasus.
