(** Bicliques on a graph cut into fragments. *)
From stdpp Require Import base list list_numbers numbers gmap relations.
From Verif Require Import Base BusModel CliqueModel BicliqueModel FragModel FragBicliqueModel SpecBus SpecFrag CoordProofs BitProofs BundleProofs
  MaskProofs MaskProofs2 TopoProofs BusTop CliqueProofs1 CliqueProofs2 CliqueProofs3 CliqueProofs4 CliqueProofs5 CliqueProofs6 CliqueProofs7 CliqueTop
  BicliqueProofs1 BicliqueProofs2 BicliqueProofs3 BicliqueProofs4 BicliqueTop FragProofs1 FragProofs2 FragProofs3 FragProofs4 FragProofs5 FragTop.

Section bicliques.
Context (fs : fspec) (D sh nz : nat) (off : bool -> nat -> nat -> nat) (coupler : nat -> nat -> Prop).
Context (St : striped fs D sh nz off coupler).
Context (nodes : list nat) (edges : list (nat * nat)) (HLt : lattice D sh nz coupler nodes edges).
Notation t := (fs_topo fs).
Notation fn := (fnodes fs D sh nodes).
Notation fe := (fedges fs D sh nodes edges).
Notation line := (fs_line fs).
Notation own := (own fs D sh nz off).

Section rect.
Context (R : list nat) (lm : list N) (Hrd : ready t (without R fn) (edges_without R fe) lm).
Notation present := (segment_present D sh (without R fn) (edges_without R fe)).
Let Hfull : full t (without R fn) (edges_without R fe) := rd_full _ _ _ _ Hrd.

Lemma rline_good u w z0 z1 k : w < D -> z0 <= z1 < D -> k < sh -> present u w z0 z1 k -> good_chain nodes edges (line u w z0 z1 k).
Proof using St HLt.
  intros Hw [Hz Hz1] Hk HP. split_and!.
  - intros E. apply (f_equal length) in E.
    pose proof (rline_length _ _ _ _ _ _ St _ _ HLt R u w z0 z1 k Hw Hz Hz1 Hk HP). simpl in E. lia.
  - by apply (rline_nodup _ _ _ _ _ _ St _ _ HLt R).
  - intros q Hq. apply (rline_elem _ _ _ _ _ _ St _ _ HLt R) in Hq as (z & Hz' & ->); try done.
    by eapply (present_owned _ _ _ _ _ _ St _ _ HLt R).
  - assert (A : forall q, q ∈ line u w z0 z1 k -> rtc (fun a b => a ∈ line u w z0 z1 k /\ b ∈ line u w z0 z1 k /\ has_edge edges a b) (own u w z0 k) q).
    { intros q Hq. apply (rline_elem _ _ _ _ _ _ St _ _ HLt R) in Hq as (z & Hz' & ->); try done.
      by eapply (rline_reach _ _ _ _ _ _ St _ _ HLt R). }
    intros p q Hp Hq. etrans; [apply step_sym, A, Hp|apply A, Hq].
Qed.

Lemma rline_disjoint u w z0 z1 k u' w' z0' z1' k' : w < D -> z0 <= z1 < D -> k < sh -> w' < D -> z0' <= z1' < D -> k' < sh ->
  present u w z0 z1 k -> present u' w' z0' z1' k' -> (u, w, k) <> (u', w', k') -> line u w z0 z1 k ## line u' w' z0' z1' k'.
Proof using St HLt.
  intros ? [? ?] ? ? [? ?] ? P P' Hne q Hq Hq'.
  apply (rline_elem _ _ _ _ _ _ St _ _ HLt R) in Hq as (z & Hz & ->); try done.
  apply (rline_elem _ _ _ _ _ _ St _ _ HLt R) in Hq' as (z' & Hz' & E); try done.
  apply (own_inj fs D sh nz off nodes) in E; try done.
  - by apply (present_owned _ _ _ _ _ _ St _ _ HLt R u w z0 z1 k z).
  - by apply (present_owned _ _ _ _ _ _ St _ _ HLt R u' w' z0' z1' k' z').
Qed.

Lemma rlines_cross w w' y0 y1 x0 x1 k k' : x0 <= w <= x1 -> y0 <= w' <= y1 -> x1 < D -> y1 < D -> k < sh -> k' < sh ->
  present false w y0 y1 k -> present true w' x0 x1 k' -> coupled edges (line false w y0 y1 k) (line true w' x0 x1 k').
Proof using St HLt Hrd.
  intros Hw Hw' Hx Hy Hk Hk' P P'. exists (own false w w' k), (own true w' w k'). split_and!.
  - apply (rline_elem _ _ _ _ _ _ St _ _ HLt R); try done; try lia. by exists w'.
  - apply (rline_elem _ _ _ _ _ _ St _ _ HLt R); try done; try lia. by exists w.
  - apply (own_cross _ _ _ _ _ _ St _ _ HLt); [lia|lia|done|done|].
    assert (HX : has_edge (edges_without R fe) (qubit (dim_x t) (shore t) w' w false k) (qubit (dim_x t) (shore t) w' w true k')).
    { apply Hfull; rewrite ?(t_x _ _ _ _ _ _ St), ?(t_y _ _ _ _ _ _ St), ?(t_s _ _ _ _ _ _ St); try done; try lia.
      - destruct P as [P _]. apply (P w'). lia.
      - destruct P' as [P' _]. apply (P' w). lia. }
    rewrite (t_x _ _ _ _ _ _ St), (t_s _ _ _ _ _ _ St) in HX. by apply has_edge_without in HX as [HX _].
Qed.

Lemma rslines_present u w0 w1 z0 z1 w k : w0 <= w1 < D -> z0 <= z1 < D ->
  (w, k) ∈ slines t lm u w0 (S w1 - w0) z0 z1 <-> w0 <= w <= w1 /\ k < sh /\ present u w z0 z1 k.
Proof using St Hrd.
  intros Hw Hz. pose proof (slines_present t _ _ lm Hrd u w0 w1 z0 z1 w k) as H.
  rewrite (t_x _ _ _ _ _ _ St), (t_s _ _ _ _ _ _ St) in H. apply H.
  - destruct u; cbn; rewrite ?(t_x _ _ _ _ _ _ St), ?(t_y _ _ _ _ _ _ St); lia.
  - destruct u; cbn; rewrite ?(t_x _ _ _ _ _ _ St), ?(t_y _ _ _ _ _ _ St); lia.
Qed.

Lemma rrect_biclique y0 y1 x0 x1 : y0 <= y1 < D -> x0 <= x1 < D ->
  biclique_embedding nodes edges (rcount t lm false y0 y1 x0 x1) (rcount t lm true y0 y1 x0 x1) (rect_emb t lm line y0 y1 x0 x1).
Proof using St HLt Hrd.
  intros Hy Hx.
  set (V := slines t lm false x0 (S x1 - x0) y0 y1). set (H := slines t lm true y0 (S y1 - y0) x0 x1).
  assert (LV : length (chains_of line false y0 y1 V) = rcount t lm false y0 y1 x0 x1).
  { unfold chains_of, V. rewrite fmap_length. replace y1 with (y0 + (y1 - y0 + 1) - 1) at 1 by lia. rewrite slines_length by lia. unfold rcount. f_equal; lia. }
  assert (LH : length (chains_of line true x0 x1 H) = rcount t lm true y0 y1 x0 x1).
  { unfold chains_of, H. rewrite fmap_length. replace x1 with (x0 + (x1 - x0 + 1) - 1) at 1 by lia. rewrite slines_length by lia. unfold rcount. f_equal; lia. }
  assert (PV : forall w k, (w, k) ∈ V <-> x0 <= w <= x1 /\ k < sh /\ present false w y0 y1 k) by (intros; by apply rslines_present).
  assert (PH : forall w k, (w, k) ∈ H <-> y0 <= w <= y1 /\ k < sh /\ present true w x0 x1 k) by (intros; by apply rslines_present).
  assert (IV : forall i c, chains_of line false y0 y1 V !! i = Some c -> exists w k, V !! i = Some (w, k) /\ c = line false w y0 y1 k).
  { intros i c. unfold chains_of. rewrite list_lookup_fmap. destruct (V !! i) as [[w k]|] eqn:E; [|done]. intros [= <-]. by exists w, k. }
  assert (IH : forall i c, chains_of line true x0 x1 H !! i = Some c -> exists w k, H !! i = Some (w, k) /\ c = line true w x0 x1 k).
  { intros i c. unfold chains_of. rewrite list_lookup_fmap. destruct (H !! i) as [[w k]|] eqn:E; [|done]. intros [= <-]. by exists w, k. }
  unfold rect_emb. fold V H. split_and!.
  - by rewrite app_length, LV, LH.
  - intros c [Hc|Hc]%elem_of_app; apply elem_of_list_lookup in Hc as [i Hi].
    + apply IV in Hi as (w & k & E & ->). apply elem_of_list_lookup_2, PV in E as (? & ? & ?). apply rline_good; (done || lia).
    + apply IH in Hi as (w & k & E & ->). apply elem_of_list_lookup_2, PH in E as (? & ? & ?). apply rline_good; (done || lia).
  - intros i j c d Hij Hc Hd.
    apply lookup_app_Some in Hc as [Hc|[Hi Hc]]; apply lookup_app_Some in Hd as [Hd|[Hj Hd]].
    + apply IV in Hc as (w & k & E & ->). apply IV in Hd as (w' & k' & E' & ->).
      pose proof (elem_of_list_lookup_2 _ _ _ E) as (? & ? & ?)%PV. pose proof (elem_of_list_lookup_2 _ _ _ E') as (? & ? & ?)%PV.
      apply rline_disjoint; try done; try lia. intros [= <- <-]. destruct Hij. exact (NoDup_lookup _ _ _ _ (slines_nodup _ _ _ _ _ _ _) E E').
    + apply IV in Hc as (w & k & E & ->). apply IH in Hd as (w' & k' & E' & ->).
      pose proof (elem_of_list_lookup_2 _ _ _ E) as (? & ? & ?)%PV. pose proof (elem_of_list_lookup_2 _ _ _ E') as (? & ? & ?)%PH.
      apply rline_disjoint; try done; try lia.
    + apply IH in Hc as (w & k & E & ->). apply IV in Hd as (w' & k' & E' & ->).
      pose proof (elem_of_list_lookup_2 _ _ _ E) as (? & ? & ?)%PH. pose proof (elem_of_list_lookup_2 _ _ _ E') as (? & ? & ?)%PV.
      apply rline_disjoint; try done; try lia.
    + apply IH in Hc as (w & k & E & ->). apply IH in Hd as (w' & k' & E' & ->).
      pose proof (elem_of_list_lookup_2 _ _ _ E) as (? & ? & ?)%PH. pose proof (elem_of_list_lookup_2 _ _ _ E') as (? & ? & ?)%PH.
      apply rline_disjoint; try done; try lia. intros [= <- <-]. pose proof (NoDup_lookup _ _ _ _ (slines_nodup _ _ _ _ _ _ _) E E'). lia.
  - intros i j c d Hi Hj Hc Hd. rewrite lookup_app_l in Hc by lia. rewrite lookup_app_r in Hd by lia.
    apply IV in Hc as (w & k & E & ->). apply IH in Hd as (w' & k' & E' & ->).
    apply elem_of_list_lookup_2, PV in E as (? & ? & P1). apply elem_of_list_lookup_2, PH in E' as (? & ? & P2).
    apply rlines_cross; (done || lia).
Qed.

(** a rectangle with a chain: the line of that chain fits *)
Lemma roffer_line (u : bool) y0 y1 x0 x1 : y0 <= y1 < D -> x0 <= x1 < D -> rcount t lm u y0 y1 x0 x1 <> 0 ->
  exists w k, w < D /\ k < sh /\ (if u then off true w k <= x0 /\ x1 < off true w k + fs_len fs * nz
    else off false w k <= y0 /\ y1 < off false w k + fs_len fs * nz).
Proof using St HLt Hrd.
  intros Hy Hx Hn. pose proof (st_len _ _ _ _ _ _ St) as HL.
  assert (G : forall w0 w1 z0 z1, w0 <= w1 < D -> z0 <= z1 < D -> slines t lm u w0 (S w1 - w0) z0 z1 <> [] ->
    exists w k, w < D /\ k < sh /\ off u w k <= z0 /\ z1 < off u w k + fs_len fs * nz).
  { intros w0 w1 z0 z1 Hw Hz Hs. destruct (slines t lm u w0 (S w1 - w0) z0 z1) as [|[w k] l] eqn:E; [done|].
    assert (Hin : (w, k) ∈ slines t lm u w0 (S w1 - w0) z0 z1) by (rewrite E; left). apply rslines_present in Hin as (Hw' & Hk & P); [|done..].
    exists w, k. destruct (present_owned _ _ _ _ _ _ St _ _ HLt R u w z0 z1 k z0 ltac:(lia) ltac:(lia) Hk P ltac:(lia)) as (O1 & _).
    destruct (present_owned _ _ _ _ _ _ St _ _ HLt R u w z0 z1 k z1 ltac:(lia) ltac:(lia) Hk P ltac:(lia)) as (O2 & O3 & _).
    split_and!; [lia|done|done|]. apply (Nat.div_lt_upper_bound _ _ _) in O3 || idtac.
    pose proof (Nat.div_mod (z1 - off u w k) (fs_len fs) ltac:(lia)). pose proof (Nat.mod_upper_bound (z1 - off u w k) (fs_len fs) ltac:(lia)). nia. }
  unfold rcount in Hn. destruct u.
  - destruct (G y0 y1 x0 x1) as (w & k & ? & ? & ? & ?); [done..| |by exists w, k].
    intros E. apply (f_equal length) in E. replace x1 with (x0 + (x1 - x0 + 1) - 1) in E at 1 by lia. rewrite slines_length in E by lia.
    apply Hn. simpl in E. rewrite <- E. f_equal; lia.
  - destruct (G x0 x1 y0 y1) as (w & k & ? & ? & ? & ?); [done..| |by exists w, k].
    intros E. apply (f_equal length) in E. replace y1 with (y0 + (y1 - y0 + 1) - 1) in E at 1 by lia. rewrite slines_length in E by lia.
    apply Hn. simpl in E. rewrite <- E. f_equal; lia.
Qed.
End rect.

(** ** one mask *)
Context (len : blength) (Hd : 1 <= D).
Context (Hlen : forall y0 y1 x0 x1, y0 <= y1 < D -> x0 <= x1 < D ->
  (exists w k, w < D /\ k < sh /\ off false w k <= y0 /\ y1 < off false w k + fs_len fs * nz) -> len y0 y1 x0 x1 <> 0).
Notation removed := (removed t fn fe).
Definition roffers (R : list nat) (y0 y1 x0 x1 a b : nat) : Prop :=
  y0 <= y1 < D /\ x0 <= x1 < D /\ rectangle_offers D sh (without R fn) (edges_without R fe) y0 y1 x0 x1 a b.

Lemma fbmask_ok cells R : removed cells R -> exists zs, bmask t line len cells = Ok zs /\
  (forall s0 s1 cl emb, (s0, s1, cl, emb) ∈ zs -> 1 <= s0 /\ 1 <= s1 /\ biclique_embedding nodes edges s0 s1 emb) /\
  forall y0 y1 x0 x1 s0 s1, roffers R y0 y1 x0 x1 s0 s1 -> 1 <= s0 -> 1 <= s1 -> exists cl emb, (s0, s1, cl, emb) ∈ zs.
Proof using St HLt Hd Hlen.
  intros HR. destruct (removed_ready t fn fe (rgood _ _ _ _ _ _ St _ _ HLt) cells R HR) as (lm & E & Hrd).
  assert (Hv : forall z, rvalid t z <-> let '(y0, y1, x0, x1) := z in y0 <= y1 < D /\ x0 <= x1 < D).
  { intros [[[y0 y1] x0] x1]. unfold rvalid. by rewrite (t_x _ _ _ _ _ _ St), (t_y _ _ _ _ _ _ St). }
  assert (Hpos : forall z a b, rvalid t z -> roffer t lm z (S a) (S b) -> rlen len z <> 0).
  { intros z a b Vz Ho. apply Hv in Vz. destruct z as [[[y0 y1] x0] x1]. destruct Vz as [Vy Vx]. destruct Ho as [O1 O2]. cbn.
    apply Hlen; [done..|]. destruct (roffer_line R lm Hrd false y0 y1 x0 x1 Vy Vx) as (w & k & ? & ? & ? & ?); [lia|]. by exists w, k. }
  unfold bmask. rewrite E. cbn [rbind].
  destruct (cache_ok t lm (rd_len _ _ _ _ Hrd) (rd_bytes _ _ _ _ Hrd)) as (mem & E1 & HF).
  { by rewrite (t_y _ _ _ _ _ _ St). } { by rewrite (t_x _ _ _ _ _ _ St). }
  rewrite E1. cbn [rbind].
  destruct (BicliqueProofs4.table_ok t _ _ lm Hrd len Hpos mem HF) as (ys & E2 & HB). rewrite E2. cbn [rbind].
  destruct (visit_ok t _ _ lm Hrd line len Hpos ys HB) as (zs & E3 & V1 & V2). exists zs. split_and!; [done| |].
  - intros s0 s1 cl emb Hz. destruct (V1 _ Hz) as (P1 & P2 & (y0 & y1 & x0 & x1 & Vz & (O1 & O2) & _ & ->) & _).
    apply Hv in Vz as [Vy Vx]. split_and!; [done..|]. rewrite <- O1, <- O2. by apply (rrect_biclique R).
  - intros y0 y1 x0 x1 s0 s1 (Vy & Vx & Ho) H1 H2. apply (V2 (y0, y1, x0, x1)); [by apply Hv| |done|done].
    assert (Ho' : offers t (without R fn) (edges_without R fe) y0 y1 x0 x1 s0 s1).
    { unfold offers. by rewrite (t_x _ _ _ _ _ _ St), (t_y _ _ _ _ _ _ St), (t_s _ _ _ _ _ _ St). }
    by eapply offers_count.
Qed.

Lemma fbicliques_run masks : Forall (fun cells => exists R, removed cells R) masks ->
  exists m, best_bicliques t line len masks = Ok m /\
    (forall s0 s1 emb, m !! (s0, s1) = Some emb -> 1 <= s0 /\ 1 <= s1 /\ biclique_embedding nodes edges s0 s1 emb) /\
    (forall cells R y0 y1 x0 x1 s0 s1, cells ∈ masks -> removed cells R -> roffers R y0 y1 x0 x1 s0 s1 ->
       1 <= s0 -> 1 <= s1 -> is_Some (m !! (s0, s1))).
Proof using St HLt Hd Hlen.
  intros HM. unfold best_bicliques.
  match goal with |- context [foldM ?F ?l ?a] => destruct (foldM_inv F (fun dn s => s.1 = ∅ /\
    (forall s0 s1 emb, s.2 !! (s0, s1) = Some emb -> 1 <= s0 /\ 1 <= s1 /\ biclique_embedding nodes edges s0 s1 emb) /\
    (forall cells R y0 y1 x0 x1 s0 s1, cells ∈ dn -> removed cells R -> roffers R y0 y1 x0 x1 s0 s1 ->
       1 <= s0 -> 1 <= s1 -> is_Some (s.2 !! (s0, s1)))) l a) as (s & E & _ & H1 & H2) end.
  - split_and!; [done| |]; cbn [snd].
    + intros s0 s1 emb Em. by rewrite lookup_empty in Em.
    + intros cells R y0 y1 x0 x1 s0 s1 Hc. by apply elem_of_nil in Hc.
  - intros dn cells rest [m0 m] Hsp (E0 & I1 & I2). cbn [fst snd] in *. subst m0.
    assert (HR : exists R, removed cells R). { rewrite Forall_forall in HM. apply HM. rewrite Hsp. apply elem_of_app. right. left. }
    destruct HR as [R HR]. destruct (fbmask_ok cells R HR) as (zs & Ez & Z1 & _). rewrite Ez. cbn [rbind].
    destruct (keep_ok zs m) as (m' & Em & K1 & K2). rewrite Em. eexists. split; [reflexivity|]. cbn [fst snd]. split_and!; [done| |].
    + intros s0 s1 emb Hl. destruct (K1 _ _ _ Hl) as [(cl & Hin)|[Hi Hn]]; [by eapply Z1|by apply I1].
    + intros c' R' y0 y1 x0 x1 s0 s1 Hc' HR' Ho P1 P2. apply K2. apply elem_of_app in Hc' as [Hc'|Hc']; [left; by eapply I2|].
      apply elem_of_list_singleton in Hc' as ->. right. destruct (fbmask_ok cells R' HR') as (zs' & Ez' & _ & Z2).
      rewrite Ez in Ez'. injection Ez' as <-. by apply (Z2 _ _ _ _ _ _ Ho).
  - rewrite E. cbn [rbind]. exists s.2. done.
Qed.

(** ** a run *)
Context (wire : bool -> nat -> nat -> nat -> nat -> Prop).
Context (Hwire : forall u w k z0 z1, w < D -> k < sh -> z1 < D -> wire u w k z0 z1 <->
     wire_complete (fun j => snum D sh nz u w k j) (fun j pos => off u w k + fs_len fs * j <= pos < off u w k + fs_len fs * S j) nz nodes edges z0 z1).

Lemma rectangle_wires_offers y0 y1 x0 x1 a b : y0 <= y1 < D -> x0 <= x1 < D -> rectangle_wires sh wire y0 y1 x0 x1 a b ->
  roffers [] y0 y1 x0 x1 a b.
Proof using St HLt Hwire Hd.
  intros Vy Vx [(l & N & El & Hl) (l' & N' & El' & Hl')].
  assert (En : without [] fn = fn). { unfold without. apply filter_all. intros x. apply not_elem_of_nil. }
  assert (Ee : edges_without [] fe = fe). { unfold edges_without. apply filter_all. intros x. split; apply not_elem_of_nil. }
  unfold roffers. rewrite En, Ee. split; [done|]. split; [done|]. split.
  - exists l. split_and!; [done..|]. intros w k. rewrite Hl. split; intros (? & ? & H); (split_and!; [lia..|]).
    + apply (wire_present _ _ _ _ _ _ St _ _ HLt); [lia..|]. apply Hwire; (done || lia).
    + apply Hwire; [lia..|]. apply (wire_present _ _ _ _ _ _ St _ _ HLt); (done || lia).
  - exists l'. split_and!; [done..|]. intros w k. rewrite Hl'. split; intros (? & ? & H); (split_and!; [lia..|]).
    + apply (wire_present _ _ _ _ _ _ St _ _ HLt); [lia..|]. apply Hwire; (done || lia).
    + apply Hwire; [lia..|]. apply (wire_present _ _ _ _ _ _ St _ _ HLt); (done || lia).
Qed.

Lemma fbicliques_top mb shuf coin : (forall i l, shuf i l ≡ₚ l) -> (1 <= mb)%N ->
  exists c, frag_init fs nodes edges = Ok c /\ forall bad, bad ≡ₚ tc_bad c -> exists n, forall fuel, n <= fuel ->
  exists masks embs, mask_run fuel c mb shuf coin 0 (mkTS 0 bad ([], [])) = Ok masks /\
    best_bicliques t line len masks = Ok embs /\
    (forall s0 s1 emb, embs !! (s0, s1) = Some emb -> 1 <= s0 /\ 1 <= s1 /\ biclique_embedding nodes edges s0 s1 emb) /\
    (crossed fs D sh nz off nodes edges -> forall y0 y1 x0 x1 s0 s1, y0 <= y1 < D -> x0 <= x1 < D ->
       rectangle_wires sh wire y0 y1 x0 x1 s0 s1 -> 1 <= s0 -> 1 <= s1 -> exists emb, embs !! (s0, s1) = Some emb).
Proof using St HLt Hd Hlen Hwire.
  intros Hp Hmb. destruct (frag_masked _ _ _ _ _ _ St _ _ HLt mb shuf coin Hp Hmb) as (c & Ec & H). exists c. split; [done|].
  intros bad HP. destruct (H bad HP) as [n Hn]. exists n. intros fuel HF. destruct (Hn fuel HF) as (masks & Em & Hne & HM & Hcr).
  destruct (fbicliques_run masks HM) as (m & E & H1 & H2). exists masks, m. split_and!; [done..|].
  intros Hc y0 y1 x0 x1 s0 s1 Vy Vx Ho P1 P2. specialize (Hcr Hc). destruct masks as [|cells masks]; [done|].
  inversion Hcr as [|? ? Hc1 _]; subst.
  exact (H2 cells [] y0 y1 x0 x1 s0 s1 ltac:(left) Hc1 (rectangle_wires_offers y0 y1 x0 x1 s0 s1 Vy Vx Ho) P1 P2).
Qed.
End bicliques.

Lemma zephyr_length_pos d y0 y1 x0 x1 : y0 <= y1 < 2 * d + 1 ->
  (exists w k, w < 2 * d + 1 /\ k mod 2 <= y0 /\ y1 < k mod 2 + 2 * d) -> zephyr_biclique_length d y0 y1 x0 x1 <> 0.
Proof.
  intros Hy (w & k & _ & H0 & H1). unfold zephyr_biclique_length, zephyr_line_length. pose proof (Nat.mod_upper_bound k 2 ltac:(lia)).
  destruct (Nat.ltb_spec 0 y0), (Nat.ltb_spec 0 x0), (Nat.ltb_spec (y1 + 1) (2 * d + 1)), (Nat.ltb_spec (x1 + 1) (2 * d + 1)); lia.
Qed.
Lemma foldl_max_ge (f : nat -> nat) l a : a <= foldl (fun m x => f x `max` m) a l /\ forall x, x ∈ l -> f x <= foldl (fun m x => f x `max` m) a l.
Proof.
  revert a. induction l as [|y l IH]; intros a; cbn [foldl].
  - split; [done|]. intros x Hx. by apply elem_of_nil in Hx.
  - destruct (IH (f y `max` a)) as [I1 I2]. split; [lia|]. intros x [->|Hx]%elem_of_cons; [lia|by apply I2].
Qed.
Lemma pegasus_length_pos offs y0 y1 x0 x1 : (forall u i, i < 6 -> offs u i <= 6) -> y0 <= y1 -> x0 <= x1 -> pegasus_biclique_length offs y0 y1 x0 x1 <> 0.
Proof.
  intros Hoff Hy Hx. unfold pegasus_biclique_length.
  match goal with |- foldl ?f ?a ?l <> 0 => pose proof (foldl_max_ge (fun y => pegasus_line_length offs true y x0 x1) l a) as [H1 H2] end.
  match type of H1 with ?a <= ?b => assert (1 <= b); [|cbv beta in *; lia] end.
  etrans; [|apply (H2 y0), elem_of_seq; lia]. unfold pegasus_line_length.
  specialize (Hoff true (y0 mod 6) (Nat.mod_upper_bound y0 6 ltac:(lia))).
  assert ((x0 + 6 - offs true (y0 mod 6)) / 6 + 1 <= (x1 + 12 - offs true (y0 mod 6)) / 6); [|lia].
  rewrite <- Nat.div_add by lia. apply Nat.div_le_mono; lia.
Qed.

Lemma zephyr_bicliques_top d t nodes edges mb shuf coin : t <= 4 ->
  lattice_graph (zephyr_total d t) (zephyr_coupler d t) nodes edges -> (forall i l, shuf i l ≡ₚ l) -> (1 <= mb)%N ->
  exists c, frag_init (zephyr_spec d t) nodes edges = Ok c /\ forall bad, bad ≡ₚ tc_bad c -> exists n, forall fuel, n <= fuel ->
  exists masks embs, mask_run fuel c mb shuf coin 0 (mkTS 0 bad ([], [])) = Ok masks /\
    zephyr_bicliques d t masks = Ok embs /\
    (forall s0 s1 emb, embs !! (s0, s1) = Some emb -> 1 <= s0 /\ 1 <= s1 /\ biclique_embedding nodes edges s0 s1 emb) /\
    (zephyr_crossed d t nodes edges -> forall y0 y1 x0 x1 s0 s1, y0 <= y1 < 2 * d + 1 -> x0 <= x1 < 2 * d + 1 ->
       rectangle_wires (2 * t) (zephyr_wire d t nodes edges) y0 y1 x0 x1 s0 s1 -> 1 <= s0 -> 1 <= s1 -> exists emb, embs !! (s0, s1) = Some emb).
Proof.
  intros Ht Hg Hp Hmb. pose proof (zephyr_striped d t Ht) as St.
  assert (HLt : lattice (2 * d + 1) (2 * t) d (zephyr_coupler d t) nodes edges) by (eapply of_lattice_graph; [|exact Hg]; unfold zephyr_total; lia).
  destruct (fbicliques_top _ _ _ _ _ _ St nodes edges HLt (zephyr_biclique_length d) ltac:(lia)) with (wire := zephyr_wire d t nodes edges) (mb := mb) (shuf := shuf) (coin := coin) as (c & Ec & H); [| |done|done|].
  { intros y0 y1 x0 x1 Hy _ (w & k & ? & ? & ? & ?). apply zephyr_length_pos; [done|]. by exists w, k. }
  { intros u w k z0 z1 _ _ _. apply zephyr_wire_ok. }
  exists c. split; [done|]. intros bad HP. destruct (H bad HP) as [n Hn]. exists n. intros fuel HF. destruct (Hn fuel HF) as (masks & embs & ? & ? & ? & HO).
  exists masks, embs. split_and!; [done..|]. intros Hc%zephyr_crossed_ok. by apply HO.
Qed.
Lemma pegasus_bicliques_top d offs nodes edges mb shuf coin : 1 <= d -> (forall u i, i < 6 -> offs u i <= 6) ->
  lattice_graph (pegasus_total d) (pegasus_coupler d offs) nodes edges -> (forall i l, shuf i l ≡ₚ l) -> (1 <= mb)%N ->
  exists c, frag_init (pegasus_spec d offs) nodes edges = Ok c /\ forall bad, bad ≡ₚ tc_bad c -> exists n, forall fuel, n <= fuel ->
  exists masks embs, mask_run fuel c mb shuf coin 0 (mkTS 0 bad ([], [])) = Ok masks /\
    pegasus_bicliques d offs masks = Ok embs /\
    (forall s0 s1 emb, embs !! (s0, s1) = Some emb -> 1 <= s0 /\ 1 <= s1 /\ biclique_embedding nodes edges s0 s1 emb) /\
    (pegasus_crossed d offs nodes edges -> forall y0 y1 x0 x1 s0 s1, y0 <= y1 < 6 * d -> x0 <= x1 < 6 * d ->
       rectangle_wires 2 (pegasus_wire d offs nodes edges) y0 y1 x0 x1 s0 s1 -> 1 <= s0 -> 1 <= s1 -> exists emb, embs !! (s0, s1) = Some emb).
Proof.
  intros Hd Hoff Hg Hp Hmb. pose proof (pegasus_striped d offs Hd Hoff) as St.
  assert (HLt : lattice (6 * d) 2 (d - 1) (pegasus_coupler d offs) nodes edges) by (eapply of_lattice_graph; [|exact Hg]; unfold pegasus_total; lia).
  destruct (fbicliques_top _ _ _ _ _ _ St nodes edges HLt (pegasus_biclique_length offs) ltac:(lia)) with (wire := pegasus_wire d offs nodes edges) (mb := mb) (shuf := shuf) (coin := coin) as (c & Ec & H); [| |done|done|].
  { intros y0 y1 x0 x1 Hy Hx _. apply pegasus_length_pos; [done|lia|lia]. }
  { intros u w k z0 z1 _ Hk _. by apply pegasus_wire_ok. }
  exists c. split; [done|]. intros bad HP. destruct (H bad HP) as [n Hn]. exists n. intros fuel HF. destruct (Hn fuel HF) as (masks & embs & ? & ? & ? & HO).
  exists masks, embs. split_and!; [done..|]. intros Hc%pegasus_crossed_ok. by apply HO.
Qed.
