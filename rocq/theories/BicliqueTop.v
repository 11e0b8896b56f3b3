(** API-level statements about the Chimera biclique search. *)
From stdpp Require Import base list list_numbers numbers gmap relations.
From Verif Require Import Base BusModel BicliqueModel SpecBus CoordProofs BitProofs BundleProofs MaskProofs MaskProofs2 TopoProofs BusTop
  CliqueProofs1 CliqueProofs2 CliqueProofs5 CliqueProofs6 CliqueProofs7 CliqueTop BicliqueProofs1 BicliqueProofs2 BicliqueProofs3 BicliqueProofs4.

Definition offers (t : topo) (nodes : list nat) (edges : list (nat * nat)) (y0 y1 x0 x1 a b : nat) : Prop :=
  y0 <= y1 < dim_y t /\ x0 <= x1 < dim_x t /\ rectangle_offers (dim_x t) (shore t) nodes edges y0 y1 x0 x1 a b.
Definition gentry (t : topo) (nodes : list nat) (edges : list (nat * nat)) (z : nat * nat * nat * list (list nat)) : Prop :=
  let '(s0, s1, cl, emb) := z in
  1 <= s0 /\ 1 <= s1 /\ biclique_embedding nodes edges s0 s1 emb /\
  (forall ch, ch ∈ emb -> length ch <= cl) /\ (exists ch, ch ∈ emb /\ length ch = cl) /\
  forall y0 y1 x0 x1, offers t nodes edges y0 y1 x0 x1 s0 s1 -> cl <= (y1 - y0 + 1) `max` (x1 - x0 + 1).

Section collect.
Context (t : topo) (nodes : list nat) (edges : list (nat * nat)).
Context (Hsh : shore t <= 8) (Hg : good_graph (nqubits (dim_y t) (dim_x t) (shore t)) nodes edges) (Hy1 : 1 <= dim_y t) (Hx1 : 1 <= dim_x t).
Notation removed := (removed t nodes edges).

Lemma offers_count n e lm y0 y1 x0 x1 a b : ready t n e lm -> offers t n e y0 y1 x0 x1 a b -> roffer t lm (y0, y1, x0, x1) a b.
Proof using.
  intros Hrd (Vy & Vx & O1 & O2). destruct (rect_offers t n e lm Hrd y0 y1 x0 x1 Vy Vx) as [P1 P2]. split; by eapply lines_unique.
Qed.

Lemma bmask_ok cells : (exists R, removed cells R) -> exists zs, bmask t (chimera_line t) chimera_biclique_length cells = Ok zs /\
  forall R, removed cells R -> (forall z, z ∈ zs -> gentry t (without R nodes) (edges_without R edges) z) /\
    forall y0 y1 x0 x1 s0 s1, offers t (without R nodes) (edges_without R edges) y0 y1 x0 x1 s0 s1 -> 1 <= s0 -> 1 <= s1 ->
      exists cl emb, (s0, s1, cl, emb) ∈ zs.
Proof using Hsh Hg Hy1 Hx1.
  intros [R0 HR0].
  assert (G : forall R, removed cells R -> exists zs, bmask t (chimera_line t) chimera_biclique_length cells = Ok zs /\
    (forall z, z ∈ zs -> gentry t (without R nodes) (edges_without R edges) z) /\
    forall y0 y1 x0 x1 s0 s1, offers t (without R nodes) (edges_without R edges) y0 y1 x0 x1 s0 s1 -> 1 <= s0 -> 1 <= s1 ->
      exists cl emb, (s0, s1, cl, emb) ∈ zs).
  { intros R HR. pose proof Hg as Hg'. rewrite nqubits_t in Hg'.
    destruct (removed_ready t nodes edges Hg' cells R HR) as (lm & E & Hrd).
    unfold bmask. rewrite E. cbn [rbind].
    destruct (cache_ok t lm (rd_len _ _ _ _ Hrd) (rd_bytes _ _ _ _ Hrd) Hy1 Hx1) as (mem & E1 & HF). rewrite E1. cbn [rbind].
    destruct (table_ok t _ _ lm Hrd chimera_biclique_length (chimera_pos t lm) mem HF) as (ys & E2 & HB). rewrite E2. cbn [rbind].
    destruct (visit_ok t _ _ lm Hrd (chimera_line t) chimera_biclique_length (chimera_pos t lm) ys HB) as (zs & E3 & V1 & V2). exists zs. split_and!; [done| |].
    - intros [[[s0 s1] cl] emb] Hz. destruct (chimera_entry t _ _ lm Hrd _ _ _ _ (V1 _ Hz)) as (P1 & P2 & P3 & P5 & P6 & P7). unfold gentry. split_and!; [done..|].
      intros y0 y1 x0 x1 Ho. pose proof Ho as ((? & _) & (? & _) & _). rewrite <- chimera_rlen by done. apply (P7 (y0, y1, x0, x1)); [by destruct Ho as (? & ? & _)|]. by eapply offers_count.
    - intros y0 y1 x0 x1 s0 s1 Ho H1 H2. apply (V2 (y0, y1, x0, x1)); [by destruct Ho as (? & ? & _)| |done|done]. by eapply offers_count. }
  destruct (G R0 HR0) as (zs & E & _). exists zs. split; [done|]. intros R HR. destruct (G R HR) as (zs' & E' & H). rewrite E in E'. injection E' as <-. done.
Qed.

Lemma keep_ok zs m : exists m', foldl bkeep (∅, m) zs = (∅, m') /\
  (forall s0 s1 emb, m' !! (s0, s1) = Some emb -> (exists cl, (s0, s1, cl, emb) ∈ zs) \/
     (m !! (s0, s1) = Some emb /\ forall cl e, (s0, s1, cl, e) ∉ zs)) /\
  (forall s0 s1, is_Some (m !! (s0, s1)) \/ (exists cl e, (s0, s1, cl, e) ∈ zs) -> is_Some (m' !! (s0, s1))).
Proof using.
  revert m. induction zs as [|[[[a b] cl] e] zs IH]; intros m; cbn [foldl].
  - exists m. split_and!; [done| |].
    + intros s0 s1 emb E. right. split; [done|]. intros cl e He. by apply elem_of_nil in He.
    + intros s0 s1 [?|(cl & e & He)]; [done|]. by apply elem_of_nil in He.
  - unfold bkeep at 2. cbn [fst snd]. rewrite lookup_empty. destruct (IH (<[(a, b):=e]> m)) as (m' & E & H1 & H2).
    exists m'. split_and!; [done| |].
    + intros s0 s1 emb Em. destruct (H1 _ _ _ Em) as [(cl' & Hin)|[Hi Hn]].
      * left. exists cl'. by right.
      * destruct (decide ((a, b) = (s0, s1))) as [[= -> ->]|Hne].
        -- rewrite lookup_insert in Hi. injection Hi as ->. left. exists cl. left.
        -- rewrite lookup_insert_ne in Hi by done. right. split; [done|]. intros cl' e' [[= -> -> _ _]|Hin]%elem_of_cons; [by destruct Hne|].
           by apply Hn in Hin.
    + intros s0 s1 HH. apply H2. destruct (decide ((a, b) = (s0, s1))) as [[= -> ->]|Hne].
      * left. rewrite lookup_insert. by eexists.
      * rewrite lookup_insert_ne by done. destruct HH as [?|(cl' & e' & [[= -> -> _ _]|Hin]%elem_of_cons)]; [by left|by destruct Hne|].
        right. by exists cl', e'.
Qed.

Lemma bicliques_run masks : Forall (fun cells => exists R, removed cells R) masks ->
  exists m, best_bicliques t (chimera_line t) chimera_biclique_length masks = Ok m /\
    (forall s0 s1 emb, m !! (s0, s1) = Some emb -> exists pre cells post cl, masks = pre ++ cells :: post /\
       (forall R, removed cells R -> gentry t (without R nodes) (edges_without R edges) (s0, s1, cl, emb)) /\
       forall cells' R y0 y1 x0 x1, cells' ∈ post -> removed cells' R -> ~ offers t (without R nodes) (edges_without R edges) y0 y1 x0 x1 s0 s1) /\
    (forall cells R y0 y1 x0 x1 s0 s1, cells ∈ masks -> removed cells R -> offers t (without R nodes) (edges_without R edges) y0 y1 x0 x1 s0 s1 ->
       1 <= s0 -> 1 <= s1 -> is_Some (m !! (s0, s1))).
Proof using Hsh Hg Hy1 Hx1.
  intros HM. unfold best_bicliques.
  match goal with |- context [foldM ?F ?l ?a] => destruct (foldM_inv F (fun dn s => s.1 = ∅ /\
    (forall s0 s1 emb, s.2 !! (s0, s1) = Some emb -> exists pre cells post cl, dn = pre ++ cells :: post /\ 1 <= s0 /\ 1 <= s1 /\
       (forall R, removed cells R -> gentry t (without R nodes) (edges_without R edges) (s0, s1, cl, emb)) /\
       forall cells' R y0 y1 x0 x1, cells' ∈ post -> removed cells' R -> ~ offers t (without R nodes) (edges_without R edges) y0 y1 x0 x1 s0 s1) /\
    (forall cells R y0 y1 x0 x1 s0 s1, cells ∈ dn -> removed cells R -> offers t (without R nodes) (edges_without R edges) y0 y1 x0 x1 s0 s1 ->
       1 <= s0 -> 1 <= s1 -> is_Some (s.2 !! (s0, s1)))) l a) as (s & E & _ & H1 & H2) end.
  - split_and!; [done| |]; cbn [snd].
    + intros s0 s1 emb Em. by rewrite lookup_empty in Em.
    + intros cells R y0 y1 x0 x1 s0 s1 Hc. by apply elem_of_nil in Hc.
  - intros dn cells rest [m0 m] Hsp (E0 & I1 & I2). cbn [fst snd] in *. subst m0.
    assert (HR : exists R, removed cells R). { rewrite Forall_forall in HM. apply HM. rewrite Hsp. apply elem_of_app. right. left. }
    destruct (bmask_ok cells HR) as (zs & Ez & Hz). rewrite Ez. cbn [rbind].
    destruct (keep_ok zs m) as (m' & Em & K1 & K2). rewrite Em. eexists. split; [reflexivity|]. cbn [fst snd]. split_and!; [done| |].
    + intros s0 s1 emb Hl. destruct (K1 _ _ _ Hl) as [(cl & Hin)|[Hi Hn]].
      * exists dn, cells, [], cl. split; [done|]. destruct HR as [R HR]. destruct (Hz R HR) as [Hz1 _]. destruct (Hz1 _ Hin) as (? & ? & _).
        split_and!; [done..| |].
        -- intros R' HR'. destruct (Hz R' HR') as [Hz1' _]. by apply Hz1'.
        -- intros c' R' y0 y1 x0 x1 Hc'. by apply elem_of_nil in Hc'.
      * destruct (I1 _ _ _ Hi) as (pre & c0 & post & cl & -> & P1 & P2 & P3 & P4). exists pre, c0, (post ++ [cells]), cl. split_and!; [by rewrite <- app_assoc|done..|].
        intros c' R' y0 y1 x0 x1 [Hc'|Hc']%elem_of_app HR' Ho; [by eapply P4|]. apply elem_of_list_singleton in Hc' as ->.
        destruct (Hz R' HR') as [_ Hz2]. destruct (Hz2 _ _ _ _ _ _ Ho P1 P2) as (cl' & e' & Hin). by apply Hn in Hin.
    + intros c' R' y0 y1 x0 x1 s0 s1 Hc' HR' Ho P1 P2. apply K2. apply elem_of_app in Hc' as [Hc'|Hc']; [left; by eapply I2|].
      apply elem_of_list_singleton in Hc' as ->. right. destruct (Hz R' HR') as [_ Hz2]. by apply (Hz2 _ _ _ _ _ _ Ho).
  - rewrite E. cbn [rbind]. exists s.2. split_and!; [done| |done].
    intros s0 s1 emb Hl. destruct (H1 _ _ _ Hl) as (pre & cells & post & cl & ? & ? & ? & ? & ?). by exists pre, cells, post, cl.
Qed.
End collect.

Lemma biclique_sub nodes edges nodes' edges' a b emb :
  (forall q, q ∈ nodes' -> q ∈ nodes) -> (forall e, e ∈ edges' -> e ∈ edges) -> biclique_embedding nodes' edges' a b emb -> biclique_embedding nodes edges a b emb.
Proof.
  intros Hn He (H1 & H2 & H3 & H4). split_and!; [done| |done|].
  - intros c Hc. eapply good_chain_sub; [done..|]. by apply H2.
  - intros i j c d Hi Hj Hc Hd. eapply coupled_sub; [done|]. by eapply H4.
Qed.

(** C41 *)
Lemma bicliques_valid t nodes edges bound shuf coin :
  shore t <= 8 -> good_graph (nqubits (dim_y t) (dim_x t) (shore t)) nodes edges ->
  (forall i l, shuf i l ≡ₚ l) -> (1 <= bound)%N -> 1 <= dim_y t -> 1 <= dim_x t ->
  exists c, topo_init t nodes edges = Ok c /\ forall bad, bad ≡ₚ tc_bad c -> exists n, forall fuel, n <= fuel ->
  exists masks embs, mask_run fuel c bound shuf coin 0 (mkTS 0 bad ([], [])) = Ok masks /\
    best_bicliques t (chimera_line t) chimera_biclique_length masks = Ok embs /\
    (forall s0 s1 emb, embs !! (s0, s1) = Some emb -> 1 <= s0 /\ 1 <= s1 /\ biclique_embedding nodes edges s0 s1 emb) /\
    (forall nm em R y0 y1 x0 x1 s0 s1, (nm, em) ∈ masks ->
       (forall a b, missing_coupler (dim_y t) (dim_x t) (shore t) nodes edges a b -> a ∈ R \/ b ∈ R) ->
       shows (dim_y t) (dim_x t) (shore t) nm em (without R nodes) (edges_without R edges) ->
       y0 <= y1 < dim_y t -> x0 <= x1 < dim_x t ->
       rectangle_offers (dim_x t) (shore t) (without R nodes) (edges_without R edges) y0 y1 x0 x1 s0 s1 ->
       1 <= s0 -> 1 <= s1 -> exists emb, embs !! (s0, s1) = Some emb).
Proof.
  intros Hsh Hg Hp Hbd Hy Hx.
  destruct (run_masks t nodes edges bound shuf coin Hsh Hg Hp Hbd) as (c & Ec & Hrun). exists c. split; [done|]. intros bad HP.
  destruct (Hrun bad HP) as [n0 Hn]. exists n0. intros fuel HF. destruct (Hn fuel HF) as (masks & Em & _ & HM).
  destruct (bicliques_run t nodes edges Hsh Hg Hy Hx masks HM) as (m & E & H1 & H2).
  exists masks, m. split_and!; [done..| |].
  - intros s0 s1 emb He. destruct (H1 _ _ _ He) as (pre & cells & post & cl & -> & H & _).
    apply Forall_app in HM as [_ [[R HR] _]%Forall_cons]. destruct (H R HR) as (? & ? & Hb & _). split_and!; [done..|].
    eapply biclique_sub; [apply without_sub|apply edges_without_sub|exact Hb].
  - intros nm em R y0 y1 x0 x1 s0 s1 Hin HR Hs Vy Vx Ho P1 P2. rewrite Forall_forall in HM. destruct (HM _ Hin) as [R0 HR0].
    exact (H2 (nm, em) R y0 y1 x0 x1 s0 s1 Hin (shows_removed _ _ _ _ _ _ _ Hsh HR0 HR Hs) (conj Vy (conj Vx Ho)) P1 P2).
Qed.

(** C43, the part that holds *)
Lemma bicliques_shortest_last t nodes edges bound shuf coin :
  shore t <= 8 -> good_graph (nqubits (dim_y t) (dim_x t) (shore t)) nodes edges ->
  (forall i l, shuf i l ≡ₚ l) -> (1 <= bound)%N -> 1 <= dim_y t -> 1 <= dim_x t ->
  exists c, topo_init t nodes edges = Ok c /\ forall bad, bad ≡ₚ tc_bad c -> exists n, forall fuel, n <= fuel ->
  exists masks embs, mask_run fuel c bound shuf coin 0 (mkTS 0 bad ([], [])) = Ok masks /\
    best_bicliques t (chimera_line t) chimera_biclique_length masks = Ok embs /\
    forall s0 s1 emb, embs !! (s0, s1) = Some emb -> exists pre nm em post len, masks = pre ++ (nm, em) :: post /\
      (forall ch, ch ∈ emb -> length ch <= len) /\ (exists ch, ch ∈ emb /\ length ch = len) /\
      (forall R y0 y1 x0 x1,
         (forall a b, missing_coupler (dim_y t) (dim_x t) (shore t) nodes edges a b -> a ∈ R \/ b ∈ R) ->
         shows (dim_y t) (dim_x t) (shore t) nm em (without R nodes) (edges_without R edges) ->
         y0 <= y1 < dim_y t -> x0 <= x1 < dim_x t ->
         rectangle_offers (dim_x t) (shore t) (without R nodes) (edges_without R edges) y0 y1 x0 x1 s0 s1 ->
         len <= (y1 - y0 + 1) `max` (x1 - x0 + 1)) /\
      (forall nm' em' R y0 y1 x0 x1, (nm', em') ∈ post ->
         (forall a b, missing_coupler (dim_y t) (dim_x t) (shore t) nodes edges a b -> a ∈ R \/ b ∈ R) ->
         shows (dim_y t) (dim_x t) (shore t) nm' em' (without R nodes) (edges_without R edges) ->
         y0 <= y1 < dim_y t -> x0 <= x1 < dim_x t ->
         ~ rectangle_offers (dim_x t) (shore t) (without R nodes) (edges_without R edges) y0 y1 x0 x1 s0 s1).
Proof.
  intros Hsh Hg Hp Hbd Hy Hx.
  destruct (run_masks t nodes edges bound shuf coin Hsh Hg Hp Hbd) as (c & Ec & Hrun). exists c. split; [done|]. intros bad HP.
  destruct (Hrun bad HP) as [n0 Hn]. exists n0. intros fuel HF. destruct (Hn fuel HF) as (masks & Em & _ & HM).
  destruct (bicliques_run t nodes edges Hsh Hg Hy Hx masks HM) as (m & E & H1 & _).
  exists masks, m. split_and!; [done..|]. intros s0 s1 emb He. destruct (H1 _ _ _ He) as (pre & [nm em] & post & cl & Hms & H & Hpost).
  rewrite Forall_forall in HM. destruct (HM (nm, em)) as [R0 HR0]. { rewrite Hms. apply elem_of_app. right. left. }
  exists pre, nm, em, post, cl. destruct (H R0 HR0) as (_ & _ & _ & L1 & L2 & _). split_and!; [done..| |].
  - intros R y0 y1 x0 x1 HR Hs Vy Vx Ho. destruct (H R ltac:(by eapply shows_removed)) as (_ & _ & _ & _ & _ & Hmin). apply Hmin. exact (conj Vy (conj Vx Ho)).
  - intros nm' em' R y0 y1 x0 x1 Hin HR Hs Vy Vx Ho. destruct (HM (nm', em')) as [R1 HR1]. { rewrite Hms. apply elem_of_app. right. by right. }
    exact (Hpost (nm', em') R y0 y1 x0 x1 Hin (shows_removed _ _ _ _ _ _ _ Hsh HR1 HR Hs) (conj Vy (conj Vx Ho))).
Qed.

(** C42 *)
Lemma biclique_sizes t nm em nodes edges : shore t <= 8 -> length nm = num_cells t -> length em = num_cells t ->
  Forall (fun b => (b < 256)%N) nm -> Forall (fun b => (b < 256)%N) em ->
  good_graph (nqubits (dim_y t) (dim_x t) (shore t)) nodes edges ->
  shows (dim_y t) (dim_x t) (shore t) nm em nodes edges -> 1 <= dim_y t -> 1 <= dim_x t ->
  exists lm mem, compute_line_masks t (nm, em) = Ok lm /\ biclique_cache t lm = Ok mem /\
    forall y0 y1 x0 x1, y0 <= y1 < dim_y t -> x0 <= x1 < dim_x t ->
      exists a b, bscore t mem y0 y1 x0 x1 = Ok (a, b) /\ rectangle_offers (dim_x t) (shore t) nodes edges y0 y1 x0 x1 a b.
Proof.
  intros Hsh L1 L2 B1 B2 Hg Hs Hy1 Hx1. rewrite nqubits_t in Hg.
  assert (Hr : represents t nm em nodes edges) by (by apply shows_represents).
  destruct (line_masks_exact t nm em nodes edges _ Hr Hg) as (lm & E & H).
  destruct (compute_line_masks_ok t nm em L1 L2 B1) as (lm' & E' & Hl & Hb & _). rewrite E in E'. injection E' as <-.
  destruct (cache_ok t lm Hl Hb Hy1 Hx1) as (mem & Em & HF). exists lm, mem. split_and!; [done..|].
  intros y0 y1 x0 x1 Vy Vx. eexists _, _. split; [apply (bscore_ok t lm Hl); done|].
  assert (G : forall u w0 w1 z0 z1, w0 <= w1 < dim_w t u -> z0 <= z1 < dim_z t u ->
    lines_through (dim_x t) (shore t) nodes edges u w0 w1 z0 z1 (lsum t lm u (z1 - z0 + 1) (w1 - w0 + 1) z0 w0)).
  { intros u w0 w1 z0 z1 Hw Hz. exists (slines t lm u w0 (S w1 - w0) z0 z1). split_and!.
    - apply slines_nodup.
    - replace z1 with (z0 + (z1 - z0 + 1) - 1) at 1 by lia. rewrite slines_length by lia. f_equal; lia.
    - intros w k. rewrite slines_elem.
      assert (X : w0 <= w <= w1 -> k ∈ bits (lmask t lm u w z0 z1) <-> k < shore t /\ segment_present (dim_x t) (shore t) nodes edges u w z0 z1 k).
      { intros Hww. destruct (H u w z0 z1 ltac:(lia) ltac:(lia) ltac:(lia)) as (m & Em' & _ & Hm).
        destruct (get_line_ok t lm Hl Hb u w z0 z1 ltac:(lia) ltac:(lia) ltac:(lia)) as [Em2 _]. rewrite Em' in Em2. injection Em2 as <-. apply Hm. }
      split; intros [Hw1 Hk]; (split; [lia|]); apply X; (done || lia). }
  split; apply G; simpl; lia.
Qed.
