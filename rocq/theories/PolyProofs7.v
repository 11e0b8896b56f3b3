(** Bicliques in a rectangle, and the table of sizes. *)
From stdpp Require Import base list numbers gmap.
From Verif Require Import Base NxModel PyCacheModel PolyModel SpecBus SpecPoly PolyProofs1 PolyProofs2 PolyProofs3 PolyProofs4 PolyProofs5 DiagProofs LayoutProofs1 LayoutProofs2.

Definition rin (P : eden) (R : rect) : Prop :=
  let '(x0, x1, y0, y1) := R in (0 <= x0 <= x1 /\ x1 < Z.of_nat (ed_M P) /\ 0 <= y0 <= y1 /\ y1 < Z.of_nat (ed_N P))%Z.
Definition disj (c d : list cq) : Prop := c ## d.

(** ** A rectangle *)
Lemma bundle_disj P u w a b : (0 <= a)%Z -> (0 <= b)%Z -> pairwise disj (bundle P u w a b).
Proof.
  intros Ha Hb i j c d Hij Hi Hj q Hc Hd.
  pose proof (elem_of_list_lookup_2 _ _ _ Hi) as Hci. pose proof (elem_of_list_lookup_2 _ _ _ Hj) as Hdj.
  apply elem_of_bundle in Hci as (k & _ & -> & _); [|done|done]. apply elem_of_bundle in Hdj as (k' & _ & -> & _); [|done|done].
  apply elem_of_line in Hc as (z & _ & ->). apply elem_of_line in Hd as (z' & _ & E).
  assert (k = k') as <- by (destruct u; simpl in E; congruence).
  assert (i = j); [|lia]. eapply NoDup_lookup; [apply NoDup_bundle|done|done].
Qed.
Definition lines (P : eden) (u : bool) (w : Z) (n : nat) (a b : Z) : list (list cq) := w ← seqZ w (Z.of_nat n); bundle P u w a b.
Lemma lines_S P u w n a b : lines P u w (S n) a b = bundle P u w a b ++ lines P u (w + 1) n a b.
Proof. unfold lines. rewrite seqZ_cons by lia. simpl. unfold Z.succ. do 2 f_equal. f_equal. lia. Qed.
Lemma elem_of_lines P u w n a b c : (0 <= a)%Z -> (0 <= b)%Z -> c ∈ lines P u w n a b <-> exists w' k, (w <= w' < w + Z.of_nat n)%Z /\ k < ed_L P /\ c = line_of u w' a b k /\
  seg P u (Z.to_nat w') (Z.to_nat (Z.min a b)) (Z.to_nat (Z.max a b)) k.
Proof.
  intros Ha Hb. unfold lines. rewrite elem_of_list_bind. setoid_rewrite elem_of_seqZ. split.
  - intros (w' & H & Hw). apply elem_of_bundle in H as (k & ? & ? & ?); [|done|done]. exists w', k. split_and!; try done; lia.
  - intros (w' & k & Hw & Hk & -> & Hs). exists w'. split; [|lia]. apply elem_of_bundle; [done|done|]. by exists k.
Qed.
Lemma lines_disj P u n a b : (0 <= a)%Z -> (0 <= b)%Z -> forall w, (0 <= w)%Z -> pairwise disj (lines P u w n a b).
Proof.
  intros Ha Hb. induction n as [|n IH]; intros w Hw; [apply pairwise_nil|]. rewrite lines_S. apply pairwise_app; [by apply bundle_disj|apply IH; lia|].
  intros c d Hc Hd q Hqc Hqd. apply elem_of_bundle in Hc as (k & _ & -> & _); [|done|done]. apply elem_of_lines in Hd as (w' & k' & Hw' & _ & -> & _); [|done|done].
  apply elem_of_line in Hqc as (z & Hz & ->). apply elem_of_line in Hqd as (z' & Hz' & E).
  assert (Z.to_nat w = Z.to_nat w') by (destruct u; simpl in E; congruence). lia.
Qed.
Lemma hscore_ok P x0 x1 : forall n y, (0 <= x0 <= x1)%Z -> (x1 < Z.of_nat (ed_M P))%Z -> (0 <= y)%Z -> (y + Z.of_nat n < Z.of_nat (ed_N P))%Z ->
  exists c, hscore_sum P x0 x1 y n = Ok c /\ c <= length (lines P false y (S n) x0 x1) /\ (intact P -> c = length (lines P false y (S n) x0 x1)).
Proof.
  induction n as [|n IH]; intros y Hx Hx1 Hy Hn; simpl; destruct (hline_score_ok P y x0 x1) as (c & -> & Hc1 & Hc2); try lia; cbn [rbind].
  - exists c. rewrite lines_S, app_length, bundle_length by lia. rewrite Z.min_l, Z.max_r by lia. split; [done|]. change (length (lines P false (y + 1) 0 x0 x1)) with 0.
    split; [lia|]. intros Hi. specialize (Hc2 Hi). lia.
  - destruct (IH (y + 1)%Z) as (c' & -> & H1 & H2); [lia..|]. cbn [rbind]. exists (c + c'). rewrite lines_S, app_length, bundle_length by lia. rewrite Z.min_l, Z.max_r by lia.
    split; [done|]. split; [lia|]. intros Hi. specialize (Hc2 Hi). specialize (H2 Hi). lia.
Qed.
Lemma vscore_ok P y0 y1 : forall n x, (0 <= y0 <= y1)%Z -> (y1 < Z.of_nat (ed_N P))%Z -> (0 <= x)%Z -> (x + Z.of_nat n < Z.of_nat (ed_M P))%Z ->
  exists c, vscore_sum P x y0 y1 n = Ok c /\ c <= length (lines P true x (S n) y1 y0) /\ (intact P -> c = length (lines P true x (S n) y1 y0)).
Proof.
  induction n as [|n IH]; intros x Hy Hy1 Hx Hn; simpl; destruct (vline_score_ok P x y0 y1) as (c & -> & Hc1 & Hc2); try lia; cbn [rbind].
  - exists c. rewrite lines_S, app_length, bundle_length by lia. rewrite Z.min_r, Z.max_l by lia. split; [done|]. change (length (lines P true (x + 1) 0 y1 y0)) with 0.
    split; [lia|]. intros Hi. specialize (Hc2 Hi). lia.
  - destruct (IH (x + 1)%Z) as (c' & -> & H1 & H2); [lia..|]. cbn [rbind]. exists (c + c'). rewrite lines_S, app_length, bundle_length by lia. rewrite Z.min_r, Z.max_l by lia.
    split; [done|]. split; [lia|]. intros Hi. specialize (Hc2 Hi). specialize (H2 Hi). lia.
Qed.
Lemma biclique_lines P x0 x1 y0 y1 : rin P (x0, x1, y0, y1) -> biclique P (x0, x1, y0, y1) =
  (lines P false y0 (S (Z.to_nat (y1 - y0))) x0 x1, lines P true x0 (S (Z.to_nat (x1 - x0))) y1 y0).
Proof. intros H. unfold rin in H. unfold biclique, lines. f_equal; [replace (Z.of_nat (S (Z.to_nat (y1 - y0)))) with (y1 + 1 - y0)%Z by lia|replace (Z.of_nat (S (Z.to_nat (x1 - x0)))) with (x1 + 1 - x0)%Z by lia]; done. Qed.
Lemma size_ok P R : rin P R -> exists h v, biclique_size P R = Ok (h, v) /\
  h <= length (biclique P R).1 /\ v <= length (biclique P R).2 /\ (intact P -> h = length (biclique P R).1 /\ v = length (biclique P R).2).
Proof.
  destruct R as [[[x0 x1] y0] y1]. intros H. rewrite (biclique_lines _ _ _ _ _ H). unfold rin in H. unfold biclique_size.
  destruct (hscore_ok P x0 x1 (Z.to_nat (y1 - y0)) y0) as (h & -> & H1 & H2); [lia..|]. cbn [rbind].
  destruct (vscore_ok P y0 y1 (Z.to_nat (x1 - x0)) x0) as (v & -> & H3 & H4); [lia..|]. cbn [rbind].
  exists h, v. split; [done|]. split; [done|]. split; [done|]. intros Hi. split; [by apply H2|by apply H4].
Qed.
Definition biclique_ok (P : eden) (la lb : nat) (A B : list (list cq)) : Prop :=
  (forall c, c ∈ A -> cchain P c /\ length c = la) /\ (forall c, c ∈ B -> cchain P c /\ length c = lb) /\
  pairwise disj A /\ pairwise disj B /\ (forall c d, c ∈ A -> d ∈ B -> crel P c d).
Lemma rect_biclique P R : cell_ok P -> rin P R -> biclique_ok P (rect_lengths R).1 (rect_lengths R).2 (biclique P R).1 (biclique P R).2.
Proof.
  destruct R as [[[x0 x1] y0] y1]. intros Hcell H. rewrite (biclique_lines _ _ _ _ _ H). unfold rin in H. simpl. split_and!.
  - intros c Hc. apply elem_of_lines in Hc as (w & k & Hw & Hk & -> & Hs); [|lia|lia]. split; [apply line_cchain; try done; lia|]. rewrite line_length. lia.
  - intros c Hc. apply elem_of_lines in Hc as (w & k & Hw & Hk & -> & Hs); [|lia|lia]. split; [apply line_cchain; try done; lia|]. rewrite line_length. lia.
  - apply lines_disj; lia.
  - apply lines_disj; lia.
  - intros c d Hc Hd. apply elem_of_lines in Hc as (y & k & Hy & Hk & -> & Sc); [|lia|lia]. apply elem_of_lines in Hd as (x & l & Hx & Hl & -> & Sd); [|lia|lia].
    split.
    + intros q Hq Hq'. apply elem_of_line in Hq as (z & _ & ->). apply elem_of_line in Hq' as (z' & _ & E). simpl in E. congruence.
    + exists (Z.to_nat x, Z.to_nat y, false, k), (Z.to_nat x, Z.to_nat y, true, l). split_and!.
      * apply elem_of_line. exists x. split; [lia|done].
      * apply elem_of_line. exists y. split; [lia|done].
      * apply Hcell; [lia|lia|done|done|apply (proj1 Sc); lia|apply (proj1 Sd); lia].
Qed.
Lemma biclique_ok_sym P la lb A B : biclique_ok P la lb A B -> biclique_ok P lb la B A.
Proof.
  intros (H1 & H2 & H3 & H4 & H5). split_and!; try done. intros c d Hc Hd. destruct (H5 d c Hd Hc) as [E (p & q & ? & ? & ?)].
  split; [intros x Hx Hx'; by apply (E x)|]. exists q, p. rewrite has_coupler_sym. done.
Qed.
Lemma biclique_ok_take P la lb A B n m : biclique_ok P la lb A B -> biclique_ok P la lb (take n A) (take m B).
Proof.
  intros (H1 & H2 & H3 & H4 & H5).
  assert (HA : forall c, c ∈ take n A -> c ∈ A) by (intros c Hc; by eapply elem_of_take in Hc as (i & ?%elem_of_list_lookup_2 & _)).
  assert (HB : forall c, c ∈ take m B -> c ∈ B) by (intros c Hc; by eapply elem_of_take in Hc as (i & ?%elem_of_list_lookup_2 & _)).
  split_and!; try (by auto); by apply pairwise_take.
Qed.
Lemma biclique_lin P edges la lb A B : sub_graph P edges -> biclique_ok P la lb A B ->
  biclique_embedding (ends edges) edges (length A) (length B) (map (map (poly_to_linear (ed_N P) (ed_L P))) A ++ map (map (poly_to_linear (ed_N P) (ed_L P))) B) /\
  (forall c, c ∈ map (map (poly_to_linear (ed_N P) (ed_L P))) A -> wire edges c /\ length c = la) /\
  (forall c, c ∈ map (map (poly_to_linear (ed_N P) (ed_L P))) B -> wire edges c /\ length c = lb).
Proof.
  intros Hsub (H1 & H2 & H3 & H4 & H5).
  assert (Hdis : pairwise disj (A ++ B)).
  { apply pairwise_app; [done|done|]. intros c d Hc Hd. by apply H5. }
  assert (Hin : forall c, c ∈ A ++ B -> cchain P c).
  { intros c [Hc|Hc]%elem_of_app; [by apply H1|by apply H2]. }
  split; [|split].
  - rewrite <- map_app. split; [by rewrite map_length, app_length|]. split; [|split].
    + intros c (c' & -> & Hc')%elem_of_list_fmap. by apply cchain_good, Hin.
    + assert (H : forall i j c d, i < j -> map (map (poly_to_linear (ed_N P) (ed_L P))) (A ++ B) !! i = Some c -> map (map (poly_to_linear (ed_N P) (ed_L P))) (A ++ B) !! j = Some d -> c ## d).
      { intros i j c d Hij Hi Hj. apply list_lookup_fmap_Some in Hi as (c' & Hi & ->), Hj as (d' & Hj & ->).
        apply disjoint_lin; [| |by eapply Hdis].
        - intros q Hq. destruct (Hin c') as (_ & _ & Hc & _); [by eapply elem_of_list_lookup_2|]. by apply Hc.
        - intros q Hq. destruct (Hin d') as (_ & _ & Hc & _); [by eapply elem_of_list_lookup_2|]. by apply Hc. }
      intros i j c d Hij Hi Hj. destruct (decide (i < j)); [by eapply H|]. intros q Hc Hd. eapply (H j i d c); eauto; lia.
    + intros i j c d Hi Hj Hci Hdj. apply list_lookup_fmap_Some in Hci as (c' & Hci & ->), Hdj as (d' & Hdj & ->).
      rewrite lookup_app_l in Hci by done. rewrite lookup_app_r in Hdj by done. apply meets_coupled; [done|].
      apply H5; by eapply elem_of_list_lookup_2.
  - intros c (c' & -> & Hc')%elem_of_list_fmap. rewrite map_length. destruct (H1 _ Hc') as [Hg <-]. split; [|done]. by apply cchain_good.
  - intros c (c' & -> & Hc')%elem_of_list_fmap. rewrite map_length. destruct (H2 _ Hc') as [Hg <-]. split; [|done]. by apply cchain_good.
Qed.

(** ** The table of sizes *)
Lemma elem_of_all_rects P R : R ∈ all_rects P <-> rin P R.
Proof.
  destruct R as [[[x0 x1] y0] y1]. unfold all_rects, rin. split.
  - intros (xm & (xn & (ym & (yn & H & Hyn)%elem_of_list_bind & Hym)%elem_of_list_bind & Hxn)%elem_of_list_bind & Hxm)%elem_of_list_bind.
    apply elem_of_list_singleton in H. injection H as -> -> -> ->. rewrite elem_of_seqZ in *. lia.
  - intros H. apply elem_of_list_bind. exists x1. rewrite elem_of_seqZ. split; [|lia]. apply elem_of_list_bind. exists x0. rewrite elem_of_seqZ. split; [|lia].
    apply elem_of_list_bind. exists y1. rewrite elem_of_seqZ. split; [|lia]. apply elem_of_list_bind. exists y0. rewrite elem_of_seqZ. split; [|lia].
    apply elem_of_list_singleton. done.
Qed.
Definition table_ok (P : eden) (Rs : list rect) (d : list ((nat * nat) * list ((nat * nat) * rect))) : Prop :=
  NoDup d.*1 /\
  (forall ab inner wh R, dlookup d ab = Some inner -> (wh, R) ∈ inner -> R ∈ Rs /\ biclique_size P R = Ok ab /\ wh = rect_lengths R) /\
  (forall R ab, R ∈ Rs -> biclique_size P R = Ok ab -> exists inner, dlookup d ab = Some inner /\ rect_lengths R ∈ inner.*1).
Lemma size_to_length_ok P : exists d, size_to_length P = Ok d /\ table_ok P (all_rects P) d.
Proof.
  unfold size_to_length.
  assert (H : forall Rs pre d, (forall R, R ∈ Rs -> rin P R) -> table_ok P pre d ->
    exists d', foldM (fun d R => let! ab := biclique_size P R in Ok (dstore d ab (dstore (default [] (dlookup d ab)) (rect_lengths R) R))) Rs d = Ok d' /\ table_ok P (pre ++ Rs) d').
  { induction Rs as [|R Rs IH]; intros pre d Hin Hd; cbn [foldM].
    { exists d. by rewrite app_nil_r. }
    destruct (size_ok P R) as (h & v & HR & _); [apply Hin; left|]. rewrite HR. cbn [rbind].
    replace (pre ++ R :: Rs) with ((pre ++ [R]) ++ Rs) by (by rewrite <- app_assoc).
    apply IH; [intros; apply Hin; by right|]. destruct Hd as (D1 & D2 & D3). split; [|split].
    - by apply gstore_nodup.
    - intros ab inner wh R'. rewrite dlookup_dstore. rewrite elem_of_app, elem_of_list_singleton. destruct (decide _) as [<- |].
      + intros [= <-] [[= -> ->]|He]%gstore_elem; [by split; [right|]|]. destruct (dlookup d (h, v)) as [inner|] eqn:E; simpl in He; [|by apply elem_of_nil in He].
        destruct (D2 _ _ _ _ E He) as (? & ? & ?). by split; [left|].
      + intros Hl He. destruct (D2 _ _ _ _ Hl He) as (? & ? & ?). by split; [left|].
    - intros R' ab. rewrite elem_of_app, elem_of_list_singleton, dlookup_dstore. intros HR' Hab. destruct (decide ((h, v) = ab)) as [<- |Hne].
      + eexists. split; [done|]. apply gstore_key. destruct HR' as [HR'| ->]; [|by left]. right. destruct (D3 _ _ HR' Hab) as (inner & -> & ?). done.
      + destruct HR' as [HR'| ->]; [by apply D3|]. congruence. }
  apply (H (all_rects P) [] []); [intros R; apply elem_of_all_rects|]. split; [apply NoDup_nil_2|]. split; [done|]. intros R ab HR. by apply elem_of_nil in HR.
Qed.

(** the shortest among entries *)
Lemma pair_lt_true a b : pair_lt a b = true <-> ~ lex_le b a.
Proof.
  unfold pair_lt, lex_le. rewrite orb_true_iff, andb_true_iff, !Nat.ltb_lt, Nat.eqb_eq. destruct a as [a1 a2], b as [b1 b2]. simpl. lia.
Qed.
Lemma pair_lt_false a b : pair_lt a b = false <-> lex_le b a.
Proof.
  unfold lex_le. destruct (pair_lt a b) eqn:E; [apply pair_lt_true in E; unfold lex_le in E; split; [done|tauto]|].
  split; [intros _|done]. apply not_true_iff_false in E. rewrite pair_lt_true in E. unfold lex_le in E. destruct a as [a1 a2], b as [b1 b2]. simpl in *. lia.
Qed.
Lemma lex_le_refl a : lex_le a a. Proof. unfold lex_le. lia. Qed.
Lemma lex_le_trans a b c : lex_le a b -> lex_le b c -> lex_le a c. Proof. unfold lex_le. lia. Qed.
Lemma lex_le_mono a b a' b' : a <= a' -> b <= b' -> lex_le (sortedpair (a, b)) (sortedpair (a', b')).
Proof. unfold lex_le, sortedpair. simpl. lia. Qed.
Definition ssteps (acc : nat * nat -> bool) (l : list ((nat * nat) * ((nat * nat) * rect))) s := foldl (fun s p => shortest acc p.1 s p.2) s l.
Lemma ssteps_ok acc l s0 : let s := ssteps acc l s0 in
  (s = s0 \/ exists mn e, (mn, e) ∈ l /\ acc (largefirst e.1) = true /\ s = (largefirst e.1, Some (e.2, mn))) /\
  (forall mn e, (mn, e) ∈ l -> acc (largefirst e.1) = true -> lex_le s.1 (largefirst e.1)) /\ lex_le s.1 s0.1.
Proof.
  revert s0. induction l as [|[mn e] l IH]; intros s0; simpl.
  { split; [by left|]. split; [|apply lex_le_refl]. intros mn e H. by apply elem_of_nil in H. }
  destruct (IH (shortest acc mn s0 e)) as (H1 & H2 & H3).
  generalize dependent (ssteps acc l (shortest acc mn s0 e)). intros s H1 H2 H3. unfold shortest in H1, H3.
  destruct (acc (largefirst e.1)) eqn:Ea; simpl in H1, H3.
  - destruct (pair_lt (largefirst e.1) s0.1) eqn:El; simpl in H1, H3.
    + split; [|split].
      * right. destruct H1 as [->|(mn' & e' & Hin & Ha & ->)]; [exists mn, e; split_and!; [left|done|done]|]. exists mn', e'. split_and!; [by right|done|done].
      * intros mn' e' [[= -> ->]|Hin]%elem_of_cons Ha; [done|]. by eapply H2.
      * eapply lex_le_trans; [exact H3|]. apply pair_lt_true in El. unfold lex_le in *. lia.
    + apply pair_lt_false in El. split; [|split; [|done]].
      * destruct H1 as [->|(mn' & e' & Hin & Ha & ->)]; [by left|]. right. exists mn', e'. split_and!; [by right|done|done].
      * intros mn' e' [[= -> ->]|Hin]%elem_of_cons Ha; [by eapply lex_le_trans|]. by eapply H2.
  - split; [|split; [|done]].
    + destruct H1 as [->|(mn' & e' & Hin & Ha & ->)]; [by left|]. right. exists mn', e'. split_and!; [by right|done|done].
    + intros mn' e' [[= -> ->]|Hin]%elem_of_cons Ha; [congruence|]. by eapply H2.
Qed.
Lemma ssteps_nested acc (d : list ((nat * nat) * list ((nat * nat) * rect))) mns s :
  foldl (fun s mn => foldl (shortest acc mn) s (default [] (dlookup d mn))) s mns =
  ssteps acc (mn ← mns; (fun e => (mn, e)) <$> default [] (dlookup d mn)) s.
Proof.
  revert s. induction mns as [|mn mns IH]; intros s; [done|]. simpl. unfold ssteps. rewrite foldl_app. fold (ssteps acc). rewrite IH. f_equal.
  generalize (default [] (dlookup d mn)). intros l. revert s. induction l as [|e l IHl]; intros s; [done|]. simpl. apply IHl.
Qed.
Lemma elem_of_entries (d : list ((nat * nat) * list ((nat * nat) * rect))) mns mn e :
  (mn, e) ∈ (mn ← mns; (fun e => (mn, e)) <$> default [] (dlookup d mn)) <-> mn ∈ mns /\ exists inner, dlookup d mn = Some inner /\ e ∈ inner.
Proof.
  rewrite elem_of_list_bind. split.
  - intros (mn' & (e' & E & He)%elem_of_list_fmap & Hmn). injection E as -> ->. split; [done|]. destruct (dlookup d mn') as [inner|]; [by exists inner|]. by apply elem_of_nil in He.
  - intros (Hmn & inner & E & He). exists mn. rewrite E. split; [|done]. apply elem_of_list_fmap. by exists e.
Qed.
