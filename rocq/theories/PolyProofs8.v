(** The biclique methods of [processor]. *)
From stdpp Require Import base list numbers gmap.
From Verif Require Import Base NxModel PyCacheModel PolyModel SpecBus SpecPoly PolyProofs1 PolyProofs2 PolyProofs3 PolyProofs4 PolyProofs5 PolyProofs7 DiagProofs.

Definition acc_of (P : eden) (over : nat) (imb mcl : option nat) := acceptable (default over mcl) (default over imb).
Lemma rin_lengths P R : rin P R -> 1 <= (rect_lengths R).1 <= ed_M P /\ 1 <= (rect_lengths R).2 <= ed_N P.
Proof. destruct R as [[[x0 x1] y0] y1]. unfold rin. simpl. lia. Qed.
Lemma acc_allowed P over imb mcl R : rin P R -> ed_M P + ed_N P <= over ->
  acc_of P over imb mcl (rect_lengths R) = true <-> allowed imb mcl (rect_lengths R).1 (rect_lengths R).2.
Proof.
  intros H%rin_lengths Ho. unfold acc_of, acceptable, allowed. rewrite !andb_true_iff, !Nat.leb_le.
  destruct (rect_lengths R) as [la lb]. simpl in *. split.
  - intros [[H1 H2] H3]. split; [intros l ->|intros d ->]; simpl in *; lia.
  - intros [H1 H2]. destruct mcl as [l|], imb as [d|]; simpl; try specialize (H1 _ eq_refl); try specialize (H2 _ eq_refl); lia.
Qed.
Lemma acc_largefirst P over imb mcl ab : acc_of P over imb mcl (largefirst ab) = acc_of P over imb mcl ab.
Proof.
  unfold acc_of, acceptable, largefirst. destruct ab as [a b]. cbn [fst snd]. destruct (Nat.leb_spec a b).
  - rewrite (Nat.max_r a b), (Nat.min_l a b) by lia. f_equal; [apply andb_comm|]. f_equal. lia.
  - by rewrite (Nat.max_l a b), (Nat.min_r a b) by lia.
Qed.
Lemma foldl_best (key : nat * nat -> nat * nat) fs : forall f, let b := foldl (fun b e => if pair_lt (key b) (key e) then e else b) f fs in
  b ∈ f :: fs /\ forall e, e ∈ f :: fs -> lex_le (key e) (key b).
Proof.
  induction fs as [|e fs IH]; intros f; cbn [foldl].
  { split; [left|]. intros e ->%elem_of_list_singleton. apply lex_le_refl. }
  destruct (IH (if pair_lt (key f) (key e) then e else f)) as [H1 H2]. set (b := foldl _ _ fs) in *. split.
  - destruct (pair_lt _ _); apply elem_of_cons in H1 as [->|H1]; [right; left|by do 2 right|left|by do 2 right].
  - intros x Hx. destruct (pair_lt (key f) (key e)) eqn:E.
    + apply elem_of_cons in Hx as [->|Hx]; [|by apply H2]. eapply lex_le_trans; [|apply H2; left]. apply pair_lt_true in E. unfold lex_le in *. lia.
    + apply elem_of_cons in Hx as [->|Hx]; [apply H2; left|]. apply elem_of_cons in Hx as [->|Hx]; [|apply H2; by right].
      eapply lex_le_trans; [|apply H2; left]. by apply pair_lt_false.
Qed.

Section order.
  Context (ord : list (nat * nat) -> list (nat * nat)) (Hord : forall l, ord l ≡ₚ l).
  Lemma elem_of_ord l x : x ∈ ord l <-> x ∈ l.
  Proof using Hord. by rewrite (Hord l). Qed.
  Definition lb_post (P : eden) (imb mcl : option nat) (r : (nat * nat) * (list (list cq) * list (list cq))) : Prop :=
    exists R sz, rin P R /\ allowed imb mcl (rect_lengths R).1 (rect_lengths R).2 /\ r.2 = biclique P R /\ biclique_size P R = Ok sz /\ r.1 = sortedpair sz /\
      forall R' sz', rin P R' -> allowed imb mcl (rect_lengths R').1 (rect_lengths R').2 -> biclique_size P R' = Ok sz' -> lex_le (sortedpair sz') r.1.
  Lemma feasible_in P d acc (Q : nat * nat -> bool) mn : table_ok P (all_rects P) d ->
    mn ∈ ord ((filter (fun e : (nat * nat) * list ((nat * nat) * rect) => Q e.1 && existsb acc e.2.*1 = true) d).*1) <->
    Q mn = true /\ exists R, rin P R /\ acc (rect_lengths R) = true /\ biclique_size P R = Ok mn.
  Proof using Hord.
    intros (D1 & D2 & D3). rewrite elem_of_ord, elem_of_list_fmap. split.
    - intros ([mn' inner] & -> & [Hf He]%elem_of_list_filter). apply andb_true_iff in Hf as [HQ Hex]. split; [done|]. simpl in Hex.
      apply existsb_exists in Hex as (wh & Hwh & Ha). apply elem_of_list_In in Hwh. apply elem_of_list_fmap in Hwh as ([wh' R] & -> & HR).
      apply (dlookup_Some _ _ _ D1) in He. destruct (D2 _ _ _ _ He HR) as (H1 & H2 & ->). exists R. split; [by apply elem_of_all_rects|done].
    - intros [HQ (R & HR & Ha & Hs)]. apply elem_of_all_rects in HR. destruct (D3 _ _ HR Hs) as (inner & Hl & Hwh).
      exists (mn, inner). split; [done|]. apply elem_of_list_filter. split; [|by apply dlookup_Some]. apply andb_true_iff. split; [done|].
      apply existsb_exists. exists (rect_lengths R). split; [by apply elem_of_list_In|done].
  Qed.
  Lemma entry_of P d mn R : table_ok P (all_rects P) d -> rin P R -> biclique_size P R = Ok mn ->
    exists inner R', dlookup d mn = Some inner /\ (rect_lengths R, R') ∈ inner.
  Proof using.
    intros (D1 & D2 & D3) HR Hs. apply elem_of_all_rects in HR. destruct (D3 _ _ HR Hs) as (inner & Hl & Hwh).
    apply elem_of_list_fmap in Hwh as ([wh R'] & E & HR'). simpl in E. subst. by exists inner, R'.
  Qed.
  (** the loop for the shortest chains *)
  Lemma shortest_loop P d over imb mcl mns : table_ok P (all_rects P) d -> ed_M P + ed_N P <= over -> 0 < ed_M P -> 0 < ed_N P ->
    let acc := acc_of P over imb mcl in
    let s := foldl (fun s mn => foldl (shortest acc mn) s (default [] (dlookup d mn))) ((over, over), None) mns in
    match s.2 with
    | None => forall mn R, mn ∈ mns -> rin P R -> acc (rect_lengths R) = true -> biclique_size P R <> Ok mn
    | Some (R, mn) => mn ∈ mns /\ rin P R /\ acc (rect_lengths R) = true /\ biclique_size P R = Ok mn /\
        forall mn' R', mn' ∈ mns -> rin P R' -> acc (rect_lengths R') = true -> biclique_size P R' = Ok mn' ->
          lex_le (largefirst (rect_lengths R)) (largefirst (rect_lengths R'))
    end.
  Proof using.
    intros Hd Ho HM HN acc s. subst s. rewrite ssteps_nested. set (l := mn ← mns; _).
    destruct (ssteps_ok acc l ((over, over), None)) as (H1 & H2 & H3). set (s := ssteps acc l _) in *.
    assert (Hall : forall mn R, mn ∈ mns -> rin P R -> acc (rect_lengths R) = true -> biclique_size P R = Ok mn -> lex_le s.1 (largefirst (rect_lengths R))).
    { intros mn R Hmn HR Ha Hs. destruct (entry_of P d mn R Hd HR Hs) as (inner & R' & Hl & Hin).
      apply (H2 mn (rect_lengths R, R')); [apply elem_of_entries; split; [done|by exists inner]|]. simpl. unfold acc. by rewrite acc_largefirst. }
    destruct H1 as [->|(mn & e & Hin & Ha & Es)].
    - simpl. intros mn R Hmn HR Hacc Hs. specialize (Hall mn R Hmn HR Hacc Hs). apply rin_lengths in HR. unfold lex_le, largefirst in Hall. simpl in Hall. lia.
    - rewrite Es. simpl. apply elem_of_entries in Hin as [Hmn (inner & Hl & He)]. destruct e as [wh R]. simpl in *.
      destruct Hd as (D1 & D2 & D3). destruct (D2 _ _ _ _ Hl He) as (HR%elem_of_all_rects & Hs & ->).
      unfold acc in Ha. rewrite acc_largefirst in Ha. split_and!; try done.
      intros mn' R' Hmn' HR' Ha' Hs'. specialize (Hall mn' R' Hmn' HR' Ha' Hs'). by rewrite Es in Hall.
  Qed.
  Lemma largest_biclique_ok P imb mcl : 0 < ed_M P -> 0 < ed_N P -> mcl <> Some 0 ->
    exists r, largest_native_biclique ord P imb mcl = Ok r /\ lb_post P imb mcl r.
  Proof using Hord.
    intros HM HN Hmcl. unfold largest_native_biclique. destruct (size_to_length_ok P) as (d & -> & Hd). cbn [rbind].
    set (over := ed_M P + ed_N P). change (acceptable (default over mcl) (default over imb)) with (acc_of P over imb mcl).
    set (acc := acc_of P over imb mcl). set (feas := ord _).
    assert (Hfeas : forall mn, mn ∈ feas <-> exists R, rin P R /\ acc (rect_lengths R) = true /\ biclique_size P R = Ok mn).
    { intros mn. pose proof (feasible_in P d acc (fun _ => true) mn Hd) as H. simpl in H. etrans; [exact H|]. tauto. }
    assert (H11 : rin P (0, 0, 0, 0)%Z) by (unfold rin; lia).
    destruct (size_ok P _ H11) as (h & v & Hhv & _).
    assert (Hne : (h, v) ∈ feas).
    { apply Hfeas. exists (0, 0, 0, 0)%Z. split; [done|]. split; [|done]. apply acc_allowed; [done|done|]. split; simpl; [intros l ->|intros; lia]. destruct l; [done|lia]. }
    destruct feas as [|f fs] eqn:Ef; [by apply elem_of_nil in Hne|].
    destruct (foldl_best sortedpair fs f) as [B1 B2]. set (b := foldl _ f fs) in *. clearbody b. destruct b as [m n].
    set (mns := ord _).
    assert (Hmns : forall mn, mn ∈ mns -> mn ∈ f :: fs /\ sortedpair mn = sortedpair (m, n)).
    { intros mn. unfold mns. rewrite elem_of_ord, elem_of_list_filter. intros [Hf Hm]. split; [done|]. destruct (m =? n).
      - apply elem_of_list_singleton in Hm as ->. done.
      - apply elem_of_cons in Hm as [->|Hm]; [done|]. apply elem_of_list_singleton in Hm as ->. unfold sortedpair. simpl. f_equal; lia. }
    assert (Hmn : (m, n) ∈ mns).
    { unfold mns. rewrite elem_of_ord, elem_of_list_filter. split; [done|]. destruct (m =? n); left. }
    pose proof (shortest_loop P d over imb mcl mns Hd ltac:(done) HM HN) as Hs. cbv zeta in Hs. fold acc in Hs. set (s := foldl _ _ mns) in *. clearbody s.
    destruct s.2 as [[R mn]|].
    - destruct Hs as (S1 & S2 & S3 & S4 & _). rewrite S4. cbn [rbind]. eexists. split; [done|]. exists R, mn. split_and!; try done.
      + apply (acc_allowed P over) in S3; done.
      + simpl. intros R' sz' HR' Ha' Hs'. destruct (Hmns _ S1) as [_ ->]. apply B2, Hfeas. exists R'. split; [done|]. split; [|done]. by apply (acc_allowed P over).
    - exfalso. apply Hfeas in B1 as (R & ? & ? & ?). eapply Hs; eauto.
  Qed.
  Lemma largest_biclique_raises P imb : largest_native_biclique ord P imb (Some 0) = Err BadInit.
  Proof using Hord.
    unfold largest_native_biclique. destruct (size_to_length_ok P) as (d & -> & Hd). cbn [rbind].
    set (over := ed_M P + ed_N P). change (acceptable (default over (Some 0)) (default over imb)) with (acc_of P over imb (Some 0)). set (feas := ord _).
    destruct feas as [|f fs] eqn:Ef; [done|]. exfalso. assert (Hf : f ∈ feas) by (rewrite Ef; left).
    apply (feasible_in P d (acc_of P over imb (Some 0)) (fun _ => true) f Hd) in Hf as [_ (R & HR & Ha & _)].
    apply acc_allowed in Ha; [|done|done]. apply rin_lengths in HR. destruct Ha as [Ha _]. specialize (Ha 0 eq_refl). lia.
  Qed.

  Definition fit (n m : nat) (sz : nat * nat) : Prop := (m <= sz.1 /\ n <= sz.2) \/ (n <= sz.1 /\ m <= sz.2).
  Definition tb_post (P : eden) (n m : nat) (imb mcl : option nat) (r : option ((nat * nat) * (list (list cq) * list (list cq)))) : Prop :=
    match r with
    | None => forall R' sz', rin P R' -> allowed imb mcl (rect_lengths R').1 (rect_lengths R').2 -> biclique_size P R' = Ok sz' -> ~ fit n m sz'
    | Some (_, (A, B)) => exists R la lb, rin P R /\ allowed imb mcl la lb /\ largefirst (la, lb) = largefirst (rect_lengths R) /\
        length A = n /\ length B = m /\ (cell_ok P -> biclique_ok P la lb A B) /\
        forall R' sz', rin P R' -> allowed imb mcl (rect_lengths R').1 (rect_lengths R').2 -> biclique_size P R' = Ok sz' -> fit n m sz' ->
          lex_le (largefirst (rect_lengths R)) (largefirst (rect_lengths R'))
    end.
  Lemma allowed_sym imb mcl a b : allowed imb mcl a b -> allowed imb mcl b a.
  Proof using. intros [H1 H2]. split; [intros l E; destruct (H1 l E); lia|intros l E; destruct (H2 l E); lia]. Qed.
  Lemma tightest_biclique_ok P n mo imb mcl : 0 < ed_M P -> 0 < ed_N P ->
    exists r, tightest_native_biclique ord P n mo imb mcl = Ok r /\ tb_post P n (default n mo) imb mcl r.
  Proof using Hord.
    intros HM HN. unfold tightest_native_biclique. destruct (size_to_length_ok P) as (d & -> & Hd). cbn [rbind]. set (m := default n mo). clearbody m.
    set (over := ed_M P + ed_N P + 1). change (acceptable (default over mcl) (default over imb)) with (acc_of P over imb mcl).
    assert (Ho : ed_M P + ed_N P <= over) by (unfold over; lia). clearbody over.
    set (acc := acc_of P over imb mcl).
    set (fits := fun t : nat * nat => (m <=? t.1) && (n <=? t.2) || (n <=? t.1) && (m <=? t.2)). set (feas := ord _).
    assert (Hfeas : forall mn, mn ∈ feas <-> fits mn = true /\ exists R, rin P R /\ acc (rect_lengths R) = true /\ biclique_size P R = Ok mn).
    { intros mn. exact (feasible_in P d acc fits mn Hd). }
    assert (Hfit : forall mn, fits mn = true <-> fit n m mn).
    { intros mn. unfold fits, fit. by rewrite orb_true_iff, !andb_true_iff, !Nat.leb_le. }
    pose proof (shortest_loop P d over imb mcl feas Hd Ho HM HN) as Hs. cbv zeta in Hs. fold acc in Hs. set (s := foldl _ _ feas) in *. clearbody s.
    destruct s.2 as [[R [bm bn]]|].
    - destruct Hs as (S1 & S2 & S3 & S4 & S5). rewrite S4. cbn [rbind]. eexists. split; [done|]. apply Hfeas in S1 as [S1 _]. apply Hfit in S1. unfold fit in S1. simpl in S1.
      destruct (size_ok P R S2) as (h & v & E & E1 & E2 & _). rewrite S4 in E. injection E as <- <-.
      apply (acc_allowed P over) in S3; [|done|done].
      assert (Hmin : forall R' sz', rin P R' -> allowed imb mcl (rect_lengths R').1 (rect_lengths R').2 -> biclique_size P R' = Ok sz' -> fit n m sz' ->
          lex_le (largefirst (rect_lengths R)) (largefirst (rect_lengths R'))).
      { intros R' sz' HR' Ha' Hs' Hf'. apply (acc_allowed P over) in Ha'; [|done|done]. apply (S5 sz'); try done. apply Hfeas. split; [by apply Hfit|]. by exists R'. }
      destruct ((m <=? bm) && (n <=? bn)) eqn:Eb.
      + apply andb_true_iff in Eb as [?%Nat.leb_le ?%Nat.leb_le]. exists R, (rect_lengths R).2, (rect_lengths R).1. split_and!; try done.
        * by apply allowed_sym.
        * unfold largefirst. simpl. f_equal; lia.
        * rewrite take_length. lia.
        * rewrite take_length. lia.
        * intros Hc. apply biclique_ok_take, biclique_ok_sym. by apply rect_biclique.
      + assert (n <= bm /\ m <= bn).
        { destruct S1 as [[??]|?]; [|done]. rewrite (proj2 (Nat.leb_le m bm)), (proj2 (Nat.leb_le n bn)) in Eb by done. done. }
        exists R, (rect_lengths R).1, (rect_lengths R).2. split_and!; try done.
        * rewrite take_length. lia.
        * rewrite take_length. lia.
        * intros Hc. apply biclique_ok_take. by apply rect_biclique.
    - eexists. split; [done|]. simpl. intros R' sz' HR' Ha' Hs' Hf'. apply (acc_allowed P over) in Ha'; [|done|done].
      eapply (Hs sz' R'); [|done|done|done]. apply Hfeas. split; [by apply Hfit|]. by exists R'.
  Qed.
End order.
