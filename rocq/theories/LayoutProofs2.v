(** [closest]: each source node gets a candidate set among the nearest. *)
From Coq Require Import QArith Lqa Lia.
From stdpp Require Import base list numbers gmap relations.
From Verif Require Import Base NxModel PyCacheModel LayoutModel SpecNx SpecLayout LayoutProofs1.

Lemma point_eqb_refl p : point_eqb p p = true.
Proof. induction p as [|x p IH]; cbn; [done|]. rewrite IH, andb_true_r. apply Qeq_bool_iff. reflexivity. Qed.
Lemma point_eqb_sqdist u p q : point_eqb p q = true -> (sqdist u p == sqdist u q)%Q.
Proof.
  unfold sqdist. revert u q. induction p as [|x p IH]; intros [|w u] [|y q]; cbn; try done; try reflexivity.
  intros [H1%Qeq_bool_iff H2]%andb_true_iff. rewrite (IH u q H2), H1. reflexivity.
Qed.

Section run.
Context (ord : gset (gset nat) -> list (gset nat)) (Hord : forall s, ord s ≡ₚ elements s).
Context (kd : list (list Q) -> list Q -> nat -> list (Q * nat)) (Hkd : forall pts u k, 1 <= k <= length pts -> nearest pts u k (kd pts u k)).
Context (ovf : nat -> nat -> bool) (Hovf : forall i, ovf i 1 = false).
Context (T : nxgraph nat) (d : nat) (tl : list (nat * list Q)) (HL : layout_of T d tl).

Lemma subset_lookup_ok (sl : list (gset nat * list Q)) p : p ∈ sl.*2 ->
  exists X q, subset_lookup sl p = Some X /\ (X, q) ∈ sl /\ point_eqb q p = true.
Proof.
  intros H. apply elem_of_list_fmap in H as ([Y p'] & -> & HY). unfold subset_lookup.
  destruct (last (filter (fun e => point_eqb e.2 (Y, p').2 = true) sl)) as [[X q]|] eqn:E.
  - exists X, q. split; [done|]. apply last_Some in E as [l' E].
    assert (Hin : (X, q) ∈ filter (fun e => point_eqb e.2 (Y, p').2 = true) sl) by (rewrite E; apply elem_of_app; right; left).
    apply elem_of_list_filter in Hin as [??]. done.
  - apply last_None in E. assert (Hin : (Y, p') ∈ filter (fun e => point_eqb e.2 (Y, p').2 = true) sl).
    { apply elem_of_list_filter. split; [apply point_eqb_refl|done]. }
    rewrite E in Hin. by apply elem_of_nil in Hin.
Qed.
(** the set that is chosen lies at one of the points that the tree gave *)
Definition chosen (sl : list (gset nat * list Q)) (near : list (Q * nat)) (X : gset nat) : Prop :=
  exists i p q, i ∈ near.*2 /\ sl.*2 !! i = Some p /\ (X, q) ∈ sl /\ point_eqb q p = true.
Lemma subset_costs_ok base sl counter near : near <> [] -> (forall i, i ∈ near.*2 -> i < length sl.*2) ->
  exists subsets, subset_costs base sl sl.*2 counter near = Ok subsets /\ subsets <> [] /\ forall X c, (X, c) ∈ subsets -> chosen sl near X.
Proof.
  intros Hne Hlt. unfold subset_costs.
  destruct (foldM_inv (fun subsets (di : Q * nat) =>
      let! p := py_get (sl.*2 !! di.2) in
      let! X := py_get (subset_lookup sl p) in
      Ok (dstore subsets X (cost base counter di.1 X)))
    (fun dn subsets => (dn <> [] -> subsets <> []) /\ forall X c, (X, c) ∈ subsets -> chosen sl near X) near []) as (s & -> & H1 & H2).
  { split; [done|]. by intros X c ?%elem_of_nil. }
  { intros dn [dd i] rest s Hs [I1 I2].
    assert (Hi : i ∈ near.*2). { rewrite Hs, fmap_app. apply elem_of_app. right. left. }
    destruct (lookup_lt_is_Some_2 sl.*2 i (Hlt i Hi)) as [p Hp]. cbn [snd fst]. rewrite Hp. cbn [py_get rbind].
    destruct (subset_lookup_ok sl p) as (X & q & -> & Hin & Heq); [by eapply elem_of_list_lookup_2|]. cbn [py_get rbind]. eexists. split; [reflexivity|].
    split.
    - intros _ H0. assert (Hk : X ∈ (dstore s X (cost base counter dd X)).*1) by (apply gstore_key; by left). rewrite H0 in Hk. by apply elem_of_nil in Hk.
    - intros Y c [[= -> ->]|HY]%gstore_elem; [|by eapply I2]. by exists i, p, q. }
  exists s. split; [done|]. split; [by apply H1|done].
Qed.
Lemma cheapest_ok subsets : subsets <> [] -> exists X c, cheapest subsets = Ok X /\ (X, c) ∈ subsets.
Proof.
  destruct subsets as [|e l]; [done|]. intros _. unfold cheapest.
  assert (H : forall l b, foldl (fun b e : gset nat * Q => if Qle_bool b.2 e.2 then b else e) b l ∈ b :: l).
  { clear. induction l as [|e l IH]; intros b; cbn; [left|]. destruct (Qle_bool _ _).
    - specialize (IH b). apply elem_of_cons in IH as [->|IH]; [left|]. by do 2 right.
    - right. apply IH. }
  specialize (H l e). destruct (foldl _ _ _) as [X c] eqn:E. exists X, c. split; [done|exact H].
Qed.
Lemma minimize_ok b i sl counter near : near <> [] -> (forall i, i ∈ near.*2 -> i < length sl.*2) ->
  exists X c', minimize_overlap ovf (S b) i sl sl.*2 counter near = Ok (X, c') /\ chosen sl near X.
Proof using Hovf.
  intros Hne Hlt. induction b as [|b IH].
  - cbn [minimize_overlap]. rewrite Hovf. destruct (subset_costs_ok 1 sl counter near Hne Hlt) as (s & -> & Hs & HC). cbn [rbind].
    destruct (cheapest_ok s Hs) as (X & c & -> & HX). cbn [rbind]. exists X, (count_up counter X). split; [done|by eapply HC].
  - remember (S b) as b'. cbn [minimize_overlap]. destruct (ovf i (S b')); [done|].
    destruct (subset_costs_ok (S b') sl counter near Hne Hlt) as (s & -> & Hs & HC). cbn [rbind].
    destruct (cheapest_ok s Hs) as (X & c & -> & HX). cbn [rbind]. exists X, (count_up counter X). split; [done|by eapply HC].
Qed.

Lemma chosen_near lo hi k sl u X : candidates T d tl lo hi sl -> 1 <= k -> k <= length sl.*2 -> chosen sl (kd sl.*2 u k) X -> near_choice T d tl lo hi k u X.
Proof using Hkd.
  intros (C1 & C2 & C3) Hk Hlen (i & p & q & Hi & Hp & Hin & Heq). destruct (C2 X q Hin) as (X1 & X2 & X3). split; [done|]. split; [done|]. exists q. split; [done|].
  destruct (Hkd sl.*2 u k ltac:(lia)) as (K1 & K2 & K3 & K4). intros Ys HN HY.
  (* the index of each of the nearer sets is among the indices of the tree and is not [i] *)
  assert (Hj : forall Y, Y ∈ Ys -> exists j, j ∈ (kd sl.*2 u k).*2 /\ j <> i /\ sl.*1 !! j = Some Y).
  { intros Y HYs. destruct (HY Y HYs) as (Y1 & Y2 & Y3). destruct (elem_of_list_lookup_1 _ _ (C3 Y Y1 Y2)) as [j Hj]. exists j.
    assert (exists q', sl !! j = Some (Y, q')) as [q' Hjq].
    { rewrite list_lookup_fmap in Hj. apply fmap_Some in Hj as ([Y' q'] & E & ->). by exists q'. }
    assert (Hj2 : sl.*2 !! j = Some q') by (by rewrite list_lookup_fmap, Hjq).
    destruct (C2 Y q') as (_ & _ & Hc); [by eapply elem_of_list_lookup_2|]. specialize (Y3 q' Hc). unfold nearer in Y3.
    pose proof (point_eqb_sqdist u q p Heq) as E. split; [|split; [|done]].
    - destruct (decide (j ∈ (kd sl.*2 u k).*2)) as [?|Hn]; [done|]. pose proof (K4 i j p q' Hi Hn Hp Hj2) as Hle. lra.
    - intros ->. rewrite Hp in Hj2. injection Hj2 as ->. lra. }
  assert (Hc : exists js, length js = length Ys /\ NoDup js /\ forall j, j ∈ js -> j ∈ (kd sl.*2 u k).*2 /\ j <> i /\ exists Y, Y ∈ Ys /\ sl.*1 !! j = Some Y).
  { clear - Hj HN. induction Ys as [|Y Ys IH]; [exists []; split; [done|split; [constructor|by intros j ?%elem_of_nil]]|].
    apply NoDup_cons in HN as [HN1 HN2]. destruct IH as (js & L & N & E); [done|intros; apply Hj; by right|].
    destruct (Hj Y ltac:(left)) as (j & J1 & J2 & J3). exists (j :: js). split; [cbn; by rewrite L|]. split.
    - apply NoDup_cons. split; [|done]. intros H. destruct (E j H) as (_ & _ & Y' & HY' & HE). rewrite J3 in HE. injection HE as ->. done.
    - intros j' [->|Hj']%elem_of_cons; [split; [done|]; split; [done|]; exists Y; split; [left|done]|].
      destruct (E j' Hj') as (? & ? & Y' & ? & ?). split; [done|]. split; [done|]. exists Y'. split; [by right|done]. }
  destruct Hc as (js & <- & HNj & Hjs).
  assert (Hsub : i :: js ⊆+ (kd sl.*2 u k).*2).
  { apply NoDup_submseteq; [apply NoDup_cons; split; [|done]; intros H; by destruct (Hjs i H) as (_ & ? & _)|].
    intros j [->|H]%elem_of_cons; [done|]. by destruct (Hjs j H). }
  apply submseteq_length in Hsub. rewrite fmap_length, K1 in Hsub. cbn in Hsub. lia.
Qed.


(** ** The choice among the neighbours *)
Lemma point_eqb_same p q : point_eqb p q = true <-> same_point p q.
Proof.
  unfold same_point. revert q. induction p as [|x p IH]; intros [|y q]; cbn; split; try done; try (by inversion 1).
  - intros [H1%Qeq_bool_iff H2]%andb_true_iff. constructor; [done|by apply IH].
  - intros H. inversion H as [|? ? ? ? H1 H2]; subst. apply andb_true_iff. split; [by apply Qeq_bool_iff|by apply IH].
Qed.
Lemma same_trans p q r : same_point p q -> same_point p r -> same_point q r.
Proof.
  unfold same_point. intros H. revert r. induction H as [|x y p q Hxy H IH]; intros r Hr; inversion Hr; subst; [constructor|].
  constructor; [by rewrite <- Hxy|by apply IH].
Qed.
Lemma gstore_lookup {K B} `{!EqDecision K} (dd : list (K * B)) k b : (k, b) ∈ dstore dd k b.
Proof. induction dd as [|[k' b'] dd IH]; cbn; [left|]. destruct (decide (k' = k)); [left|by right]. Qed.
Lemma gstore_other {K B} `{!EqDecision K} (dd : list (K * B)) k b k' b' : k' <> k -> (k', b') ∈ dd -> (k', b') ∈ dstore dd k b.
Proof.
  intros Hne. induction dd as [|[k2 b2] dd IH]; cbn; [by intros ?%elem_of_nil|]. intros [[= <- <-]|H]%elem_of_cons.
  - rewrite decide_False by done. left.
  - destruct (decide _); [by right|]. right. by apply IH.
Qed.
Lemma subset_costs_all base sl counter near subsets : subset_costs base sl sl.*2 counter near = Ok subsets ->
  (forall X c, (X, c) ∈ subsets -> exists dist i p q, (dist, i) ∈ near /\ sl.*2 !! i = Some p /\ (X, q) ∈ sl /\ point_eqb q p = true /\
     subset_lookup sl p = Some X /\ c = cost base counter dist X) /\
  (forall dist i p, (dist, i) ∈ near -> sl.*2 !! i = Some p -> exists X q c, subset_lookup sl p = Some X /\ (X, q) ∈ sl /\ point_eqb q p = true /\ (X, c) ∈ subsets).
Proof.
  intros H. unfold subset_costs in H.
  apply (foldM_inv_ok _ (fun dn subsets =>
    (forall X c, (X, c) ∈ subsets -> exists dist i p q, (dist, i) ∈ near /\ sl.*2 !! i = Some p /\ (X, q) ∈ sl /\ point_eqb q p = true /\
     subset_lookup sl p = Some X /\ c = cost base counter dist X) /\
    (forall dist i p, (dist, i) ∈ dn -> sl.*2 !! i = Some p -> exists X q c, subset_lookup sl p = Some X /\ (X, q) ∈ sl /\ point_eqb q p = true /\ (X, c) ∈ subsets))) in H; [done| |].
  { split; [by intros X c ?%elem_of_nil|by intros ? ? ? ?%elem_of_nil]. }
  clear H subsets. intros dn [dist i] rest s s' Hs [I1 I2] H. cbn [fst snd] in H. destruct (sl.*2 !! i) as [p|] eqn:Hp; [|done]. cbn [py_get rbind] in H.
  destruct (subset_lookup_ok sl p) as (X & q & HX & Hin & Heq); [by eapply elem_of_list_lookup_2|]. rewrite HX in H. cbn [py_get rbind] in H. injection H as <-.
  assert (Hi : (dist, i) ∈ near). { rewrite Hs. apply elem_of_app. right. left. }
  split.
  - intros Y c [[= -> ->]|HY]%gstore_elem; [|by eapply I1]. by exists dist, i, p, q.
  - intros dist' j p' [Hj|[= -> ->]%elem_of_list_singleton]%elem_of_app Hp'.
    + destruct (I2 dist' j p' Hj Hp') as (Y & q' & c & Y1 & Y2 & Y3 & Y4). destruct (decide (Y = X)) as [->|Hne].
      * exists X, q'. eexists. split; [done|]. split; [done|]. split; [done|]. apply gstore_lookup.
      * exists Y, q', c. split; [done|]. split; [done|]. split; [done|]. by apply gstore_other.
    + rewrite Hp in Hp'. injection Hp' as <-. exists X, q. eexists. split; [done|]. split; [done|]. split; [done|]. apply gstore_lookup.
Qed.
Lemma cheapest_least subsets X : cheapest subsets = Ok X -> exists c, (X, c) ∈ subsets /\ forall Y c', (Y, c') ∈ subsets -> (c <= c')%Q.
Proof.
  destruct subsets as [|e l]; [done|]. unfold cheapest. intros [= <-].
  assert (H : forall l b, let r := foldl (fun b e : gset nat * Q => if Qle_bool b.2 e.2 then b else e) b l in r ∈ b :: l /\ forall e, e ∈ b :: l -> (r.2 <= e.2)%Q).
  { clear. induction l as [|e l IH]; intros b; cbn.
    - split; [left|]. intros e ->%elem_of_list_singleton. apply Qle_refl.
    - destruct (Qle_bool b.2 e.2) eqn:E.
      + destruct (IH b) as [I1 I2]. cbn in I1, I2. split; [apply elem_of_cons in I1 as [->|?]; [left|by do 2 right]|].
        intros f [->|[->|Hf]%elem_of_cons]%elem_of_cons; [apply I2; left| |apply I2; by right].
        eapply Qle_trans; [apply I2; left|by apply Qle_bool_iff].
      + destruct (IH e) as [I1 I2]. cbn in I1, I2. split; [by right|].
        intros f [->|Hf]%elem_of_cons; [|by apply I2]. eapply Qle_trans; [apply I2; left|]. apply Qlt_le_weak.
        apply Qnot_le_lt. intros Hle. apply Qle_bool_iff in Hle. congruence. }
  destruct (H l e) as [H1 H2]. cbn in H1, H2. destruct (foldl _ _ _) as [X c] eqn:E. cbn. exists c. split; [done|]. intros Y c' HY. apply (H2 _ HY).
Qed.
Lemma overlap_count_up counter X v : overlap (count_up counter X) v = overlap counter v + (if decide (v ∈ X) then 1 else 0).
Proof.
  unfold count_up. rewrite (decide_ext _ (v ∈ elements X)) by (symmetry; apply elem_of_elements).
  pose proof (NoDup_elements X) as HN. revert counter HN. generalize (elements X) as l. induction l as [|w l IH]; intros c HN; cbn [foldl].
  - rewrite decide_False by (by intros ?%elem_of_nil). lia.
  - apply NoDup_cons in HN as [H1 H2]. rewrite IH by done. unfold overlap at 1. destruct (decide (v = w)) as [->|Hne].
    + rewrite lookup_insert. cbn. rewrite decide_False by done. rewrite decide_True by left. lia.
    + rewrite lookup_insert_ne by done. fold (overlap c v). destruct (decide (v ∈ l)) as [Hl|Hl]; [rewrite decide_True by (by right)|rewrite decide_False]; [done|done|].
      intros [?|?]%elem_of_cons; done.
Qed.
Lemma minimize_least i sl counter near X c' prev : NoDup sl.*1 -> ovf i 10 = false -> (forall v, overlap counter v = uses prev v) ->
  minimize_overlap ovf 10 i sl sl.*2 counter near = Ok (X, c') -> (forall v, overlap c' v = uses (prev ++ [X]) v) /\ least_penalized prev sl near X.
Proof.
  intros HN Ho Hc H. cbn [minimize_overlap] in H. rewrite Ho in H. destruct (subset_costs 10 sl sl.*2 counter near) as [s|] eqn:Es; [|done]. cbn [rbind] in H.
  destruct (cheapest s) as [X'|] eqn:Ech; [|done]. cbn [rbind] in H. injection H as -> <-. split.
  - intros v. rewrite overlap_count_up, Hc. unfold uses. rewrite filter_app, app_length. f_equal. destruct (decide (v ∈ X)) as [Hv|Hv].
    + rewrite filter_cons_True by done. done.
    + rewrite filter_cons_False by done. done.
  - destruct (cheapest_least s X Ech) as (c & HX & Hleast). destruct (subset_costs_all 10 sl counter near s Es) as [A1 A2].
    assert (Hp : forall dist Y, cost 10 counter dist Y = penalized 10 prev dist Y).
    { intros dist Y. unfold cost, penalized. do 4 f_equal. apply list_fmap_ext. intros _ v _. by rewrite Hc. }
    destruct (A1 X c HX) as (dist & j & p & q & J1 & J2 & J3 & J4 & _ & ->). exists dist, j, p, q. split; [done|]. split; [done|]. split; [done|].
    split; [by apply point_eqb_same|]. intros dist' j' p' Hj' Hp'. destruct (A2 dist' j' p' Hj' Hp') as (Y & q' & cY & Y1 & Y2 & Y3 & Y4).
    destruct (A1 Y cY Y4) as (dist'' & j'' & p'' & q'' & K1 & K2 & K3 & K4 & K5 & ->). exists Y, q', dist'', j'', p''.
    split; [done|]. split; [by apply point_eqb_same|]. split; [done|]. split; [done|]. split; [|].
    + apply point_eqb_same. assert (q'' = q') as <-; [|done]. pose proof (glookup_Some _ _ _ HN Y2) as E1.
      pose proof (glookup_Some _ _ _ HN K3) as E2. congruence.
    + rewrite <- !Hp. by eapply Hleast.
Qed.
Lemma closest_ok (SL : list (nat * list Q)) lo hi k : 1 <= k ->
  (exists Xs, NoDup Xs /\ length Xs = k /\ forall X, X ∈ Xs -> connected_set T X /\ lo <= size X <= hi) ->
  exists pl, closest ord kd ovf SL T tl lo hi k = Ok pl /\ pl.*1 = SL.*1 /\
    (forall i u x X, SL !! i = Some (u, x) -> pl !! i = Some (u, X) -> near_choice T d tl lo hi k x X) /\
    exists cands, candidates T d tl lo hi cands /\ ((forall i, ovf i 10 = false) -> forall i u x X, SL !! i = Some (u, x) -> pl !! i = Some (u, X) ->
      least_penalized (take i pl.*2) cands (kd cands.*2 x k) X).
Proof using Hord Hkd Hovf HL.
  intros Hk (Xs & HN & HXl & HXs). destruct (subset_layout_ok ord Hord T d tl HL lo hi) as (sl & Hsl & HC). unfold closest. rewrite Hsl. cbn [rbind].
  assert (Hlen : k <= length sl.*2).
  { rewrite fmap_length, <- (fmap_length fst), <- HXl. apply submseteq_length, NoDup_submseteq; [done|]. intros X HX. destruct (HXs X HX). by apply HC. }
  destruct (foldM_inv (fun s (e : nat * (nat * list Q)) =>
        let '(counter, placement) := s in
        let '(i, (u, u_pos)) := e in
        if length sl.*2 =? 0 then Err BadInit else
        let! (X, counter') := minimize_overlap ovf 10 i sl sl.*2 counter (kd sl.*2 u_pos k) in
        Ok (counter', placement ++ [(u, X)]))
    (fun dn (s : gmap nat nat * list (nat * gset nat)) => s.2.*1 = (dn.*2).*1 /\
      (forall i u x X, (dn.*2) !! i = Some (u, x) -> s.2 !! i = Some (u, X) -> near_choice T d tl lo hi k x X) /\
      ((forall i, ovf i 10 = false) -> (forall v, overlap s.1 v = uses s.2.*2 v) /\ forall i u x X, (dn.*2) !! i = Some (u, x) -> s.2 !! i = Some (u, X) ->
        least_penalized (take i s.2.*2) sl (kd sl.*2 x k) X)) (imap pair SL) (∅, [])) as ([counter pl] & -> & H1 & H2 & H3).
  { done. }
  { intros dn [i [u x]] rest [counter pl] Hs (I1 & I2 & I3). cbn [fst snd] in *. replace (length sl.*2 =? 0) with false by (symmetry; apply Nat.eqb_neq; lia).
    destruct (Hkd sl.*2 x k ltac:(lia)) as (K1 & K2 & K3 & K4).
    destruct (minimize_ok 9 i sl counter (kd sl.*2 x k)) as (X & c' & Hmin & HX); [intros E; rewrite E in K1; cbn in K1; lia|done|]. rewrite Hmin. cbn [rbind].
    eexists. split; [reflexivity|]. cbn [fst snd]. split; [by rewrite !fmap_app, I1|].
    assert (El : length pl = length dn.*2). { rewrite <- (fmap_length fst pl), I1, !fmap_length. done. }
    assert (Hcase : forall j v y Y, (dn ++ [(i, (u, x))]).*2 !! j = Some (v, y) -> (pl ++ [(u, X)]) !! j = Some (v, Y) ->
      (j < length pl /\ dn.*2 !! j = Some (v, y) /\ pl !! j = Some (v, Y)) \/ (j = length pl /\ v = u /\ y = x /\ Y = X)).
    { intros j v y Y Hj HY. rewrite fmap_app in Hj. destruct (decide (j < length dn.*2)) as [Hlt|Hge].
      - left. rewrite lookup_app_l in Hj by done. rewrite lookup_app_l in HY by lia. split; [lia|done].
      - right. rewrite lookup_app_r in Hj by lia. rewrite lookup_app_r in HY by lia. rewrite El in HY. destruct (j - length dn.*2) as [|n] eqn:En; [|by destruct n].
        cbn in Hj, HY. injection Hj as -> ->. injection HY as ->. split; [lia|done]. }
    split.
    - intros j v y Y Hj HY. destruct (Hcase j v y Y Hj HY) as [(? & ? & ?)|(-> & -> & -> & ->)]; [by eapply I2|by eapply chosen_near].
    - intros Ho. destruct (I3 Ho) as [I4 I5]. destruct (minimize_least i sl counter (kd sl.*2 x k) X c' pl.*2) as [M1 M2]; [apply HC|apply Ho|done|done|].
      split; [by rewrite fmap_app|]. intros j v y Y Hj HY. rewrite fmap_app. destruct (Hcase j v y Y Hj HY) as [(Hlt & ? & ?)|(-> & -> & -> & ->)].
      + rewrite take_app_le by (rewrite fmap_length; lia). by eapply I5.
      + rewrite take_app_alt by (by rewrite fmap_length). done. }
  cbn [rbind snd]. eexists. split; [reflexivity|]. cbn [snd fst] in H1, H2, H3.
  assert (E : (imap pair SL).*2 = SL). { rewrite fmap_imap. rewrite (imap_ext _ (fun _ (x : nat * list Q) => x)) by done. clear. induction SL as [|a l IH]; [done|]. cbn. f_equal. exact IH. }
  rewrite E in H1, H2, H3. split; [done|]. split; [done|]. exists sl. split; [done|]. intros Ho. apply (H3 Ho).
Qed.
End run.
