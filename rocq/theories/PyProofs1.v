(** Reading a graph (PyModel.v): the labels in first-seen order and the graph over their indices. *)
Require Import Lia.
From stdpp Require Import base list numbers.
From Verif Require Import Base GraphModel SpecGraph PyModel SpecPy.
From stdpp Require Import list.
From Verif Require Import GraphModel.

Section rd.
Context {A : Type} `{!EqDecision A}.
Implicit Types (L l : list A) (a b : A).

Lemma lidx_None L a : lidx L a = None <-> a ∉ L.
Proof.
  unfold lidx. rewrite fmap_None. rewrite list_find_None, Forall_forall. split.
  - intros H Hin. by apply (H a Hin).
  - intros H x Hx <-. done.
Qed.
Lemma lidx_Some_1 L a k : lidx L a = Some k -> L !! k = Some a.
Proof. unfold lidx. intros ([k' x] & H & ->)%fmap_Some. apply list_find_Some in H as (H & -> & _). done. Qed.
Lemma lidx_Some L a k : NoDup L -> lidx L a = Some k <-> L !! k = Some a.
Proof.
  intros Hnd. split; [apply lidx_Some_1|]. intros H. destruct (lidx L a) as [k'|] eqn:E.
  - apply lidx_Some_1 in E. f_equal. by eapply NoDup_lookup.
  - apply lidx_None in E. destruct E. by eapply elem_of_list_lookup_2.
Qed.

Lemma lget_spec L a : NoDup L -> exists L' k, lget L a = (L', k) /\ NoDup L' /\ L' !! k = Some a
  /\ L `prefix_of` L' /\ (forall b, b ∈ L' <-> b ∈ L \/ b = a) /\ length L' = Nat.max (length L) (k + 1)
  /\ (a ∈ L -> L' = L) /\ (a ∉ L -> L' = L ++ [a] /\ k = length L).
Proof.
  intros Hnd. unfold lget. destruct (lidx L a) as [k|] eqn:E.
  - apply lidx_Some_1 in E. exists L, k. split; [done|]. split; [done|]. split; [done|]. split; [done|]. split; [|split; [|split]].
    + intros b. split; [auto|]. intros [?| ->]; [done|]. by eapply elem_of_list_lookup_2.
    + apply lookup_lt_Some in E. lia.
    + done.
    + intros H. destruct H. by eapply elem_of_list_lookup_2.
  - apply lidx_None in E. exists (L ++ [a]), (length L). split; [done|]. split; [|split; [|split; [|split; [|split; [|split]]]]].
    + apply NoDup_app. split; [done|]. split; [|apply NoDup_singleton]. intros x Hx ->%elem_of_list_singleton. done.
    + rewrite lookup_app_r, Nat.sub_diag by lia. done.
    + by exists [a].
    + intros b. rewrite elem_of_app, elem_of_list_singleton. done.
    + rewrite app_length. cbn. lia.
    + done.
    + done.
Qed.

Lemma first_seen_add l L a : first_seen l L -> first_seen (l ++ [a]) (fst (lget L a)).
Proof.
  intros (Hnd & Hin & Hord). destruct (lget_spec L a Hnd) as (L' & k & -> & Hnd' & _ & _ & Hin' & _ & Hold & Hnew). cbn.
  split; [done|]. split.
  - intros b. rewrite Hin', elem_of_app, elem_of_list_singleton, Hin. done.
  - intros i j x y Hij Hi Hj. destruct (decide (a ∈ L)) as [Ha|Ha].
    + rewrite Hold in Hi, Hj by done. destruct (Hord i j x y Hij Hi Hj) as (pre & post & -> & Hx & Hy).
      exists pre, (post ++ [a]). by rewrite <- app_assoc.
    + destruct (Hnew Ha) as [-> _]. assert (Hjl : j < length L \/ j = length L).
      { apply lookup_lt_Some in Hj. rewrite app_length in Hj. cbn in Hj. lia. }
      destruct Hjl as [Hjl|Hjl].
      * rewrite lookup_app_l in Hj by done. rewrite lookup_app_l in Hi by lia.
        destruct (Hord i j x y Hij Hi Hj) as (pre & post & -> & Hx & Hy).
        exists pre, (post ++ [a]). by rewrite <- app_assoc.
      * subst j. rewrite lookup_app_r, Nat.sub_diag in Hj by lia. cbn in Hj. injection Hj as <-.
        rewrite lookup_app_l in Hi by lia. exists l, [a]. split; [done|]. split.
        -- apply Hin. by eapply elem_of_list_lookup_2.
        -- by rewrite <- Hin.
Qed.

(** what [read_edges] has built after the edges [es] *)
Record rg (es : list (A * A)) (L : list A) (g : graph) : Prop := {
  rg_seen : first_seen (concat ((fun e => [fst e; snd e]) <$> es)) L;
  rg_n : gn g = length L;
  rg_e : forall x y, (x, y) ∈ ge g <-> exists a b, (a, b) ∈ es /\ L !! x = Some a /\ L !! y = Some b }.

Lemma rg_nil : rg [] [] (mkGraph 0 []).
Proof.
  split.
  - split; [apply NoDup_nil_2|]. split; [done|]. intros i j a b _ Hi. done.
  - done.
  - cbn. intros x y. rewrite elem_of_nil. split; [done|]. intros (a & b & H & _). by apply elem_of_nil in H.
Qed.
Lemma rg_step es L g e : rg es L g ->
  let '(L1, i) := lget L (fst e) in let '(L2, j) := lget L1 (snd e) in rg (es ++ [e]) L2 (gpush g i j).
Proof.
  intros [H1 H2 H3]. destruct e as [a b]. cbn [fst snd].
  pose proof (first_seen_add _ _ a H1) as Hf1.
  destruct (lget_spec L a (proj1 H1)) as (L1 & i & E1 & Hnd1 & Hi & Hp1 & Hin1 & Hlen1 & _). rewrite E1 in Hf1 |- *. cbn [fst] in Hf1.
  pose proof (first_seen_add _ _ b Hf1) as Hf2.
  destruct (lget_spec L1 b Hnd1) as (L2 & j & E2 & Hnd2 & Hj & Hp2 & Hin2 & Hlen2 & _). rewrite E2 in Hf2 |- *. cbn [fst] in Hf2.
  split.
  - rewrite fmap_app, concat_app. cbn. rewrite <- app_assoc in Hf2. done.
  - cbn. lia.
  - intros x y. cbn [gpush ge]. rewrite elem_of_app, elem_of_list_singleton, H3.
    assert (HL : forall k c, L !! k = Some c -> L2 !! k = Some c).
    { intros k c Hc. eapply prefix_lookup; [|done]. by eapply prefix_lookup. }
    split.
    + intros [(a' & b' & Hab & Hx & Hy)|[= -> ->]].
      * exists a', b'. split; [apply elem_of_app; by left|]. auto.
      * exists a, b. split; [apply elem_of_app; right; by left|]. split; [|done]. by eapply prefix_lookup.
    + intros (a' & b' & [Hab|Hab%elem_of_list_singleton]%elem_of_app & Hx & Hy).
      * left. exists a', b'. split; [done|].
        assert (Hm : forall k c, L2 !! k = Some c -> c ∈ L -> L !! k = Some c).
        { intros k c Hk Hc. apply elem_of_list_lookup in Hc as (k' & Hk'). rewrite <- Hk'. f_equal.
          eapply NoDup_lookup; [exact Hnd2|done|]. by apply HL. }
        assert (Hends : forall c, c = a' \/ c = b' -> c ∈ L).
        { intros c Hc. apply H1. apply elem_of_list_In, in_concat. exists [a'; b']. split.
          - apply elem_of_list_In. apply elem_of_list_fmap. by exists (a', b').
          - cbn. naive_solver. }
        split; apply Hm; auto.
      * injection Hab as -> ->. right. f_equal.
        -- eapply NoDup_lookup; [exact Hnd2|done|]. by eapply prefix_lookup.
        -- by eapply NoDup_lookup.
Qed.
Lemma rg_fold es es' L g : rg es L g -> rg (es ++ es') (read_edges es' (L, g)).1 (read_edges es' (L, g)).2.
Proof.
  revert es L g. induction es' as [|e es' IH]; intros es L g H.
  - by rewrite app_nil_r.
  - unfold read_edges. cbn [fold_left fst snd]. pose proof (rg_step es L g e H) as Hs.
    destruct (lget L e.1) as [L1 i]. destruct (lget L1 e.2) as [L2 j].
    replace (es ++ e :: es') with ((es ++ [e]) ++ es') by by rewrite <- app_assoc. by apply IH.
Qed.

Lemma push_loops n k g : gn g = n ->
  let g' := fold_left (fun g i => gpush g i i) (seq n k) g in
  gn g' = n + k /\ forall x y, (x, y) ∈ ge g' <-> (x, y) ∈ ge g \/ x = y /\ n <= x < n + k.
Proof.
  revert n g. induction k as [|k IH]; intros n g Hn; cbn.
  - split; [lia|]. intros x y. split; [auto|]. intros [?|?]; [done|lia].
  - destruct (IH (S n) (gpush g n n)) as [H1 H2]; [cbn; lia|]. split; [lia|]. intros x y. rewrite H2. cbn.
    rewrite elem_of_app, elem_of_list_singleton. split.
    + intros [[?|[= -> ->]]|?]; [by left|right; lia|right; lia].
    + intros [?|[-> ?]]; [auto|]. destruct (decide (y = n)) as [->|]; [auto|]. right. lia.
Qed.

Lemma first_seen_fold l L ns : first_seen l L ->
  first_seen (l ++ ns) (fold_left (fun L a => fst (lget L a)) ns L).
Proof.
  revert l L. induction ns as [|a ns IH]; intros l L H; cbn.
  - by rewrite app_nil_r.
  - replace (l ++ a :: ns) with ((l ++ [a]) ++ ns) by by rewrite <- app_assoc. apply IH. by apply first_seen_add.
Qed.
Lemma fold_prefix ns L : NoDup L -> L `prefix_of` fold_left (fun L a => fst (lget L a)) ns L.
Proof.
  revert L. induction ns as [|a ns IH]; intros L H; cbn; [done|].
  destruct (lget_spec L a H) as (L' & k & -> & Hnd & _ & Hp & _). cbn. etransitivity; [exact Hp|]. by apply IH.
Qed.

(** the graph read: labels in first-seen order; the edges of the caller; a self-loop for every label
    that is on no edge *)
Lemma read_graph_spec (G : pygraph A) L g : read_graph G = (L, g) ->
  first_seen (stream G) L /\ gn g = length L
  /\ (forall x y, (x, y) ∈ ge g <->
        (exists a b, (a, b) ∈ pg_edges G /\ L !! x = Some a /\ L !! y = Some b)
        \/ (x = y /\ exists a, L !! x = Some a /\ a ∉ endpoints G)).
Proof.
  unfold read_graph. pose proof (rg_fold [] (pg_edges G) [] (mkGraph 0 []) rg_nil) as H. cbn [app] in H.
  destruct (read_edges (pg_edges G) ([], mkGraph 0 [])) as [L0 g0]. cbn [fst snd] in H. destruct H as [H1 H2 H3].
  unfold stream. destruct (pg_nodes G) as [ns|].
  - intros [= <- <-]. set (L' := fold_left _ ns L0). fold L'.
    assert (Hs : first_seen (endpoints G ++ ns) L') by by apply first_seen_fold.
    assert (Hp : L0 `prefix_of` L') by (apply fold_prefix, H1).
    destruct (push_loops (length L0) (length L' - length L0) g0 H2) as [Hn He].
    pose proof (prefix_length _ _ Hp) as Hlen. split; [done|]. split; [lia|].
    intros x y. rewrite He, H3.
    assert (Hm : forall k c, L' !! k = Some c -> c ∈ L0 -> L0 !! k = Some c).
    { intros k c Hk Hc. apply elem_of_list_lookup in Hc as (k' & Hk'). rewrite <- Hk'. f_equal.
      eapply NoDup_lookup; [apply Hs|done|]. by eapply prefix_lookup. }
    split.
    + intros [(a & b & Hab & Hx & Hy)|(-> & Hy)].
      * left. exists a, b. split; [done|]. split; by eapply prefix_lookup.
      * right. split; [done|]. destruct (lookup_lt_is_Some_2 L' y) as [a Ha]; [lia|]. exists a. split; [done|].
        intros Hc. apply H1 in Hc. apply Hm in Ha; [|done]. apply lookup_lt_Some in Ha. lia.
    + intros [(a & b & Hab & Hx & Hy)|(-> & a & Ha & Hc)].
      * left. exists a, b. split; [done|].
        assert (Hends : forall c, c = a \/ c = b -> c ∈ L0).
        { intros c Hc. apply H1. apply elem_of_list_In, in_concat. exists [a; b]. split.
          - apply elem_of_list_In. apply elem_of_list_fmap. by exists (a, b).
          - cbn. naive_solver. }
        split; apply Hm; auto.
      * right. split; [done|]. pose proof (lookup_lt_Some _ _ _ Ha). split; [|lia].
        destruct (decide (length L0 <= y)); [done|]. exfalso. apply Hc. apply H1.
        destruct (lookup_lt_is_Some_2 L0 y) as [a' Ha']; [lia|].
        pose proof (prefix_lookup _ _ _ _ Ha' Hp). assert (a' = a) as -> by congruence. by eapply elem_of_list_lookup_2.
  - intros [= <- <-]. rewrite app_nil_r. split; [done|]. split; [done|]. intros x y. rewrite H3. split; [by left|].
    intros [?|(-> & a & Ha & Hc)]; [done|]. exfalso. apply Hc, H1. by eapply elem_of_list_lookup_2.
Qed.

Lemma first_seen_length l L : first_seen l L -> length L <= length l.
Proof.
  intros (Hnd & Hin & _). apply submseteq_length. apply NoDup_submseteq; [done|]. intros x. apply Hin.
Qed.
End rd.
