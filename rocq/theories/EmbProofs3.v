(** Chain construction. *)
From stdpp Require Import base list numbers gmap fin_maps.
From Verif Require Import Base ChainModel ChainProofs ChainProofs2 EmbModel EmbProofs EmbProofs2.
Local Open Scope Z_scope.

Section emb.
Context (pb : problem) (E : nat -> nat -> Prop) (F : fixdom).
Notation adj := (adjq pb).
Notation einv := (einv pb E F).
Context (ok : nat -> Prop) (ok_lt : forall x, ok x -> (x < nq pb)%nat).

(** [u] has no chain and nobody links to it *)
Definition absent (e : emb) (u : nat) : Prop :=
  chains e !! u = Some empty_chain /\ forall v c, chains e !! v = Some c -> clinks c !! u = None.

Lemma torn_absent e u e' : torn pb e u e' -> absent e' u.
Proof.
  intros T. split; [apply T|]. intros v c Hc. destruct (decide (v = u)) as [->|N].
  - destruct T as (_ & _ & H & _). assert (c = empty_chain) as -> by congruence. done.
  - destruct (torn_inv_lookup _ _ _ _ _ _ T N Hc) as (c0 & _ & _ & _ & ->). apply lookup_delete.
Qed.

(** a freshly constructed chain for [u], rooted at [q], with links to the variables in [dn]
    that have chains *)
Record built (T : emb) (u q : nat) (dn : list nat) (e : emb) : Prop := {
  b_inv : einv e;
  b_wex : wexact T -> wexact e;
  b_fr : efrozen e = efrozen T;
  b_len : length (chains e) = length (chains T);
  b_cu : exists cu, chains e !! u = Some cu /\ tight ex0 cu /\ rooted_at cu q /\ clinks cu !! u = Some q /\
     qin cu q /\ (forall x, qin cu x -> ok x) /\
     (forall v, v <> u -> v ∉ dn -> clinks cu !! v = None) /\
     (forall v, v ∈ dn -> nonempty T v -> is_Some (clinks cu !! v));
  b_oth : forall v c, v <> u -> chains T !! v = Some c -> exists c', chains e !! v = Some c' /\ pm c' = pm c /\
     (v ∉ dn -> c' = c) /\ delete u (clinks c') = clinks c
}.

Lemma built_root T u q : einv T -> absent T u -> (u < nv pb)%nat -> (forall x, ok x -> fd_dom F u x) -> ok q ->
  exists e, on_chain T u (fun c w => set_root u c w q) = Ok e /\ built T u q [] e.
Proof.
  intros I [Hu Ha] Hlt Hdom Hq. unfold on_chain. rewrite (vget_ok _ _ _ Hu). cbn [rbind]. unfold set_root.
  assert (Lq : (q < length (eweight T))%nat). { rewrite (ei_wlen _ _ _ _ I). pose proof (ok_lt q Hq). lia. }
  destruct (vadd_ok (eweight T) q 1 Lq) as (w' & -> & Lw & Hw). cbn [rbind].
  rewrite vset_ok by (by eapply lookup_lt_Some). cbn [rbind].
  rewrite !emplace_fresh by done. simpl.
  set (c := mkChain (<[q:=(q, 2)]> ∅) (<[u:=q]> ∅)).
  assert (P : pm c = <[q:=q]> ∅). { unfold pm, c. simpl. rewrite fmap_insert, fmap_empty. done. }
  assert (W : cwf ex0 adj c).
  { split.
    - intros x p r. unfold c; simpl. rewrite lookup_insert_Some, lookup_empty. intros [[<- [= <- <-]]|[_ ?]]; [|done].
      fold c. rewrite P. rewrite !occ_insert by apply lookup_empty. rewrite !occ_empty, !decide_True by done. done.
    - intros x y. unfold c; simpl. rewrite lookup_insert_Some, lookup_empty. intros [[<- <-]|[_ ?]]; [|done].
      fold c. rewrite P, lookup_insert. eauto.
    - intros x. rewrite P. rewrite lookup_insert_is_Some', lookup_empty. intros [<-|[? ?]]; [|done].
      exists q. apply anc_self. apply lookup_insert.
    - intros x p. rewrite P, lookup_insert_Some, lookup_empty. intros [[<- <-]|[_ ?]]; done. }
  assert (Hin : forall x, qin c x <-> x = q).
  { intros x. rewrite <- pm_is_Some, P, lookup_insert_is_Some', lookup_empty. split; [|auto].
    intros [?|[? ?]]; done. }
  assert (R : rooted_at c q).
  { intros x Hx. apply pm_is_Some, Hin in Hx. subst x. apply anc_self. rewrite P. apply lookup_insert. }
  eexists; split; [done|]. split; simpl.
  - eapply einv_one; eauto.
    + intros x Hx. apply Hin in Hx. subst x. pose proof (ok_lt q Hq). split; [lia|]. intros _. split; [done|by apply Hdom].
    + intros v N. simpl. by rewrite lookup_insert_ne.
    + intros r. simpl. rewrite lookup_insert. by intros [= <-].
    + lia.
  - intros X. eapply wexact_one; eauto. intros x. rewrite Hw, ind_empty.
    destruct (decide (x = q)) as [->|N].
    + rewrite ind_in; [lia|]. by apply Hin.
    + rewrite ind_out; [lia|]. simpl. by rewrite lookup_insert_ne.
  - done.
  - by rewrite insert_length.
  - exists c. split; [apply list_lookup_insert; by eapply lookup_lt_Some|]. split.
    { intros x Hx. apply pm_is_Some, Hin in Hx. subst x. unfold nref, ex0.
      pose proof (occ_nonneg (clinks c) q). assert (1 <= occ (pm c) q); [|lia].
      apply (occ_pos _ _ q). rewrite P. apply lookup_insert. }
    split; [done|]. split; [simpl; by rewrite lookup_insert|]. split; [by apply Hin|].
    split; [intros x Hx; apply Hin in Hx; by subst|]. split.
    + intros v N _. simpl. by rewrite lookup_insert_ne.
    + intros v Hv. by apply elem_of_nil in Hv.
  - intros v c0 N Hv. exists c0. rewrite list_lookup_insert_ne by done. split; [done|]. split; [done|]. split; [done|].
    apply delete_notin. by apply (Ha v).
Qed.

Lemma built_nonempty T u q dn e v : built T u q dn e -> v <> u -> (nonempty e v <-> nonempty T v).
Proof.
  intros B N. unfold nonempty. split.
  - intros (c & Hc & S). destruct (lookup_lt_is_Some_2 (chains T) v) as [c0 H0].
    { rewrite <- (b_len _ _ _ _ _ B). by eapply lookup_lt_Some. }
    destruct (b_oth _ _ _ _ _ B v c0 N H0) as (c' & Hc' & P & _). assert (c' = c) as -> by congruence.
    exists c0. split; [done|]. by rewrite <- size_pm, <- P, size_pm.
  - intros (c & Hc & S). destruct (b_oth _ _ _ _ _ B v c N Hc) as (c' & Hc' & P & _).
    exists c'. split; [done|]. by rewrite <- size_pm, P, size_pm.
Qed.

Lemma built_step T u q dn e v cT par cu qv : einv T -> absent T u -> (u < nv pb)%nat -> (forall x, ok x -> fd_dom F u x) ->
  built T u q dn e -> v <> u -> v ∉ dn -> (E u v \/ E v u) ->
  chains T !! v = Some cT -> chains e !! u = Some cu -> qin cu qv ->
  wp_start adj ok par (qin cT) qv ->
  exists e', on_two e u v (fun cu cv w => link_path u v cu cv w qv par) = Ok e' /\ built T u q (dn ++ [v]) e'.
Proof.
  intros I [HuT Ha] Hlt Hdom B N Nd EE HvT Hcu Hqv Hs.
  destruct (b_cu _ _ _ _ _ B) as (cu0 & Hcu0 & Ti & Ro & Ku & Qu & Oku & Kn & Kd).
  assert (cu0 = cu) as -> by congruence.
  destruct (b_oth _ _ _ _ _ B v cT N HvT) as (cv & Hcv & Pv & Ev & _). rewrite (Ev Nd) in *. clear Ev cv Pv.
  pose proof (b_inv _ _ _ _ _ B) as Ie.
  destruct (link_path_spec adj (adjq_sym pb) ok u v cu cT (eweight e) qv par)
    as (cu' & cv' & w' & q' & p' & El & W1 & W2 & Ti' & P2 & K2 & K1 & Q1 & Q2 & A' & Dm & Dg & Rg & Lw & Hw).
  { by eapply ei_cwf. } { by eapply ei_cwf. } { done. } { by apply Kn. } { by eapply (Ha v). }
  { by apply pm_is_Some. } { by eapply ei_below_w. }
  { intros x Hx. rewrite (ei_wlen _ _ _ _ Ie). pose proof (ok_lt x Hx). lia. } { done. }
  assert (Hok' : forall x, qin cu' x -> ok x).
  { intros x Hx. apply pm_is_Some in Hx. destruct (Dg x Hx) as [G|[G _]]; [|done]. apply pm_is_Some in G. by apply Oku. }
  assert (U : upd2 pb E F u v cu cT cu' cv' q' p').
  { split; auto; try lia.
    - intros x Hx. apply Hok' in Hx. pose proof (ok_lt x Hx). split; [lia|]. intros _. split; [done|by apply Hdom].
    - intros x Hx. apply pm_is_Some in Hx. rewrite P2 in Hx.
      split; [by eapply (ei_below _ _ _ _ Ie v)|]. intros Hv. eapply (ei_home _ _ _ _ Ie v); [done| |done]. by apply pm_is_Some.
    - intros r. unfold rooted_at. by rewrite P2. }
  eexists. split; [by eapply on_two_ok|].
  assert (Lu : (u < length (chains e))%nat) by (by eapply lookup_lt_Some).
  assert (Lv : (v < length (chains e))%nat) by (by eapply lookup_lt_Some).
  assert (Gu : set2 (chains e) u v cu' cv' !! u = Some cu') by (by apply set2_u).
  assert (Gv : set2 (chains e) u v cu' cv' !! v = Some cv') by (by apply set2_v).
  split; simpl.
  - eapply einv_two; eauto.
  - intros X. eapply wexact_two; eauto. { by apply (b_wex _ _ _ _ _ B). }
    intros x. rewrite Hw, (ind_pm cv' cT) by done. lia.
  - apply (b_fr _ _ _ _ _ B).
  - unfold set2. rewrite !insert_length. apply (b_len _ _ _ _ _ B).
  - exists cu'. split; [done|]. split; [done|]. split; [exact (Rg q Ro)|].
    split; [by rewrite K1, lookup_insert_ne|].
    split. { apply pm_is_Some, Dm. by apply pm_is_Some. }
    split; [done|]. split.
    + intros v' N' Hv'. rewrite K1. rewrite lookup_insert_ne.
      * apply Kn; [done|]. intros G. apply Hv', elem_of_app. by left.
      * intros ->. apply Hv', elem_of_app. right. left.
    + intros v' Hv' Ne. rewrite K1. apply lookup_insert_is_Some'. apply elem_of_app in Hv' as [G|G].
      * right. by apply Kd. * apply elem_of_list_singleton in G. by left.
  - intros v' c' N' Hc'. destruct (decide (v' = v)) as [->|Nv].
    + assert (c' = cT) as -> by congruence. exists cv'. split; [done|]. split; [done|]. split.
      * intros Hn. exfalso. apply Hn, elem_of_app. right. left.
      * rewrite K2. apply delete_insert. by eapply (Ha v).
    + rewrite set2_ne by done. destruct (b_oth _ _ _ _ _ B v' c' N' Hc') as (c2 & H2 & P & Eq & D).
      exists c2. split; [done|]. split; [done|]. split; [|done]. intros Hn. apply Eq. intros G. apply Hn, elem_of_app. by left.
Qed.

Lemma built_skip T u q dn e v : built T u q dn e -> ~ nonempty T v -> v <> u -> built T u q (dn ++ [v]) e.
Proof.
  intros B Ne N. destruct B as [B1 B2 B3 B4 (cu & Hcu & Ti & Ro & Ku & Qu & Oku & Kn & Kd) B6].
  split; auto.
  - exists cu. do 6 (split; [done|]). split.
    + intros v' N' Hv'. apply Kn; [done|]. intros G. apply Hv', elem_of_app. by left.
    + intros v' Hv' Ne'. apply elem_of_app in Hv' as [G|G]; [by apply Kd|].
      apply elem_of_list_singleton in G. by subst.
  - intros v' c' N' Hc'. destruct (B6 v' c' N' Hc') as (c2 & H2 & P & Eq & D).
    exists c2. do 2 (split; [done|]). split; [|done]. intros Hn. apply Eq. intros G. apply Hn, elem_of_app. by left.
Qed.

Lemma steiner_pick_spec dist vis c q adjx par oth : cwf ex0 adj c -> qin c q -> (forall x, qin c x -> ok x) ->
  length vis = nq pb -> length dist = (nq pb + nr pb)%nat ->
  (forall d, d ∈ dist -> d <= max_distance) ->
  wp_start adjx ok par oth q ->
  (forall p d s, ok p -> vis !! p = Some s -> s <> 0 -> dist !! p = Some d -> d <> max_distance -> wp_start adjx ok par oth p) ->
  exists qv, steiner_pick dist vis c q = Ok qv /\ qin c qv /\ wp_start adjx ok par oth qv.
Proof.
  intros W Hq Hok Lv Ld Hd Hs Hp. unfold steiner_pick.
  assert (Gv : forall x, ok x -> exists s, vis !! x = Some s).
  { intros x Hx. apply lookup_lt_is_Some_2. rewrite Lv. by apply ok_lt. }
  assert (Gd : forall x, ok x -> exists d, dist !! x = Some d /\ d <= max_distance).
  { intros x Hx. destruct (lookup_lt_is_Some_2 dist x) as [d H]; [pose proof (ok_lt x Hx); lia|].
    exists d. split; [done|]. apply Hd. by eapply elem_of_list_lookup_2. }
  destruct (Gv q (Hok q Hq)) as [s Hs0]. rewrite (vget_ok _ _ _ Hs0). cbn [rbind].
  destruct (Gd q (Hok q Hq)) as (d & Hd0 & Hdm).
  assert (exists dq, (if decide (s = 0) then Ok max_distance else vget dist q) = Ok dq /\ dq <= max_distance) as (dq & -> & Hdq).
  { case_decide; eexists; (split; [by try apply vget_ok|]); [done|done]. }
  cbn [rbind].
  destruct (foldM_inv (fun '(qv, dqv) p =>
             let! r := refcount c p in
             if decide (1 < r)%Z then
               let! s := vget vis p in
               if decide (s = 0%Z) then Ok (qv, dqv) else
               let! dp := vget dist p in
               if decide (dp < dqv)%Z then Ok (p, dp) else Ok (qv, dqv)
             else Ok (qv, dqv))
     (fun _ '(qv, dqv) => qin c qv /\ wp_start adjx ok par oth qv /\ dqv <= max_distance) (cqubits c) (q, dq))
     as ([qv dqv] & -> & Q1 & Q2 & _).
  - done.
  - intros dn p rest [qv dqv] El (Q1 & Q2 & Q3).
    assert (Hpc : qin c p). { apply cqubits_in. rewrite El. apply elem_of_app. right; left. }
    unfold refcount. destruct Hpc as [[pp r] Hpr]. rewrite Hpr. cbn [rbind].
    assert (Hpc : qin c p) by (by eexists).
    case_decide; [|by eexists; split; [done|]].
    destruct (Gv p (Hok p Hpc)) as [s' Hs']. rewrite (vget_ok _ _ _ Hs'). cbn [rbind]. case_decide; [by eexists; split; [done|]|].
    destruct (Gd p (Hok p Hpc)) as (d' & Hd' & Hdm'). rewrite (vget_ok _ _ _ Hd'). cbn [rbind]. case_decide; [|by eexists; split; [done|]].
    eexists; split; [done|]. cbn. split; [done|]. split; [|done]. eapply Hp; eauto. lia.
  - cbn [rbind]. eauto.
Qed.

(** the search data of a neighbour [v] is usable from the root [q] and from every visited
    admissible qubit *)
Definition search_ok (T : emb) (q v : nat) (parents : list (list (option nat))) (distances visited : list (list Z)) : Prop :=
  exists cT par dist vis, chains T !! v = Some cT /\ parents !! v = Some par /\ distances !! v = Some dist /\
    visited !! v = Some vis /\ length vis = nq pb /\ length dist = (nq pb + nr pb)%nat /\
    (forall d, d ∈ dist -> d <= max_distance) /\
    wp_start adj ok par (qin cT) q /\
    (forall p d s, ok p -> vis !! p = Some s -> s <> 0 -> dist !! p = Some d -> d <> max_distance ->
       wp_start adj ok par (qin cT) p).

Lemma construct_spec vn T u q l parents distances visited :
  einv T -> absent T u -> (u < nv pb)%nat -> (forall x, ok x -> fd_dom F u x) -> ok q -> vn !! u = Some l -> NoDup l ->
  (forall v, v ∈ l -> v <> u /\ (v < nv pb + nf pb)%nat /\ E u v) ->
  (forall v, v ∈ l -> nonempty T v -> search_ok T q v parents distances visited) ->
  exists e, construct_chain_steiner vn T u q parents distances visited = Ok e /\ built T u q l e.
Proof.
  intros I A Hu Hdom Hq Hl ND Hr Hs. unfold construct_chain_steiner.
  destruct (built_root T u q I A Hu Hdom Hq) as (e0 & -> & B0). cbn [rbind].
  rewrite (vget_ok _ _ _ Hl). cbn [rbind].
  apply (foldM_inv _ (fun dn e => built T u q dn e) l e0 B0).
  intros dn v rest e El B.
  assert (Hv : v ∈ l) by (rewrite El; apply elem_of_app; right; left).
  assert (Hvd : v ∉ dn).
  { rewrite El in ND. apply NoDup_app in ND as (_ & ND & _). intros Hd. apply (ND v Hd). left. }
  destruct (Hr v Hv) as (Nv & Lv & Ev).
  destruct (nonempty_size e v) as (n & -> & Hn).
  { rewrite (b_len _ _ _ _ _ B), (ei_len _ _ _ _ I). done. }
  cbn [rbind]. rewrite (built_nonempty _ _ _ _ _ _ B Nv) in Hn. case_decide as Hz.
  { eexists; split; [done|]. apply built_skip; auto. rewrite <- Hn. lia. }
  destruct (Hs v Hv (proj1 Hn Hz)) as (cT & par & dist & vis & HcT & -> %vget_ok & -> %vget_ok & -> %vget_ok & Lvis & Ldist & Hmax & S1 & S2).
  cbn [rbind].
  destruct (b_cu _ _ _ _ _ B) as (cu & Hcu & Ti & Ro & Ku & Qu & Oku & Kn & Kd).
  rewrite (vget_ok _ _ _ Hcu). cbn [rbind].
  destruct (steiner_pick_spec dist vis cu q adj par (qin cT)) as (qv & -> & Q1 & Q2); auto.
  { eapply ei_cwf; [by eapply b_inv|done]. }
  cbn [rbind]. eapply built_step; eauto.
Qed.

(** tearing [u] out of a freshly built embedding gives back the embedding it was built on *)
Lemma built_torn T u q dn e e' : absent T u -> built T u q dn e -> torn pb e u e' ->
  einv T -> chains e' = chains T.
Proof.
  intros [HuT Ha] B Te IT. apply list_eq. intros v. destruct (decide (v = u)) as [->|N].
  { destruct Te as (_ & _ & -> & _). done. }
  destruct (chains T !! v) as [c|] eqn:Hc.
  - destruct (b_oth _ _ _ _ _ B v c N Hc) as (c' & Hc' & P & _ & D).
    destruct Te as (_ & _ & _ & Te & _). destruct (Te v c' N Hc') as (c2 & -> & W2 & P2 & K2). f_equal.
    eapply chain_ext; [exact W2|by eapply ei_cwf|congruence|congruence].
  - apply lookup_ge_None in Hc. apply lookup_ge_None. destruct Te as (-> & _).
    by rewrite (b_len _ _ _ _ _ B).
Qed.
End emb.
