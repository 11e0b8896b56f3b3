(** Preservation of the embedding invariant by chain construction, path stealing,
    copying, initialization, and the meaning of [statistics] and [linked]. *)
From stdpp Require Import base list numbers gmap fin_maps.
From Verif Require Import Base ChainModel ChainProofs ChainProofs2 EmbModel EmbProofs.
Local Open Scope Z_scope.

Section emb.
Context (pb : problem) (E : nat -> nat -> Prop) (F : fixdom).
Notation adj := (adjq pb).
Notation einv := (einv pb E F).

Lemma accepts_may_use u q : accepts pb u q = Ok true -> may_use pb u q.
Proof using.
  unfold accepts, may_use. destruct (masks pb) as [m|]; [|done]. unfold vget.
  destruct (m !! u) as [r|]; [|done]. cbn [rbind]. destruct (r !! q) as [z|] eqn:Q; [|done]. cbn [rbind].
  intros [= ->%Z.eqb_eq]. eauto.
Qed.

(** ** replacing one chain *)
Lemma einv_one e u cu c' w' fr : einv e -> chains e !! u = Some cu -> cwf ex0 adj c' ->
  (forall x, qin c' x -> (x < nq pb + nr pb)%nat /\ ((u < nv pb)%nat -> home pb F u x)) ->
  (forall v, v <> u -> clinks c' !! v = clinks cu !! v) ->
  (forall r, clinks c' !! u = Some r -> rooted_at c' r) ->
  ((nv pb <= u)%nat -> pm c' = pm cu) -> length w' = length (eweight e) ->
  einv (mkEmb (<[u:=c']> (chains e)) w' fr).
Proof.
  intros I Hu W B K R Hf LW.
  assert (Lu : (u < length (chains e))%nat) by (by eapply lookup_lt_Some).
  assert (cases : forall a c, <[u:=c']> (chains e) !! a = Some c ->
     (a = u /\ c = c') \/ (a <> u /\ chains e !! a = Some c)).
  { intros a c Ha. destruct (decide (a = u)) as [->|N].
    - left. rewrite list_lookup_insert in Ha by done. split; congruence.
    - right. by rewrite list_lookup_insert_ne in Ha. }
  split; simpl.
  - rewrite insert_length. apply I.
  - rewrite LW. apply I.
  - intros a c Ha. destruct (cases a c Ha) as [[-> ->]|[N H]]; auto. by eapply ei_cwf.
  - intros a c x Ha Hx Hlt. destruct (cases a c Ha) as [[-> ->]|[N H]]. + by apply B. + by eapply ei_home.
  - intros a c Ha. destruct (cases a c Ha) as [[-> ->]|[N H]].
    + intros x Hx. apply B. by apply pm_is_Some. + by eapply ei_below.
  - intros a b ca x Ha Nab Hl. destruct (cases a ca Ha) as [[-> ->]|[N H]].
    + rewrite K in Hl by done. destruct (ei_link _ _ _ _ I _ _ _ _ Hu Nab Hl) as (Eab & cb & y & Hb & Hy & HA).
      split; [done|]. exists cb, y. rewrite list_lookup_insert_ne by done. done.
    + destruct (ei_link _ _ _ _ I _ _ _ _ H Nab Hl) as (Eab & cb & y & Hb & Hy & HA). split; [done|].
      destruct (decide (b = u)) as [->|Nb].
      * exists c', y. split; [by apply list_lookup_insert|]. split; [|done]. rewrite K by done. congruence.
      * exists cb, y. rewrite list_lookup_insert_ne by done. done.
  - intros a ca r Ha Hr. destruct (cases a ca Ha) as [[-> ->]|[N H]]; [by apply R|by eapply ei_root].
  - intros a ca Ha Hlt. destruct (cases a ca Ha) as [[-> ->]|[N H]]; [|by eapply ei_fix].
    rewrite Hf by done. by eapply ei_fix.
  - apply I.
Qed.
Lemma wexact_one e u cu c' w' fr : wexact e -> chains e !! u = Some cu ->
  (forall x, wt w' x = wt (eweight e) x + ind c' x - ind cu x) ->
  wexact (mkEmb (<[u:=c']> (chains e)) w' fr).
Proof. intros X Hu H q. simpl. rewrite H, X, (sumind_insert _ _ _ _ _ Hu). lia. Qed.

(** the root of a chain is its link to itself *)
Definition selfroot (e : emb) (a r : nat) : Prop := exists c, chains e !! a = Some c /\ clinks c !! a = Some r.

(** ** stealing between two linked variables *)
Definition lmono (e e' : emb) : Prop :=
  (forall a b, linkedto e a b -> linkedto e' a b) /\ (forall a, nonempty e a -> nonempty e' a).

Lemma steal_at e u v limit : einv e -> pb_wf pb -> (u < nv pb)%nat -> (v < nv pb)%nat -> u <> v ->
  linkedto e u v ->
  exists e', on_two e u v (fun cu cv w => steal (accepts pb u) limit u v cu cv w) = Ok e' /\
    einv e' /\ (wexact e -> wexact e') /\ efrozen e' = efrozen e /\
    (forall a b, linkedto e' a b <-> linkedto e a b) /\
    (forall a, nonempty e' a <-> nonempty e a) /\
    (forall a, a <> u -> a <> v -> chains e' !! a = chains e !! a) /\
    (forall cu cv cu' cv', chains e !! u = Some cu -> chains e !! v = Some cv ->
       chains e' !! u = Some cu' -> chains e' !! v = Some cv' ->
       (forall x, qin cv' x -> qin cv x) /\ (forall x, qin cu' x -> qin cu x \/ qin cv x) /\
       (forall x, ind cu' x + ind cv' x <= ind cu x + ind cv x)) /\
    (forall x, sumind (chains e') x <= sumind (chains e) x) /\
    length (chains e') = length (chains e) /\
    (forall a r, selfroot e a r -> selfroot e' a r).
Proof.
  intros I PW Hu Hv N (cu & Hcu & q & Hq).
  destruct (ei_link _ _ _ _ I _ _ _ _ Hcu N Hq) as (EE & cv & p & Hcv & Hp & HA).
  destruct (steal_spec adj (adjq_sym pb) (accepts pb u) limit u v cu cv (eweight e) q p)
    as (q' & p' & cu' & cv' & w' & Es & W1 & W2 & Q1 & Q2 & A' & K1 & K2 & S1 & S2 & R1 & R2 & _ & Hle & L' & Hw).
  { intros x Hx. unfold accepts. destruct (masks pb) as [m|] eqn:M; [|eauto].
    rewrite (ei_wlen _ _ _ _ I) in Hx.
    destruct (pbw_masks _ PW m M) as [Lm Hm].
    destruct (lookup_lt_is_Some_2 m u) as [r Hr]; [lia|]. rewrite (vget_ok _ _ _ Hr). simpl.
    destruct (lookup_lt_is_Some_2 r x) as [y Hy]; [rewrite (proj1 (Hm _ _ Hr)); lia|]. rewrite (vget_ok _ _ _ Hy). simpl. eauto. }
  { by eapply ei_cwf. } { by eapply ei_cwf. } { done. } { done. } { done. }
  { by eapply ei_below_w. } { by eapply ei_below_w. }
  assert (U : upd2 pb E F u v cu cv cu' cv' q' p').
  { split; auto; try lia.
    - intros x Hx. apply pm_is_Some in Hx. destruct (S2 x Hx) as [G|[G Ga]]; apply pm_is_Some in G.
      + pose proof (ei_home _ _ _ _ I _ _ _ Hcu G Hu) as [L D]. split; [lia|done].
      + pose proof (ei_bound _ _ _ _ I _ _ _ Hcv G Hv) as L. split; [lia|]. intros _. split; [done|].
        eapply ei_area; [done|done|done|]. left. by apply accepts_may_use.
    - intros x Hx. apply pm_is_Some in Hx. apply S1, pm_is_Some in Hx.
      pose proof (ei_home _ _ _ _ I _ _ _ Hcv Hx Hv) as [L D]. split; [lia|done]. }
  eexists. split; [by eapply on_two_ok|].
  assert (Lu : (u < length (chains e))%nat) by (by eapply lookup_lt_Some).
  assert (Lv : (v < length (chains e))%nat) by (by eapply lookup_lt_Some).
  set (cs := set2 (chains e) u v cu' cv').
  assert (Gu : cs !! u = Some cu') by (by apply set2_u).
  assert (Gv : cs !! v = Some cv') by (by apply set2_v).
  assert (Gn : forall a, a <> u -> a <> v -> cs !! a = chains e !! a) by (intros; by apply set2_ne).
  split; [by eapply einv_two|]. split; [intros X; by eapply wexact_two|]. split; [done|].
  split; [|split; [|split; [done|split; [|split; [|split]]]]].
  - intros a b. unfold linkedto. simpl. fold cs.
    destruct (decide (a = u)) as [->|Na]; [|destruct (decide (a = v)) as [->|Na']].
    + rewrite Gu, Hcu. split; intros (c & [= <-] & [y Hy]); eexists; (split; [done|]).
      * rewrite K1 in Hy. destruct (decide (b = v)) as [->|]; [eauto|]. rewrite lookup_insert_ne in Hy by done. eauto.
      * rewrite K1. apply lookup_insert_is_Some'. right. eauto.
    + rewrite Gv, Hcv. split; intros (c & [= <-] & [y Hy]); eexists; (split; [done|]).
      * rewrite K2 in Hy. destruct (decide (b = u)) as [->|]; [eauto|]. rewrite lookup_insert_ne in Hy by done. eauto.
      * rewrite K2. apply lookup_insert_is_Some'. right. eauto.
    + by rewrite Gn.
  - intros a. unfold nonempty. simpl. fold cs.
    destruct (decide (a = u)) as [->|Na]; [|destruct (decide (a = v)) as [->|Na']].
    + rewrite Gu, Hcu. split; intros (c & [= <-] & _); eexists; (split; [done|]); apply csize_pos.
      * exists q. apply pm_is_Some. eapply cwf_links; [|exact Hq]. by eapply ei_cwf.
      * exists q'. by apply pm_is_Some.
    + rewrite Gv, Hcv. split; intros (c & [= <-] & _); eexists; (split; [done|]); apply csize_pos.
      * exists p. apply pm_is_Some. eapply cwf_links; [|exact Hp]. by eapply ei_cwf.
      * exists p'. by apply pm_is_Some.
    + by rewrite Gn.
  - intros c1 c2 c1' c2' H1 H2 H1' H2'. simpl in *. fold cs in H1', H2'.
    assert (c1 = cu) as -> by congruence. assert (c2 = cv) as -> by congruence.
    assert (c1' = cu') as -> by congruence. assert (c2' = cv') as -> by congruence.
    split; [|split; [|done]].
    + intros x Hx. apply pm_is_Some. apply S1. by apply pm_is_Some.
    + intros x Hx. apply pm_is_Some in Hx. destruct (S2 x Hx) as [G|[G _]]; apply pm_is_Some in G; auto.
  - intros x. simpl. unfold cs, set2. rewrite (sumind_insert _ v cv) by (by rewrite list_lookup_insert_ne).
    rewrite (sumind_insert _ u cu) by done. specialize (Hle x). lia.
  - simpl. unfold cs, set2. by rewrite !insert_length.
  - intros a r (c & Hc & Hr). unfold selfroot. simpl. fold cs.
    destruct (decide (a = u)) as [->|Na]; [|destruct (decide (a = v)) as [->|Na']].
    + assert (c = cu) as -> by congruence. exists cu'. split; [done|]. by rewrite K1, lookup_insert_ne.
    + assert (c = cv) as -> by congruence. exists cv'. split; [done|]. by rewrite K2, lookup_insert_ne.
    + exists c. by rewrite Gn.
Qed.

(** effect of a sequence of steals involving [u] *)
Record stolen (u : nat) (e e' : emb) : Prop := {
  st_inv : einv e -> einv e';
  st_wex : wexact e -> wexact e';
  st_fr : efrozen e' = efrozen e;
  st_link : forall a b, linkedto e' a b <-> linkedto e a b;
  st_ne : forall a, nonempty e' a <-> nonempty e a;
  st_sum : forall x, sumind (chains e') x <= sumind (chains e) x;
  st_len : length (chains e') = length (chains e);
  st_root : forall a r, selfroot e a r -> selfroot e' a r
}.
Lemma stolen_refl u e : stolen u e e.
Proof. split; auto; try done; intros; lia. Qed.
Lemma stolen_trans u e1 e2 e3 : stolen u e1 e2 -> stolen u e2 e3 -> stolen u e1 e3.
Proof.
  intros [] []. split; auto; try congruence.
  - intros a b. by rewrite st_link1, st_link0.
  - intros a. by rewrite st_ne1, st_ne0.
  - intros x. specialize (st_sum0 x); specialize (st_sum1 x). lia.
Qed.

Lemma nonempty_size e v : (v < length (chains e))%nat ->
  exists n, chainsize e v = Ok n /\ (n <> 0%nat <-> nonempty e v).
Proof.
  intros H. destruct (lookup_lt_is_Some_2 _ _ H) as [c Hc]. exists (csize c). unfold chainsize.
  rewrite (vget_ok _ _ _ Hc). split; [done|]. unfold nonempty. rewrite Hc. split; [eauto|].
  by intros (? & [= ->] & ?).
Qed.

Lemma flip_back_spec vn e u target l : einv e -> pb_wf pb -> (u < nv pb)%nat -> vn !! u = Some l ->
  (forall v, v ∈ l -> v <> u /\ (v < nv pb + nf pb)%nat) ->
  (forall v, v ∈ l -> (v < nv pb)%nat -> nonempty e v -> linkedto e u v) ->
  exists e', flip_back pb vn e u target = Ok e' /\ stolen u e e'.
Proof.
  intros I PW Hu Hl Hr HL. unfold flip_back. rewrite (vget_ok _ _ _ Hl). simpl.
  apply (foldM_inv _ (fun (_ : list nat) e' => stolen u e e')); [apply stolen_refl|].
  intros dn v rest e' El S'. cbv beta.
  assert (Hv : v ∈ l) by (rewrite El; apply elem_of_app; right; left).
  destruct (Hr v Hv) as [Nv Lv].
  destruct (nonempty_size e' v) as (n & -> & Hn).
  { rewrite (st_len _ _ _ S'), (ei_len _ _ _ _ I). lia. }
  cbn [rbind]. case_decide as Hz; [eauto|].
  unfold fixedb. destruct (Nat.leb_spec (nv pb) v) as [|Hlt]; [eauto|].
  apply Hn in Hz. apply (st_ne _ _ _ S') in Hz. pose proof (HL v Hv Hlt Hz) as Hk.
  apply (st_link _ _ _ S') in Hk.
  pose proof (st_inv _ _ _ S' I) as I'.
  apply (linkedto_sym _ _ _ _ _ _ I') in Hk; [|done].
  destruct (steal_at e' v u target I' PW Hlt Hu Nv Hk) as (e2 & -> & I2 & X2 & F2 & L2 & N2 & _ & _ & S2 & Len2 & R2).
  eexists; split; [done|]. eapply stolen_trans; [exact S'|]. by split; auto.
Qed.

Lemma steal_all_spec vn e u l : einv e -> pb_wf pb -> (u < nv pb)%nat -> vn !! u = Some l ->
  (forall v, v ∈ l -> v <> u /\ (v < nv pb + nf pb)%nat) ->
  exists e', steal_all pb vn e u = Ok e' /\ stolen u e e'.
Proof.
  intros I PW Hu Hl Hr. unfold steal_all. rewrite (vget_ok _ _ _ Hl). simpl.
  apply (foldM_inv _ (fun (_ : list nat) e' => stolen u e e')); [apply stolen_refl|].
  intros dn v rest e' El S'. cbv beta.
  assert (Hv : v ∈ l) by (rewrite El; apply elem_of_app; right; left).
  destruct (Hr v Hv) as [Nv Lv].
  unfold fixedb. destruct (Nat.leb_spec (nv pb) v) as [|Hlt]; [eauto|].
  pose proof (st_inv _ _ _ S' I) as I'.
  destruct (ei_get _ _ _ e' u I') as [cu Hcu]; [lia|]. destruct (ei_get _ _ _ e' v I') as [cv Hcv]; [lia|].
  rewrite (vget_ok _ _ _ Hcu), (vget_ok _ _ _ Hcv). cbn [rbind]. unfold get_link.
  destruct (clinks cu !! v) eqn:K1; [|eauto]. destruct (clinks cv !! u) eqn:K2; [|eauto].
  destruct (steal_at e' u v 0 I' PW Hu Hlt (not_eq_sym Nv)) as (e2 & -> & I2 & X2 & F2 & L2 & N2 & _ & _ & S2 & Len2 & R2).
  { exists cu. eauto. }
  eexists; split; [done|]. eapply stolen_trans; [exact S'|]. by split; auto.
Qed.
End emb.
