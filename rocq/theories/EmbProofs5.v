(** The constructor of an embedding from fixed and initial chains. *)
From stdpp Require Import base list numbers gmap fin_maps.
From Verif Require Import Base ChainModel ChainProofs ChainProofs2 EmbModel EmbProofs EmbProofs2 EmbProofs3 EmbProofs4.
Local Open Scope Z_scope.

(** the map sending each listed qubit to itself *)
Definition idm (l : list nat) : gmap nat nat := list_to_map (map (fun q => (q, q)) l).

Lemma idm_lookup l q p : idm l !! q = Some p <-> q ∈ l /\ p = q.
Proof.
  unfold idm. induction l as [|x l IH]; simpl.
  - rewrite lookup_empty. split; [done|]. intros [H _]. by apply elem_of_nil in H.
  - rewrite lookup_insert_Some, IH, elem_of_cons. split.
    + intros [[-> ->]|[N [H ->]]]; auto.
    + intros [[->|H] ->]; [by left|]. destruct (decide (x = q)) as [->|N]; [by left|by right].
Qed.
Lemma idm_in l q : is_Some (idm l !! q) <-> q ∈ l.
Proof. split; [intros [p H]; by apply idm_lookup in H as [? _]|]. intros H. exists q. by apply idm_lookup. Qed.

Lemma occ_id m q : (forall k v, m !! k = Some v -> v = k) -> is_Some (m !! q) -> occ m q = 1.
Proof.
  intros H [p Hq]. pose proof (H _ _ Hq). subst p.
  rewrite <- (insert_delete m q q Hq). rewrite occ_insert by apply lookup_delete.
  rewrite decide_True by done. assert (occ (delete q m) q = 0); [|lia].
  apply occ_zero. intros k Hk. apply lookup_delete_Some in Hk as [N Hk]. apply H in Hk. congruence.
Qed.

Lemma assign_data l (m : gmap nat (nat * Z)) q :
  foldl (fun m q => emplace q (q, 1) m) m l !! q =
  match m !! q with Some x => Some x | None => if decide (q ∈ l) then Some (q, 1) else None end.
Proof.
  revert m. induction l as [|x l IH]; intros m; simpl.
  - by destruct (m !! q).
  - rewrite IH. unfold emplace. destruct (m !! x) eqn:Hx.
    + destruct (m !! q) eqn:Hq; [done|]. assert (x <> q) by congruence.
      destruct (decide (q ∈ l)); [rewrite decide_True by (by right); done|].
      rewrite decide_False; [done|]. rewrite elem_of_cons. naive_solver.
    + destruct (decide (x = q)) as [->|N].
      * rewrite lookup_insert, Hx. rewrite decide_True by (by left). done.
      * rewrite lookup_insert_ne by done. destruct (m !! q); [done|].
        destruct (decide (q ∈ l)); [rewrite decide_True by (by right); done|].
        rewrite decide_False; [done|]. rewrite elem_of_cons. naive_solver.
Qed.

Definition vec_chain (l : list nat) : chain := mkChain (foldl (fun m q => emplace q (q, 1) m) ∅ l) ∅.
Lemma pm_vec l : pm (vec_chain l) = idm l.
Proof.
  apply map_eq. intros q. unfold pm, vec_chain. simpl. rewrite lookup_fmap, assign_data, lookup_empty.
  destruct (decide (q ∈ l)) as [H|H]; simpl; symmetry.
  - by apply idm_lookup.
  - destruct (idm l !! q) eqn:K; [|done]. apply idm_lookup in K as [? _]. done.
Qed.
Lemma qin_vec l q : qin (vec_chain l) q <-> q ∈ l.
Proof. rewrite <- pm_is_Some, pm_vec. apply idm_in. Qed.
Lemma cwf_vec adj l : cwf ex0 adj (vec_chain l).
Proof.
  split.
  - intros q p r. simpl. rewrite assign_data, lookup_empty. case_decide as H; [|done]. intros [= <- <-].
    rewrite pm_vec, occ_id; [|by intros k v Hk; apply idm_lookup in Hk as [_ ?]|by apply idm_in].
    unfold ex0. rewrite occ_empty. lia.
  - intros x q. simpl. by rewrite lookup_empty.
  - intros q. rewrite pm_vec. intros H. exists q. apply anc_self. apply idm_lookup. split; [|done]. by apply idm_in.
  - intros q p. rewrite pm_vec. intros H. apply idm_lookup in H as [_ ->]. done.
Qed.

Lemma wadd_all_ok d l : forall w, (forall q, q ∈ l -> (q < length w)%nat) ->
  exists w', wadd_all d l w = Ok w' /\ length w' = length w.
Proof.
  induction l as [|q l IH]; intros w Hl; [by exists w|].
  destruct (vadd_ok w q d) as (w1 & E1 & L1 & _); [apply Hl; left|].
  destruct (IH w1) as (w2 & E2 & L2). { intros x Hx. rewrite L1. apply Hl. by right. }
  exists w2. unfold wadd_all in *. simpl. rewrite E1. simpl. split; [done|congruence].
Qed.

(** ** re-parenting in a forest *)
Lemma anc_reparent m q p root x r : m !! q = Some q -> anc m p root -> root <> q -> p <> q ->
  anc m x r -> anc (<[q:=p]> m) x (if decide (r = q) then root else r).
Proof.
  intros Hq Hp Nr Np.
  assert (G : forall x r, anc m x r -> r <> q -> anc (<[q:=p]> m) x r).
  { clear x r; induction 1 as [x H|x y r H N A IH]; intros Nq.
    - apply anc_self. by rewrite lookup_insert_ne.
    - eapply anc_step; [|exact N|by apply IH]. rewrite lookup_insert_ne; [done|].
      intros ->. congruence. }
  intros H. case_decide as D; [|by apply G]. subst r.
  induction H as [x H|x y r H N A IH].
  - eapply anc_step; [apply lookup_insert|done|]. by apply G.
  - destruct (decide (r = x)) as [<-|Nx]; [congruence|].
    eapply anc_step; [|exact N|by apply IH]. by rewrite lookup_insert_ne.
Qed.

Section emb.
Context (pb : problem) (E : nat -> nat -> Prop) (F : fixdom).
Notation adj := (adjq pb).
Notation einv := (einv pb E F).

Lemma adopt_spec c p q root : cwf ex0 adj c -> pm c !! q = Some q -> anc (pm c) p root -> root <> q ->
  adj q p ->
  exists c', adopt c p q = Ok c' /\ cwf ex0 adj c' /\ pm c' = <[q:=p]> (pm c) /\ clinks c' = clinks c.
Proof.
  intros W Hq Hp Nr Ha.
  assert (Np : p <> q).
  { intros ->. pose proof (anc_self (pm c) q Hq). pose proof (anc_fun _ _ _ _ Hp H). done. }
  unfold adopt. destruct (anc_in _ _ _ Hp) as [pp Hpp]. apply pm_lookup in Hpp as [rp Hrp]. rewrite Hrp.
  pose proof Hq as Hq'. apply pm_lookup in Hq' as [rq Hrq]. rewrite Hrq.
  set (c1 := mkChain (<[q:=(p, (rq - 1))]> (cdata c)) (clinks c)).
  assert (P1 : pm c1 = <[q:=p]> (pm c)). { unfold pm, c1. simpl. by rewrite fmap_insert. }
  destruct (add_ref_spec c1 p 1 (fun x => if decide (x = p) then -1 else 0)) as (c' & E' & P' & K' & R').
  { rewrite P1, lookup_insert_ne by done. apply pm_is_Some. by eexists. }
  exists c'. split; [done|].
  assert (O1 : forall x, occ (<[q:=p]> (pm c)) x =
     occ (pm c) x - (if decide (q = x) then 1 else 0) + (if decide (p = x) then 1 else 0)).
  { intros x. rewrite <- (insert_delete_insert (pm c) q p).
    rewrite occ_insert by apply lookup_delete. rewrite (occ_delete _ _ _ _ Hq). done. }
  assert (R1 : refs_ok (fun x => if decide (x = p) then -1 else 0) c1).
  { intros x y r. unfold c1 at 1. simpl. rewrite P1, O1.
    destruct (decide (x = q)) as [->|N].
    - rewrite lookup_insert. intros [= <- <-]. rewrite decide_True by done.
      rewrite (decide_False (P := p = q)) by done. rewrite (decide_False (P := q = p)) by congruence.
      rewrite (cwf_refs _ _ _ W _ _ _ Hrq). unfold ex0. lia.
    - rewrite lookup_insert_ne by done. intros H. rewrite (cwf_refs _ _ _ W _ _ _ H). unfold ex0.
      rewrite (decide_False (P := q = x)) by congruence.
      destruct (decide (p = x)), (decide (x = p)); try congruence; lia. }
  split; [|split; [by rewrite P'|done]].
  rewrite <- P' in P1. split.
  - eapply refs_ok_ext; [|apply R', R1]. intros x. unfold ex0, exat.
    destruct (decide (x = p)); lia.
  - intros x y. rewrite K'. simpl. intros H. rewrite P1. apply lookup_insert_is_Some'. right. by eapply cwf_links.
  - intros x. rewrite P1. intros Hx.
    assert (is_Some (pm c !! x)) as Hx'. { apply lookup_insert_is_Some' in Hx as [<-|?]; eauto. }
    destruct (cwf_anc _ _ _ W x Hx') as [r Hr]. eexists. by eapply anc_reparent.
  - intros x y. rewrite P1, lookup_insert_Some. intros [[<- <-]|[N H]] D; [done|]. by eapply cwf_adj.
Qed.

(** number of self-parented qubits other than the root *)
Definition loose (m : gmap nat nat) (root : nat) : nat := size (filter (fun e => e.1 = e.2 /\ e.1 <> root) m).

Lemma loose_insert m root q p : m !! q = Some q -> p <> q -> root <> q ->
  loose m root = S (loose (<[q:=p]> m) root).
Proof.
  intros Hq Np Nr. unfold loose. rewrite <- (insert_delete m q q Hq) at 1.
  rewrite <- (insert_delete_insert m q p).
  rewrite map_filter_insert_True by (simpl; split; [done|congruence]).
  rewrite map_filter_insert_False by (simpl; intros [? ?]; congruence).
  rewrite map_size_insert_None; [by rewrite delete_idemp|].
  apply map_filter_lookup_None. left. apply lookup_delete.
Qed.

Record adopt_inv (c0 : chain) (root : nat) (c : chain) (stack : list nat) (hits : nat) : Prop := {
  ai_cwf : cwf ex0 adj c;
  ai_links : clinks c = clinks c0;
  ai_dom : forall q, is_Some (pm c !! q) <-> is_Some (pm c0 !! q);
  ai_stack : forall p, p ∈ stack -> anc (pm c) p root;
  ai_count : (hits + length stack + loose (pm c) root = csize c0)%nat;
  ai_size : csize c = csize c0
}.

Lemma size_dom_eq (m m' : gmap nat nat) : (forall q, is_Some (m !! q) <-> is_Some (m' !! q)) -> size m = size m'.
Proof.
  intros H. rewrite <- !(size_dom (D:=gset nat)). f_equal. apply set_eq. intros q. by rewrite !elem_of_dom.
Qed.

Lemma adopt_loop_spec fuel : forall c0 root c stack hits, pb_wf pb ->
  (forall q, qin c0 q -> (q < nq pb + nr pb)%nat) ->
  adopt_inv c0 root c stack hits -> (length stack + loose (pm c) root < fuel)%nat ->
  exists c' hits', adopt_loop fuel pb root c stack hits = Ok (c', hits') /\ adopt_inv c0 root c' [] hits'.
Proof.
  induction fuel as [|fuel IH]; intros c0 root c stack hits PW Hb A Hf; [lia|].
  destruct stack as [|p stack]; [simpl; eauto|]. cbn [adopt_loop].
  assert (Hp : anc (pm c) p root) by (apply (ai_stack _ _ _ _ _ A); left).
  assert (Lp : (p < length (qnb pb))%nat).
  { rewrite (pbw_len _ PW). apply Hb. apply pm_is_Some, (ai_dom _ _ _ _ _ A). by eapply anc_in. }
  destruct (lookup_lt_is_Some_2 _ _ Lp) as [ps Hps]. rewrite (vget_ok _ _ _ Hps). cbn [rbind].
  destruct (foldM_inv (adopt_step root p) (fun _ '(c', st) => adopt_inv c0 root c' st (S hits) /\ anc (pm c') p root)
     ps (c, stack)) as ([c' st] & -> & A' & _).
  - split; [|done]. destruct A as [A1 A2 A3 A4 A5 A6]. split; auto.
    + intros x Hx. apply A4. by right. + simpl in A5. lia.
  - intros dn q rest [c1 st] El [A1 Hp1]. unfold adopt_step.
    assert (Hq : q ∈ ps) by (rewrite El; apply elem_of_app; right; left).
    destruct (Nat.eqb_spec q root) as [->|Nq]; simpl. { by eexists. }
    destruct (ccount c1 q) eqn:Cq; [|by eexists]. apply ccount_true in Cq. destruct Cq as [[pq rq] Dq].
    unfold cparent. rewrite Dq. cbn [rbind].
    destruct (Nat.eqb_spec pq q) as [->|Npq]; [|by eexists].
    assert (Pq : pm c1 !! q = Some q) by (apply pm_lookup; eauto).
    destruct (adopt_spec c1 p q root (ai_cwf _ _ _ _ _ A1) Pq Hp1 (not_eq_sym Nq)) as (c2 & -> & W2 & P2 & K2).
    { right. exists ps. done. }
    cbn [rbind]. eexists; split; [done|].
    assert (Np : p <> q).
    { intros ->. pose proof (anc_fun _ _ _ _ Hp1 (anc_self _ _ Pq)). done. }
    destruct A1 as [B1 B2 B3 B4 B5 B6].
    assert (Mv : forall x r, anc (pm c1) x r -> anc (pm c2) x (if decide (r = q) then root else r)).
    { intros x r Hx. rewrite P2. eapply anc_reparent; eauto. }
    split.
    + split; auto.
      * congruence.
      * intros x. rewrite P2, lookup_insert_is_Some', <- B3. split; [|auto]. intros [<-|?]; eauto.
      * intros x Hx. apply elem_of_cons in Hx as [->|Hx].
        -- specialize (Mv q q (anc_self _ _ Pq)). by rewrite decide_True in Mv.
        -- specialize (Mv x root (B4 x Hx)). by rewrite decide_False in Mv by done.
      * simpl. rewrite (loose_insert _ root q p Pq Np (not_eq_sym Nq)) in B5. rewrite P2. lia.
      * rewrite <- B6, <- !size_pm. apply size_dom_eq. intros x. rewrite P2, lookup_insert_is_Some'.
        split; [intros [<-|?]; eauto|auto].
    + specialize (Mv p root Hp1). by rewrite decide_False in Mv by done.
  - cbn [rbind]. apply IH; auto. pose proof (ai_count _ _ _ _ _ A). pose proof (ai_count _ _ _ _ _ A'). simpl in *. lia.
Qed.

(** ** linkup *)
Definition same_pm (e e' : emb) : Prop :=
  length (chains e') = length (chains e) /\
  forall v c, chains e !! v = Some c -> exists c', chains e' !! v = Some c' /\ pm c' = pm c /\
    clinks c' !! v = clinks c !! v.
Lemma same_pm_refl e : same_pm e e.
Proof. split; [done|]. eauto. Qed.

Lemma linkup_scan_spec cu qs : pb_wf pb -> (forall q, q ∈ qs -> (q < nq pb + nr pb)%nat) ->
  exists r, linkup_scan pb cu qs = Ok r /\ match r with Some (p, q) => qin cu p /\ q ∈ qs /\ nbq pb q p | None => True end.
Proof.
  intros PW. induction qs as [|q qs IH]; intros Hb; [by eexists|]. simpl.
  destruct (lookup_lt_is_Some_2 (qnb pb) q) as [ps Hps]. { rewrite (pbw_len _ PW). apply Hb. left. }
  rewrite (vget_ok _ _ _ Hps). cbn [rbind].
  assert (G : forall l, match find_map (fun p => if ccount cu p then Some (p, q) else None) l with
     | Some (p, q') => qin cu p /\ p ∈ l /\ q' = q | None => True end).
  { induction l as [|p l IHl]; simpl; [done|]. destruct (ccount cu p) eqn:C.
    - apply ccount_true in C. split; [done|]. split; [left|done].
    - destruct (find_map _ l) as [[p' q']|]; [|done]. destruct IHl as (? & ? & ?). split; [done|]. split; [by right|done]. }
  specialize (G ps). destruct (find_map _ ps) as [[p q']|].
  - destruct G as (G1 & G2 & ->). eexists; split; [done|]. cbn. split; [done|]. split; [left|]. by exists ps.
  - destruct IH as (r & -> & Hr). { intros x Hx. apply Hb. by right. }
    exists r. split; [done|]. destruct r as [[p q']|]; [|done]. destruct Hr as (? & ? & ?). split; [done|]. split; [by right|done].
Qed.

Lemma linkup_spec e u v : einv e -> pb_wf pb -> u <> v -> (u < nv pb + nf pb)%nat -> (v < nv pb + nf pb)%nat ->
  (E u v \/ E v u) ->
  exists b e', linkup pb e u v = Ok (b, e') /\ einv e' /\ same_pm e e'.
Proof.
  intros I PW N Lu Lv EE. unfold linkup.
  destruct (ei_get _ _ _ e u I Lu) as [cu Hu]. destruct (ei_get _ _ _ e v I Lv) as [cv Hv].
  rewrite (vget_ok _ _ _ Hu), (vget_ok _ _ _ Hv). cbn [rbind]. unfold get_link.
  assert (Main : clinks cu !! v = None -> clinks cv !! u = None ->
    exists b e', (let! scan := linkup_scan pb cu (cqubits cv) in
      let hit := match scan with
        | Some pq => Some pq
        | None => find_map (fun q => if ccount cv q then Some (q, q) else None) (cqubits cu) end in
      match hit with
      | Some (p, q) =>
          let! e := on_links e u (fun c => set_link c v p) in
          let! e := on_links e v (fun c => set_link c u q) in
          Ok (true, e)
      | None => Ok (false, e)
      end) = Ok (b, e') /\ einv e' /\ same_pm e e').
  { intros K1 K2.
    destruct (linkup_scan_spec cu (cqubits cv) PW) as (r & -> & Hr).
    { intros q Hq. apply cqubits_in in Hq. eapply (ei_below _ _ _ _ I); [exact Hv|]. by apply pm_is_Some. }
    cbn [rbind].
    set (hit := match r with Some pq => Some pq | None => _ end).
    assert (Hh : match hit with Some (p, q) => qin cu p /\ qin cv q /\ (p = q \/ adj p q) | None => True end).
    { subst hit. destruct r as [[p q]|].
      - destruct Hr as (H1 & H2 & H3). split; [done|]. split; [by apply cqubits_in|]. right. by right.
      - clear Hr. assert (G : forall l, (forall x, x ∈ l -> qin cu x) ->
          match find_map (fun q => if ccount cv q then Some (q, q) else None) l with
          | Some (p, q) => qin cu p /\ qin cv q /\ (p = q \/ adj p q) | None => True end).
        { induction l as [|x l IHl]; intros Hl; simpl; [done|]. destruct (ccount cv x) eqn:C.
          - apply ccount_true in C. split; [apply Hl; left|]. split; [done|by left].
          - apply IHl. intros y Hy. apply Hl. by right. }
        apply G. intros x Hx. by apply cqubits_in. }
    clearbody hit. destruct hit as [[p q]|]; [|exists false, e; split; [done|]; split; [done|apply same_pm_refl]].
    destruct Hh as (Hp & Hq & HA).
    destruct (set_link_spec ex0 adj cu v p (ei_cwf _ _ _ _ I _ _ Hu) K1) as (cu' & Eu & Wu & Pu & Ku).
    { by apply pm_is_Some. }
    destruct (set_link_spec ex0 adj cv u q (ei_cwf _ _ _ _ I _ _ Hv) K2) as (cv' & Ev & Wv & Pv & Kv).
    { by apply pm_is_Some. }
    assert (Lu' : (u < length (chains e))%nat) by (by eapply lookup_lt_Some).
    assert (Lv' : (v < length (chains e))%nat) by (by eapply lookup_lt_Some).
    unfold on_links at 1. rewrite (vget_ok _ _ _ Hu). cbn [rbind]. rewrite Eu. cbn [rbind].
    rewrite vset_ok by done. cbn [rbind].
    unfold on_links. simpl. rewrite (vget_ok _ v cv) by (by rewrite list_lookup_insert_ne). cbn [rbind].
    rewrite Ev. cbn [rbind]. rewrite vset_ok by (by rewrite insert_length). cbn [rbind].
    eexists _, _. split; [done|]. fold (set2 (chains e) u v cu' cv'). split.
    - eapply (einv_two pb E F e u v cu cv cu' cv' p q); eauto. split; auto.
      + intros x Hx. apply pm_is_Some in Hx. rewrite Pu in Hx. split; [by eapply (ei_below _ _ _ _ I u)|].
        intros G. eapply (ei_home _ _ _ _ I u); [done| |done]. by apply pm_is_Some.
      + intros x Hx. apply pm_is_Some in Hx. rewrite Pv in Hx. split; [by eapply (ei_below _ _ _ _ I v)|].
        intros G. eapply (ei_home _ _ _ _ I v); [done| |done]. by apply pm_is_Some.
      + intros r'. unfold rooted_at. by rewrite Pu.
      + intros r'. unfold rooted_at. by rewrite Pv.
    - split; [simpl; unfold set2; by rewrite !insert_length|]. simpl. intros a c Ha.
      destruct (decide (a = u)) as [->|Na]; [|destruct (decide (a = v)) as [->|Na']].
      + exists cu'. split; [by apply set2_u|]. assert (c = cu) as -> by congruence. split; [done|].
        by rewrite Ku, lookup_insert_ne.
      + exists cv'. split; [by apply set2_v|]. assert (c = cv) as -> by congruence. split; [done|].
        by rewrite Kv, lookup_insert_ne.
      + exists c. rewrite set2_ne by done. done. }
  destruct (clinks cu !! v) as [x|] eqn:K1.
  - destruct (ei_link _ _ _ _ I _ _ _ _ Hu N K1) as (_ & cv2 & p & Hv2 & Hp & _).
    assert (cv2 = cv) as -> by congruence. rewrite Hp. exists true, e. split; [done|]. split; [done|apply same_pm_refl].
  - destruct (clinks cv !! u) as [x|] eqn:K2; [|by apply Main].
    destruct (ei_link _ _ _ _ I _ _ _ _ Hv (not_eq_sym N) K2) as (_ & cu2 & p & Hu2 & Hp & _).
    congruence.
Qed.

(** ** one initial chain *)
Lemma init_one_spec vn e v C c : einv e -> pb_wf pb -> vn_wf pb vn -> (forall a b, nbr vn a b -> E a b) ->
  (v < nv pb)%nat -> chains e !! v = Some c -> pm c = idm C -> C <> [] -> clinks c !! v = None ->
  exists e', init_one pb vn e (v, C) = Ok e' /\ einv e' /\ length (chains e') = length (chains e) /\
    (forall a ca, chains e !! a = Some ca -> exists ca', chains e' !! a = Some ca' /\
       (a <> v -> pm ca' = pm ca /\ clinks ca' !! a = clinks ca !! a) /\
       (forall q, qin ca' q <-> qin ca q)).
Proof.
  intros I PW VW HE Hv Hc Pc NC Kc. unfold init_one. rewrite (vget_ok _ _ _ Hc). cbn [rbind].
  destruct C as [|root C0]; [done|]. unfold vget at 1. simpl (_ !! _). cbn [rbind].
  set (C := root :: C0) in *.
  assert (Hr : is_Some (pm c !! root)). { rewrite Pc. apply idm_in. left. }
  destruct (set_link_spec ex0 adj c v root (ei_cwf _ _ _ _ I _ _ Hc) Kc Hr) as (c1 & -> & W1 & P1 & K1).
  cbn [rbind].
  assert (Hb : forall q, qin c1 q -> (q < nq pb)%nat).
  { intros q Hq. eapply (ei_bound _ _ _ _ I v c); [done| |done]. apply pm_is_Some. rewrite <- P1. by apply pm_is_Some. }
  assert (Lo : (1 + loose (pm c1) root = csize c1)%nat).
  { rewrite P1, Pc, <- size_pm, P1, Pc. unfold loose.
    assert (Hrr : idm C !! root = Some root). { apply idm_lookup. split; [left|done]. }
    rewrite <- (insert_delete (idm C) root root Hrr).
    rewrite map_filter_insert_False by (simpl; naive_solver).
    rewrite map_size_insert_None by apply lookup_delete. simpl. f_equal.
    rewrite delete_idemp. f_equal. apply map_filter_id. intros k x. rewrite lookup_delete_Some.
    intros [N H]. apply idm_lookup in H as [_ ->]. simpl. naive_solver. }
  destruct (adopt_loop_spec (S (csize c1)) c1 root c1 [root] 0) as (c2 & hits & -> & A2); auto.
  { intros q Hq. apply Hb in Hq. lia. }
  { split; auto; try done. intros p Hp. apply elem_of_list_singleton in Hp. subst p. apply anc_self.
    rewrite P1, Pc. apply idm_lookup. split; [left|done]. }
  { simpl. lia. }
  cbn [rbind].
  destruct A2 as [W2 K2 D2 _ Cn Sz].
  assert (exists c3, (if decide (hits = csize c2) then Ok c2 else let! (_, c) := drop_link c2 v in Ok c) = Ok c3 /\
     cwf ex0 adj c3 /\ pm c3 = pm c2 /\ (forall x, x <> v -> clinks c3 !! x = clinks c !! x) /\
     (forall r, clinks c3 !! v = Some r -> rooted_at c3 r)) as (c3 & -> & W3 & P3 & K3 & R3).
  { case_decide as Hh.
    - exists c2. split; [done|]. split; [done|]. split; [done|]. split.
      + intros x N. rewrite K2, K1. by rewrite lookup_insert_ne.
      + intros r. rewrite K2, K1, lookup_insert. intros [= <-] x Hx.
        destruct (cwf_anc _ _ _ W2 x Hx) as [r Hr']. destruct (decide (r = root)) as [->|Nr]; [done|].
        exfalso. apply anc_root in Hr'. simpl in Cn.
        assert (Z : loose (pm c2) root = 0%nat) by lia. unfold loose in Z. apply map_size_empty_iff in Z.
        assert (Y : filter (λ e : nat * nat, e.1 = e.2 ∧ e.1 ≠ root) (pm c2) !! r = Some r).
        { apply map_filter_lookup_Some. done. }
        rewrite Z in Y. by rewrite lookup_empty in Y.
    - destruct (drop_link_spec ex0 adj c2 v W2) as (c3 & -> & W3 & P3 & K3). cbn [rbind].
      exists c3. split; [done|]. split; [done|]. split; [done|]. split.
      + intros x N. rewrite K3, K2, K1. by rewrite lookup_delete_ne, lookup_insert_ne.
      + intros r. rewrite K3, lookup_delete. done. }
  cbn [rbind]. rewrite vset_ok by (by eapply lookup_lt_Some). cbn [rbind].
  assert (D3 : forall q, qin c3 q <-> qin c q).
  { intros q. by rewrite <- !pm_is_Some, P3, D2, P1. }
  set (e1 := mkEmb (<[v:=c3]> (chains e)) (eweight e) (efrozen e)).
  assert (I1 : einv e1).
  { eapply einv_one; eauto; try lia. intros x Hx. apply D3 in Hx.
    pose proof (ei_home _ _ _ _ I v c x Hc Hx Hv) as Hh. pose proof Hh as [? _]. split; [lia|done]. }
  destruct (lookup_lt_is_Some_2 vn v) as [l Hl]. { rewrite (vnw_len _ _ VW). lia. }
  rewrite (vget_ok _ _ _ Hl). cbn [rbind].
  destruct (foldM_inv (fun e u => if decide (v < u)%nat then let! (_, e) := linkup pb e v u in Ok e else Ok e)
    (fun _ e' => einv e' /\ same_pm e1 e') l e1) as (e2 & -> & I2 & S2).
  - split; [done|]. apply same_pm_refl.
  - intros dn u rest e' El [I' S']. case_decide as Hlt; [|by eexists].
    assert (Hu : nbr vn v u). { exists l. split; [done|]. rewrite El. apply elem_of_app. right; left. }
    pose proof (vnw_range _ _ VW _ _ Hu). pose proof (vnw_loop _ _ VW _ _ Hu).
    destruct (linkup_spec e' v u I' PW) as (b & e2 & -> & I2 & S2); auto; try lia.
    cbn [rbind]. eexists; split; [done|]. split; [done|]. destruct S' as [L' S'], S2 as [L2 S2].
    split; [congruence|]. intros a ca Ha. destruct (S' a ca Ha) as (ca' & Ha' & Pa & Ka).
    destruct (S2 a ca' Ha') as (ca2 & Ha2 & Pa2 & Ka2). exists ca2. split; [done|]. split; congruence.
  - exists e2. split; [done|]. split; [done|]. destruct S2 as [L2 S2]. split.
    { rewrite L2. simpl. apply insert_length. }
    intros a ca Ha. destruct (decide (a = v)) as [->|Na].
    + destruct (S2 v c3) as (ca' & Ha' & Pa & _). { simpl. apply list_lookup_insert. by eapply lookup_lt_Some. }
      exists ca'. split; [done|]. split; [done|]. intros q. assert (ca = c) as -> by congruence.
      rewrite <- D3, <- !pm_is_Some. by rewrite Pa.
    + destruct (S2 a ca) as (ca' & Ha' & Pa & Ka). { simpl. by rewrite list_lookup_insert_ne. }
      exists ca'. split; [done|]. split; [done|]. intros q. by rewrite <- !pm_is_Some, Pa.
Qed.

(** ** the constructor *)
Record init_pre (fixed initial : list (nat * list nat)) : Prop := {
  ip_fnd : NoDup fixed.*1;
  ip_ind : NoDup initial.*1;
  ip_fkeys : forall v C, (v, C) ∈ fixed -> (nv pb <= v < nv pb + nf pb)%nat /\
     (forall q, q ∈ C -> (q < nq pb + nr pb)%nat) /\ F v = idm C;
  ip_fall : forall v, (nv pb <= v < nv pb + nf pb)%nat -> v ∈ fixed.*1;
  ip_ikeys : forall v C, (v, C) ∈ initial -> (v < nv pb)%nat /\ C <> [] /\ forall q, q ∈ C -> home pb F v q;
  ip_area : forall v q, (v < nv pb)%nat -> (q < nq pb)%nat -> reachable pb E v q -> fd_dom F v q
}.

Lemma set_chain_spec e v C c : chains e !! v = Some c -> below c (length (eweight e)) ->
  (forall q, q ∈ C -> (q < length (eweight e))%nat) ->
  exists w, set_chain e v C = Ok (mkEmb (<[v:=vec_chain C]> (chains e)) w (efrozen e)) /\
    length w = length (eweight e).
Proof.
  intros Hc Hb HC. unfold set_chain, on_chain. rewrite (vget_ok _ _ _ Hc). cbn [rbind]. unfold assign_vec, clear.
  destruct (wadd_chain_spec (-1) c (eweight e) Hb) as (w1 & -> & L1 & _). cbn [rbind].
  destruct (wadd_all_ok 1 C w1) as (w2 & -> & L2). { intros q Hq. rewrite L1. by apply HC. }
  cbn [rbind]. rewrite vset_ok by (by eapply lookup_lt_Some). cbn [rbind].
  exists w2. split; [done|congruence].
Qed.

(** state after assigning the chains listed in [fx]: those and nothing else *)
Definition assigned (done : list (nat * list nat)) (e : emb) : Prop :=
  length (chains e) = (nv pb + nf pb)%nat /\ length (eweight e) = (nq pb + nr pb)%nat /\
  (forall v C, (v, C) ∈ done -> chains e !! v = Some (vec_chain C)) /\
  (forall v, v ∉ done.*1 -> (v < nv pb + nf pb)%nat -> chains e !! v = Some empty_chain).

Lemma assign_loop (l done : list (nat * list nat)) e : assigned done e -> NoDup (done ++ l).*1 ->
  (forall v C, (v, C) ∈ done ++ l -> (v < nv pb + nf pb)%nat /\ forall q, q ∈ C -> (q < nq pb + nr pb)%nat) ->
  exists e', foldM (fun e '(v, C) => set_chain e v C) l e = Ok e' /\ assigned (done ++ l) e'.
Proof.
  revert done e. induction l as [|[v C] l IH]; intros dn e A ND Hk.
  { exists e. rewrite app_nil_r. done. }
  destruct A as (L1 & L2 & A1 & A2).
  assert (Hvd : v ∉ dn.*1).
  { rewrite fmap_app in ND. apply NoDup_app in ND as (_ & ND & _). intros H. apply (ND v H). simpl. left. }
  destruct (Hk v C) as [Lv HC]. { apply elem_of_app. right; left. }
  destruct (set_chain_spec e v C empty_chain) as (w & Ew & Lw).
  { by apply A2. } { intros q. rewrite pm_empty, lookup_empty. by intros [? ?]. } { rewrite L2. done. }
  cbn [foldM]. rewrite Ew. cbn [rbind].
  destruct (IH (dn ++ [(v, C)]) (mkEmb (<[v:=vec_chain C]> (chains e)) w (efrozen e))) as (e' & E' & A').
  - split; [by simpl; rewrite insert_length|]. split; [simpl; congruence|]. simpl. split.
    + intros v' C' Hin. apply elem_of_app in Hin as [Hin|Hin].
      * rewrite list_lookup_insert_ne; [by apply A1|]. intros <-. apply Hvd. apply elem_of_list_fmap. by exists (v, C').
      * apply elem_of_list_singleton in Hin. injection Hin as -> ->. apply list_lookup_insert. by rewrite L1.
    + intros v' Hn Lv'. rewrite fmap_app, not_elem_of_app in Hn. destruct Hn as [Hn Hn'].
      rewrite list_lookup_insert_ne; [by apply A2|]. intros ->. apply Hn'. simpl. left.
  - by rewrite <- app_assoc.
  - by rewrite <- app_assoc.
  - exists e'. rewrite <- app_assoc in A'. done.
Qed.

Lemma assigned_einv fixed initial e : init_pre fixed initial -> assigned (fixed ++ initial) e -> einv e.
Proof.
  intros IP (L1 & L2 & A1 & A2).
  assert (cases : forall v c, chains e !! v = Some c -> c = empty_chain \/
     exists C, (v, C) ∈ fixed ++ initial /\ c = vec_chain C).
  { intros v c Hc. destruct (decide (v ∈ (fixed ++ initial).*1)) as [Hin|Hn].
    - right. apply elem_of_list_fmap in Hin as ([v' C] & -> & Hin). exists C. split; [done|].
      pose proof (A1 _ _ Hin). simpl in *. congruence.
    - left. pose proof (A2 v Hn). apply lookup_lt_Some in Hc as Lv. rewrite L1 in Lv. specialize (H Lv). congruence. }
  assert (nolink : forall v c x, chains e !! v = Some c -> clinks c !! x = None).
  { intros v c x Hc. destruct (cases v c Hc) as [->|(C & _ & ->)]; done. }
  split; auto.
  - intros v c Hc. destruct (cases v c Hc) as [->|(C & _ & ->)]; [apply cwf_empty|apply cwf_vec].
  - intros v c q Hc Hq Hv. destruct (cases v c Hc) as [->|(C & Hin & ->)]; [by destruct Hq|].
    apply qin_vec in Hq. apply elem_of_app in Hin as [Hin|Hin].
    + apply (ip_fkeys _ _ IP) in Hin as [? _]. lia.
    + apply (ip_ikeys _ _ IP) in Hin as (_ & _ & H). by apply H.
  - intros v c Hc q Hq. apply pm_is_Some in Hq. destruct (cases v c Hc) as [->|(C & Hin & ->)]; [by destruct Hq|].
    apply qin_vec in Hq. apply elem_of_app in Hin as [Hin|Hin].
    + apply (ip_fkeys _ _ IP) in Hin as (_ & H & _). by apply H.
    + apply (ip_ikeys _ _ IP) in Hin as (_ & _ & H). apply H in Hq as [? _]. lia.
  - intros u v cu q Hc _ Hl. by rewrite (nolink u) in Hl.
  - intros u cu r Hc Hl. by rewrite (nolink u) in Hl.
  - intros v c Hc Hv. apply lookup_lt_Some in Hc as Lv. rewrite L1 in Lv.
    assert (Hin : v ∈ fixed.*1) by (by apply (ip_fall _ _ IP)).
    apply elem_of_list_fmap in Hin as ([v' C] & -> & Hin). simpl in *.
    destruct (ip_fkeys _ _ IP _ _ Hin) as (_ & _ & ->).
    rewrite (A1 v' C) in Hc by (apply elem_of_app; by left). injection Hc as <-. apply pm_vec.
  - apply IP.
Qed.

Lemma emb_init_spec vn fixed initial : pb_wf pb -> vn_wf pb vn -> (forall a b, nbr vn a b -> E a b) ->
  init_pre fixed initial ->
  exists e, emb_init pb vn fixed initial = Ok e /\ einv e /\
    (forall v C, (v, C) ∈ fixed ++ initial -> exists c, chains e !! v = Some c /\ forall q, qin c q <-> q ∈ C) /\
    (forall v, v ∉ (fixed ++ initial).*1 -> (v < nv pb + nf pb)%nat ->
        exists c, chains e !! v = Some c /\ csize c = 0%nat).
Proof.
  intros PW VW HE IP. unfold emb_init.
  assert (A0 : assigned [] (emb_new pb)).
  { split; [by simpl; rewrite replicate_length|]. split; [by simpl; rewrite replicate_length|]. split.
    - intros v C H. by apply elem_of_nil in H.
    - intros v _ Lv. simpl. by apply lookup_replicate_2. }
  destruct (assign_loop fixed [] (emb_new pb) A0) as (e1 & -> & A1).
  { apply (ip_fnd _ _ IP). }
  { intros v C H. simpl in H. destruct (ip_fkeys _ _ IP _ _ H) as (? & ? & _). split; [lia|done]. }
  cbn [rbind]. simpl in A1.
  assert (NDa : NoDup (fixed ++ initial).*1).
  { rewrite fmap_app. apply NoDup_app. split; [apply (ip_fnd _ _ IP)|]. split; [|apply (ip_ind _ _ IP)].
    intros v H1 H2. apply elem_of_list_fmap in H1 as ([v1 C1] & -> & H1). apply elem_of_list_fmap in H2 as ([v2 C2] & Ev & H2).
    simpl in Ev. subst v2. apply (ip_fkeys _ _ IP) in H1 as [H1 _]. apply (ip_ikeys _ _ IP) in H2 as [H2 _]. simpl in *. lia. }
  assert (Ef : forall s, foldM (fun e '(v, C) => if fixedb pb v then Ok e else set_chain e v C) initial s =
               foldM (fun e '(v, C) => set_chain e v C) initial s).
  { intros s. assert (G : forall l, (forall v C, (v, C) ∈ l -> (v < nv pb)%nat) -> forall s,
       foldM (fun e '(v, C) => if fixedb pb v then Ok e else set_chain e v C) l s =
       foldM (fun e '(v, C) => set_chain e v C) l s).
    { induction l as [|[v C] l IH]; intros Hl s'; [done|]. cbn [foldM]. unfold fixedb at 1.
      pose proof (Hl v C ltac:(left)). destruct (Nat.leb_spec (nv pb) v); [lia|].
      destruct (set_chain s' v C); cbn [rbind]; [|done]. apply IH. intros v' C' H'. apply (Hl v' C'). by right. }
    apply G. intros v C Hin. by apply (ip_ikeys _ _ IP) in Hin as [? _]. }
  rewrite Ef.
  destruct (assign_loop initial fixed e1 A1 NDa) as (e2 & -> & A2).
  { intros v C H. apply elem_of_app in H as [H|H].
    - destruct (ip_fkeys _ _ IP _ _ H) as (? & ? & _). split; [lia|done].
    - destruct (ip_ikeys _ _ IP _ _ H) as (? & _ & Hq). split; [lia|]. intros q Hin. apply Hq in Hin as [? _]. lia. }
  cbn [rbind].
  pose proof (assigned_einv _ _ _ IP A2) as I2.
  destruct A2 as (L1 & L2 & B1 & B2).
  destruct (foldM_inv (init_one pb vn) (fun dn e => einv e /\
     (forall v c2, chains e2 !! v = Some c2 -> exists c, chains e !! v = Some c /\ (forall q, qin c q <-> qin c2 q) /\
        (v ∉ dn.*1 -> pm c = pm c2 /\ clinks c !! v = clinks c2 !! v))) initial e2) as (e & -> & Ie & He).
  - split; [done|]. intros v c Hc. exists c. done.
  - intros dn [v C] rest e El [Ie He].
    assert (Hin : (v, C) ∈ initial) by (rewrite El; apply elem_of_app; right; left).
    assert (Hvd : v ∉ dn.*1).
    { pose proof (ip_ind _ _ IP) as ND. rewrite El, fmap_app in ND. apply NoDup_app in ND as (_ & ND & _).
      intros H. apply (ND v H). simpl. left. }
    destruct (ip_ikeys _ _ IP _ _ Hin) as (Lv & NC & HC).
    assert (H2 : chains e2 !! v = Some (vec_chain C)) by (apply B1, elem_of_app; by right).
    destruct (He v _ H2) as (c & Hc & _ & Hd). destruct (Hd Hvd) as [Pc Kc].
    rewrite pm_vec in Pc. simpl in Kc.
    destruct (init_one_spec vn e v C c) as (e' & -> & I' & L' & H'); auto.
    eexists; split; [done|]. split; [done|]. intros a ca Ha.
    destruct (He a ca Ha) as (ca1 & Ha1 & Q1 & D1). destruct (H' a ca1 Ha1) as (ca2 & Ha2 & D2 & Q2).
    exists ca2. split; [done|]. split. { intros q. by rewrite Q2, Q1. }
    rewrite fmap_app, not_elem_of_app. intros [Hn Hn']. destruct (D1 Hn) as [P1' K1'].
    destruct D2 as [P2' K2']. { intros ->. apply Hn'. simpl. left. }
    split; congruence.
  - exists e. split; [done|]. split; [done|]. split.
    + intros v C Hin. destruct (He v _ (B1 v C Hin)) as (c & Hc & Q & _). exists c. split; [done|].
      intros q. rewrite Q. apply qin_vec.
    + intros v Hn Lv. destruct (He v _ (B2 v Hn Lv)) as (c & Hc & Q & _). exists c. split; [done|].
      apply csize_0. apply map_empty. intros q. destruct (pm c !! q) eqn:K; [|done].
      assert (qin c q) as Hq by (apply pm_is_Some; by eexists). apply Q in Hq. by destruct Hq.
Qed.
End emb.
