(** What the constructor links: every connected initial chain is rooted, every two touching
    chains are linked. *)
From stdpp Require Import base list numbers gmap relations.
From Verif Require Import Base ChainModel ChainProofs ChainProofs2 EmbModel Spec SpecEmb EmbProofs EmbProofs2 EmbProofs3 EmbProofs4 EmbProofs5 EmbProofs6 EmbOps EmbProofs7.

Section emb.
Context (pb : problem) (E : nat -> nat -> Prop) (F : fixdom).
Notation adj := (adjq pb).
Notation einv := (einv pb E F).

(** the popped qubits have handed their root to all their neighbours in the chain *)
Record spread (root : nat) (c : chain) (stack : list nat) (skip : nat -> Prop) : Prop := {
  sp_iso : forall x r, anc (pm c) x r -> r = root \/ x = r;
  sp_closed : forall x y, anc (pm c) x root -> x ∉ stack -> ~ skip x -> nbq pb x y -> qin c y -> anc (pm c) y root
}.

Lemma adopt_loop_spread fuel : forall c0 root c stack hits, pb_wf pb ->
  (forall q, qin c0 q -> (q < nq pb + nr pb)%nat) ->
  adopt_inv pb c0 root c stack hits -> spread root c stack (fun _ => False) -> (length stack + loose (pm c) root < fuel)%nat ->
  exists c' hits', adopt_loop fuel pb root c stack hits = Ok (c', hits') /\ adopt_inv pb c0 root c' [] hits' /\
    spread root c' [] (fun _ => False).
Proof.
  induction fuel as [|fuel IH]; intros c0 root c stack hits PW Hb A Sp Hf; [lia|].
  destruct stack as [|p stack]; [simpl; eauto 6|]. cbn [adopt_loop].
  assert (Hp : anc (pm c) p root) by (apply (ai_stack _ _ _ _ _ _ A); left).
  assert (Lp : (p < length (qnb pb))%nat).
  { rewrite (pbw_len _ PW). apply Hb. apply pm_is_Some, (ai_dom _ _ _ _ _ _ A). by eapply anc_in. }
  destruct (lookup_lt_is_Some_2 _ _ Lp) as [ps Hps]. rewrite (vget_ok _ _ _ Hps). cbn [rbind].
  destruct (foldM_inv (adopt_step root p) (fun dn '(c', st) => adopt_inv pb c0 root c' st (S hits) /\ anc (pm c') p root /\
      spread root c' st (eq p) /\ forall y, y ∈ dn -> qin c' y -> anc (pm c') y root)
     ps (c, stack)) as ([c' st] & -> & A' & Hp' & Sp' & Hd').
  - split; [|split; [done|]]; [|split].
    + destruct A as [A1 A2 A3 A4 A5 A6]. split; auto.
      * intros x Hx. apply A4. by right. * simpl in A5. lia.
    + destruct Sp as [S1 S2]. split; [done|]. intros x y Hx Nx Np. apply S2; [done| |tauto].
      apply not_elem_of_cons. split; [congruence|done].
    + intros y Hy. by apply elem_of_nil in Hy.
  - intros dn q rest [c1 st] El (A1 & Hp1 & Sp1 & Hd1). unfold adopt_step.
    assert (Hq : q ∈ ps) by (rewrite El; apply elem_of_app; right; left).
    assert (Skip : (qin c1 q -> anc (pm c1) q root) -> adopt_inv pb c0 root c1 st (S hits) /\ anc (pm c1) p root /\
      spread root c1 st (eq p) /\ forall y, y ∈ dn ++ [q] -> qin c1 y -> anc (pm c1) y root).
    { intros G. split; [done|]. split; [done|]. split; [done|]. intros y [Hy| ->%elem_of_list_singleton]%elem_of_app; auto. }
    destruct (Nat.eqb_spec q root) as [->|Nq]; simpl.
    { eexists; split; [done|]. apply Skip. intros _. apply anc_self. by eapply anc_root. }
    destruct (ccount c1 q) eqn:Cq.
    2: { eexists; split; [done|]. apply Skip. intros Z. apply ccount_true in Z. congruence. }
    apply ccount_true in Cq. pose proof Cq as Qq. destruct Cq as [[pq rq] Dq].
    unfold cparent. rewrite Dq. cbn [rbind].
    destruct (Nat.eqb_spec pq q) as [->|Npq].
    2: { eexists; split; [done|]. apply Skip. intros _.
         destruct (cwf_anc _ _ _ (ai_cwf _ _ _ _ _ _ A1) q) as [r Hr]; [by apply pm_is_Some|].
         destruct (sp_iso _ _ _ _ Sp1 _ _ Hr) as [->|<-]; [done|]. apply anc_root in Hr.
         apply pm_lookup in Hr as [? Hr]. congruence. }
    assert (Pq : pm c1 !! q = Some q) by (apply pm_lookup; eauto).
    destruct (adopt_spec pb c1 p q root (ai_cwf _ _ _ _ _ _ A1) Pq Hp1 (not_eq_sym Nq)) as (c2 & -> & W2 & P2 & K2).
    { right. exists ps. done. }
    cbn [rbind]. eexists; split; [done|].
    assert (Np : p <> q).
    { intros ->. pose proof (anc_fun _ _ _ _ Hp1 (anc_self _ _ Pq)). done. }
    pose proof A1 as [B1 B2 B3 B4 B5 B6].
    assert (Mv : forall x r, anc (pm c1) x r -> anc (pm c2) x (if decide (r = q) then root else r)).
    { intros x r Hx. rewrite P2. eapply anc_reparent; eauto. }
    assert (Dom : forall x, is_Some (pm c2 !! x) <-> is_Some (pm c1 !! x)).
    { intros x. rewrite P2, lookup_insert_is_Some'. split; [intros [<-|?]; eauto|auto]. }
    assert (Mr : forall x, anc (pm c1) x root -> anc (pm c2) x root).
    { intros x Hx. specialize (Mv x root Hx). by rewrite decide_False in Mv by done. }
    split; [|split; [by apply Mr|split]].
    + split; auto.
      * congruence.
      * intros x. by rewrite Dom.
      * intros x Hx. apply elem_of_cons in Hx as [->|Hx].
        -- specialize (Mv q q (anc_self _ _ Pq)). by rewrite decide_True in Mv.
        -- auto.
      * simpl. rewrite (loose_insert _ root q p Pq Np (not_eq_sym Nq)) in B5. rewrite P2. lia.
      * rewrite <- B6, <- !size_pm. apply size_dom_eq. done.
    + split.
      * intros x r Hx. destruct (cwf_anc _ _ _ B1 x) as [r1 Hr1]; [apply Dom; by eapply anc_in|].
        pose proof (anc_fun _ _ _ _ Hx (Mv x r1 Hr1)) as ->. case_decide; [by left|]. by apply (sp_iso _ _ _ _ Sp1).
      * intros x y Hx Nx Npx Hxy Qy. apply not_elem_of_cons in Nx as [Nxq Nx].
        destruct (cwf_anc _ _ _ B1 x) as [r1 Hr1]; [apply Dom; by eapply anc_in|].
        pose proof (anc_fun _ _ _ _ Hx (Mv x r1 Hr1)) as Er. case_decide as Hd.
        -- subst r1. destruct (sp_iso _ _ _ _ Sp1 _ _ Hr1); congruence.
        -- subst r1. apply Mr. apply (sp_closed _ _ _ _ Sp1 x y); auto. apply pm_is_Some, Dom, pm_is_Some, Qy.
    + intros y [Hy| ->%elem_of_list_singleton]%elem_of_app Qy.
      * apply Mr, Hd1; [done|]. apply pm_is_Some, Dom, pm_is_Some, Qy.
      * specialize (Mv q q (anc_self _ _ Pq)). by rewrite decide_True in Mv.
  - cbn [rbind]. apply IH; auto.
    + destruct Sp' as [S1 S2]. split; [done|]. intros x y Hx Nx _ Hxy Qy. destruct (decide (x = p)) as [->|N].
      * apply Hd'; [|done]. destruct Hxy as (ps' & Hps' & Hy). congruence.
      * apply (S2 x y); auto.
    + pose proof (ai_count _ _ _ _ _ _ A). pose proof (ai_count _ _ _ _ _ _ A'). simpl in *. lia.
Qed.

Lemma find_map_None {A B} (f : A -> option B) l x : find_map f l = None -> x ∈ l -> f x = None.
Proof.
  induction l as [|y l IH]; simpl; [by intros _ ?%elem_of_nil|]. destruct (f y) eqn:Ey; [done|].
  intros H [->|?]%elem_of_cons; auto.
Qed.
Lemma linkup_scan_None cu qs p q : linkup_scan pb cu qs = Ok None -> q ∈ qs -> nbq pb q p -> ~ qin cu p.
Proof.
  induction qs as [|q' qs IH]; [by intros _ ?%elem_of_nil|]. simpl.
  destruct (vget (qnb pb) q') as [ps|] eqn:Ev; cbn [rbind]; [|done].
  destruct (find_map _ ps) eqn:Ef; [done|]. intros H [->|Hq]%elem_of_cons Hn; [|auto].
  destruct Hn as (ps' & Hps & Hp). apply vget_inv in Ev. assert (ps' = ps) as -> by congruence.
  pose proof (find_map_None _ _ _ Ef Hp) as Z. simpl in Z. destruct (ccount cu p) eqn:C; [done|].
  intros Q. apply ccount_true in Q. congruence.
Qed.

(** links are kept, except the own link of [x] *)
Definition links_kept (x : option nat) (e e' : emb) : Prop :=
  forall a b, (Some a = x -> a <> b) -> linkedto e a b -> linkedto e' a b.
Lemma links_kept_trans e e' e'' : links_kept None e e' -> links_kept None e' e'' -> links_kept None e e''.
Proof. intros H H' a b G L. apply H'; [done|]. by apply H. Qed.

Lemma linkup_complete e u v : einv e -> pb_wf pb -> u <> v -> (u < nv pb)%nat -> (v < nv pb + nf pb)%nat ->
  (E u v \/ E v u) ->
  exists b e', linkup pb e u v = Ok (b, e') /\ links_kept None e e' /\
    (touching adj (in_chain e) u v -> linkedto e' u v).
Proof.
  intros I PW N Lu0 Lv EE. assert (Lu : (u < nv pb + nf pb)%nat) by lia.
  destruct (linkup_spec pb E F e u v I PW N Lu Lv EE) as (b & e' & El & I' & _).
  exists b, e'. split; [done|]. revert El. unfold linkup.
  destruct (ei_get _ _ _ e u I Lu) as [cu Hu]. destruct (ei_get _ _ _ e v I Lv) as [cv Hv].
  rewrite (vget_ok _ _ _ Hu), (vget_ok _ _ _ Hv). cbn [rbind]. unfold get_link.
  assert (Main : (let! scan := linkup_scan pb cu (cqubits cv) in
      let hit := match scan with
        | Some pq => Some pq
        | None => find_map (fun q => if ccount cv q then Some (q, q) else None) (cqubits cu) end in
      match hit with
      | Some (p, q) =>
          let! e := on_links e u (fun c => set_link c v p) in
          let! e := on_links e v (fun c => set_link c u q) in
          Ok (true, e)
      | None => Ok (false, e)
      end) = Ok (b, e') -> links_kept None e e' /\ (touching adj (in_chain e) u v -> linkedto e' u v)).
  { destruct (linkup_scan pb cu (cqubits cv)) as [r|] eqn:Es; cbn [rbind]; [|done].
    set (hit := match r with Some pq => Some pq | None => _ end).
    assert (Hh : hit = None -> ~ touching adj (in_chain e) u v).
    { subst hit. destruct r as [pq|]; [done|]. intros Hf (p & q & Hp & Hq & Hpq).
      apply (in_chain_qin _ _ _ _ Hu) in Hp. apply (in_chain_qin _ _ _ _ Hv) in Hq.
      destruct Hpq as [->|Ha].
      - pose proof (find_map_None _ _ q Hf) as Z. simpl in Z. rewrite (proj2 (ccount_true cv q) Hq) in Z.
        by discriminate Z; apply cqubits_in.
      - eapply (linkup_scan_None cu (cqubits cv) p q Es); [by apply cqubits_in| |done].
        destruct Ha as [Ha|Ha]; [|done]. apply (pbw_sym _ PW); [|done]. by eapply (ei_bound _ _ _ _ I u). }
    clearbody hit. destruct hit as [[p q]|]; cbv beta zeta.
    2: { intros [= <- <-]. split; [by intros a b' _|]. intros T. by destruct (Hh eq_refl). }
    unfold on_links at 1. rewrite (vget_ok _ _ _ Hu). cbn [rbind].
    unfold set_link at 1. destruct (add_ref (mkChain (cdata cu) (<[v:=p]> (clinks cu))) p 1) as [c1|] eqn:E1; cbn [rbind]; [|done].
    rewrite vset_ok by (by eapply lookup_lt_Some). cbn [rbind].
    unfold on_links. simpl. rewrite (vget_ok _ v cv) by (by rewrite list_lookup_insert_ne). cbn [rbind].
    unfold set_link. destruct (add_ref (mkChain (cdata cv) (<[u:=q]> (clinks cv))) q 1) as [c2|] eqn:E2; cbn [rbind]; [|done].
    rewrite vset_ok by (rewrite insert_length; by eapply lookup_lt_Some). cbn [rbind]. intros [= <- <-].
    assert (K1 : clinks c1 = <[v:=p]> (clinks cu)). { unfold add_ref in E1. simpl in E1. destruct (cdata cu !! p) as [[? ?]|]; [|done]. by injection E1 as <-. }
    assert (K2 : clinks c2 = <[u:=q]> (clinks cv)). { unfold add_ref in E2. simpl in E2. destruct (cdata cv !! q) as [[? ?]|]; [|done]. by injection E2 as <-. }
    assert (Hins : forall k x (m : gmap nat nat) y, is_Some (m !! y) -> is_Some (<[k:=x]> m !! y)).
    { intros k x m y Hy. apply lookup_insert_is_Some'. by right. }
    assert (Hnew : forall k x (m : gmap nat nat), is_Some (<[k:=x]> m !! k)).
    { intros k x m. apply lookup_insert_is_Some'. by left. }
    assert (LU : (u < length (chains e))%nat) by by eapply lookup_lt_Some.
    assert (LV : (v < length (chains e))%nat) by by eapply lookup_lt_Some.
    split.
    - intros a b' _ (c & Hc & HL). unfold linkedto. simpl. destruct (decide (a = v)) as [->|Na].
      + eexists. split; [apply list_lookup_insert; by rewrite insert_length|]. simpl. assert (c = cv) as -> by congruence. rewrite K2. by apply Hins.
      + rewrite list_lookup_insert_ne by done. destruct (decide (a = u)) as [->|Na'].
        * eexists. split; [by apply list_lookup_insert|]. simpl. assert (c = cu) as -> by congruence. rewrite K1. by apply Hins.
        * rewrite list_lookup_insert_ne by done. by exists c.
    - intros _. unfold linkedto. simpl. rewrite list_lookup_insert_ne by done. eexists. split; [by apply list_lookup_insert|]. simpl. rewrite K1. apply Hnew. }
  assert (Keep : links_kept None e e) by by intros a b' _.
  destruct (clinks cu !! v) as [x|] eqn:K1; [|exact Main].
  destruct (clinks cv !! u) as [y|] eqn:K2; [|exact Main].
  intros [= <- <-]. split; [done|]. intros _. exists cu. rewrite K1. eauto.
Qed.

Lemma connected_nbq c root : pb_wf pb -> (forall q, qin c q -> (q < nq pb)%nat) ->
  spread root c [] (fun _ => False) -> anc (pm c) root root -> connected_in adj (qin c) -> forall q, qin c q -> anc (pm c) q root.
Proof.
  intros PW Hb [_ Sc] Hr Cn q Hq.
  assert (Qr : qin c root) by (apply pm_is_Some; by eapply anc_in).
  specialize (Cn root q Qr Hq). clear Qr Hq.
  assert (G : forall x, anc (pm c) x root -> rtc (fun x y => adj x y /\ qin c x /\ qin c y) x q -> anc (pm c) q root).
  { clear Cn. intros x Hx H. induction H as [|x y z (Ha & Q1 & Q2) H IH]; [done|]. apply IH.
    apply (Sc x y); [done|by apply not_elem_of_nil|tauto| |done].
    destruct Ha as [Ha|Ha]; [done|]. apply (pbw_sym _ PW); [by apply Hb|done]. }
  by eapply G.
Qed.

Lemma init_one_complete vn e v C c : einv e -> pb_wf pb -> vn_wf pb vn -> (forall a b, nbr vn a b -> E a b) ->
  (v < nv pb)%nat -> chains e !! v = Some c -> pm c = idm C -> C <> [] -> clinks c !! v = None ->
  exists e', init_one pb vn e (v, C) = Ok e' /\ links_kept (Some v) e e' /\
    (connected_in adj (qin c) -> linkedto e' v v) /\
    (forall u, nbr vn v u -> (v < u)%nat -> touching adj (in_chain e) v u -> linkedto e' v u).
Proof.
  intros I PW VW HE Hv Hc Pc NC Kc.
  destruct (init_one_spec pb E F vn e v C c I PW VW HE Hv Hc Pc NC Kc) as (ex & Hex & Iex & _ & Qex).
  unfold init_one in Hex |- *. rewrite (vget_ok _ _ _ Hc) in Hex |- *. cbn [rbind] in Hex |- *.
  destruct C as [|root C0]; [done|]. unfold vget at 1. simpl (_ !! _). cbn [rbind]. clear Hex Iex Qex ex.
  set (C := root :: C0) in *.
  assert (Hr : is_Some (pm c !! root)). { rewrite Pc. apply idm_in. left. }
  destruct (set_link_spec ex0 adj c v root (ei_cwf _ _ _ _ I _ _ Hc) Kc Hr) as (c1 & -> & W1 & P1 & K1).
  cbn [rbind].
  assert (Hb : forall q, qin c1 q -> (q < nq pb)%nat).
  { intros q Hq. eapply (ei_bound _ _ _ _ I v c); [done| |done]. apply pm_is_Some. rewrite <- P1. by apply pm_is_Some. }
  assert (Hrr : idm C !! root = Some root). { apply idm_lookup. split; [left|done]. }
  assert (Lo : (1 + loose (pm c1) root = csize c1)%nat).
  { rewrite P1, Pc, <- size_pm, P1, Pc. unfold loose.
    rewrite <- (insert_delete (idm C) root root Hrr).
    rewrite map_filter_insert_False by (simpl; naive_solver).
    rewrite map_size_insert_None by apply lookup_delete. simpl. f_equal.
    rewrite delete_idemp. f_equal. apply map_filter_id. intros k x. rewrite lookup_delete_Some.
    intros [N H]. apply idm_lookup in H as [_ ->]. simpl. naive_solver. }
  assert (Self : forall x y, pm c1 !! x = Some y -> x = y).
  { intros x y. rewrite P1, Pc. intros [_ ->]%idm_lookup. done. }
  destruct (adopt_loop_spread (S (csize c1)) c1 root c1 [root] 0) as (c2 & hits & -> & A2 & Sp); auto.
  { intros q Hq. apply Hb in Hq. lia. }
  { split; auto; try done. intros p Hp. apply elem_of_list_singleton in Hp. subst p. apply anc_self. by rewrite P1, Pc. }
  { assert (An : forall x r, anc (pm c1) x r -> x = r).
    { intros x r H. induction H as [|x y r H1 H2 IH]; [done|]. apply Self in H1. congruence. }
    split; [intros x r H; right; by apply An|]. intros x y Hx Nx. apply An in Hx. subst x. set_solver. }
  { simpl. lia. }
  cbn [rbind].
  destruct A2 as [W2 K2 D2 _ Cn Sz].
  assert (exists c3, (if decide (hits = csize c2) then Ok c2 else let! (_, c) := drop_link c2 v in Ok c) = Ok c3 /\
     cwf ex0 adj c3 /\ pm c3 = pm c2 /\ (forall x, x <> v -> clinks c3 !! x = clinks c !! x) /\
     (forall r, clinks c3 !! v = Some r -> rooted_at c3 r) /\
     (hits = csize c2 -> is_Some (clinks c3 !! v))) as (c3 & -> & W3 & P3 & K3 & R3 & F3).
  { case_decide as Hh.
    - exists c2. split; [done|]. split; [done|]. split; [done|]. split; [|split].
      + intros x N. rewrite K2, K1. by rewrite lookup_insert_ne.
      + intros r. rewrite K2, K1, lookup_insert. intros [= <-] x Hx.
        destruct (cwf_anc _ _ _ W2 x Hx) as [r Hr']. destruct (decide (r = root)) as [->|Nr]; [done|].
        exfalso. apply anc_root in Hr'. simpl in Cn.
        assert (Z : loose (pm c2) root = 0%nat) by lia. unfold loose in Z. apply map_size_empty_iff in Z.
        assert (Y : filter (λ e : nat * nat, e.1 = e.2 ∧ e.1 ≠ root) (pm c2) !! r = Some r).
        { apply map_filter_lookup_Some. done. }
        rewrite Z in Y. by rewrite lookup_empty in Y.
      + intros _. rewrite K2, K1, lookup_insert. eauto.
    - destruct (drop_link_spec ex0 adj c2 v W2) as (c3 & -> & W3 & P3 & K3). cbn [rbind].
      exists c3. split; [done|]. split; [done|]. split; [done|]. split; [|split].
      + intros x N. rewrite K3, K2, K1. by rewrite lookup_delete_ne, lookup_insert_ne.
      + intros r. rewrite K3, lookup_delete. done.
      + done. }
  cbn [rbind]. rewrite vset_ok by (by eapply lookup_lt_Some). cbn [rbind].
  assert (D3 : forall q, qin c3 q <-> qin c q).
  { intros q. by rewrite <- !pm_is_Some, P3, D2, P1. }
  assert (Conn : connected_in adj (qin c) -> is_Some (clinks c3 !! v)).
  { intros Co. apply F3. simpl in Cn.
    assert (D : forall q, qin c2 q <-> qin c q) by (intros q; by rewrite <- !pm_is_Some, D2, P1).
    assert (Rt : anc (pm c2) root root).
    { destruct (cwf_anc _ _ _ W2 root) as [r Hr']; [by rewrite D2, P1|]. destruct (sp_iso _ _ _ _ Sp _ _ Hr') as [->|<-]; done. }
    assert (All : forall q, qin c2 q -> anc (pm c2) q root).
    { apply connected_nbq; auto.
      - intros q Hq. apply Hb. apply pm_is_Some. rewrite P1. apply pm_is_Some. by apply D.
      - intros x y Hx Hy. apply D in Hx, Hy. specialize (Co x y Hx Hy). eapply rtc_subrel; [|exact Co].
        intros a b (? & ? & ?). split; [done|]. split; by apply D. }
    assert (Z : loose (pm c2) root = 0%nat).
    { unfold loose. apply map_size_empty_iff, map_empty. intros r. destruct (_ !! r) as [y|] eqn:Y; [exfalso|done].
      apply map_filter_lookup_Some in Y as (Y1 & Y2 & Y3). simpl in *. subst y.
      assert (Q : qin c2 r) by (apply pm_is_Some; eauto). pose proof (anc_fun _ _ _ _ (All r Q) (anc_self _ _ Y1)). congruence. }
    lia. }
  set (e1 := mkEmb (<[v:=c3]> (chains e)) (eweight e) (efrozen e)).
  assert (Lv : (v < length (chains e))%nat) by by eapply lookup_lt_Some.
  assert (H1v : chains e1 !! v = Some c3) by by apply list_lookup_insert.
  assert (I1 : einv e1).
  { eapply einv_one; eauto; try lia. intros x Hx. apply D3 in Hx.
    pose proof (ei_home _ _ _ _ I v c x Hc Hx Hv) as Hh. pose proof Hh as [? _]. split; [lia|done]. }
  assert (LK1 : links_kept (Some v) e e1).
  { intros a b G (ca & Ha & HL). destruct (decide (a = v)) as [->|Na].
    - exists c3. split; [done|]. assert (ca = c) as -> by congruence. rewrite K3; [done|]. intros ->. by apply G.
    - exists ca. split; [simpl; by rewrite list_lookup_insert_ne|done]. }
  assert (IC1 : forall a q, in_chain e1 a q <-> in_chain e a q).
  { intros a q. destruct (decide (a = v)) as [->|Na].
    - rewrite (in_chain_qin e1 v c3 q H1v), (in_chain_qin e v c q Hc). apply D3.
    - unfold in_chain. simpl. by rewrite list_lookup_insert_ne. }
  destruct (lookup_lt_is_Some_2 vn v) as [l Hl]. { rewrite (vnw_len _ _ VW). lia. }
  rewrite (vget_ok _ _ _ Hl). cbn [rbind].
  destruct (foldM_inv (fun e u => if decide (v < u)%nat then let! (_, e) := linkup pb e v u in Ok e else Ok e)
    (fun dn e' => einv e' /\ same_pm e1 e' /\ links_kept None e1 e' /\
       forall u, u ∈ dn -> (v < u)%nat -> touching adj (in_chain e1) v u -> linkedto e' v u) l e1) as (e2 & -> & I2 & S2 & L2 & T2).
  - split; [done|]. split; [apply same_pm_refl|]. split; [by intros a b _|]. intros u Hu. by apply elem_of_nil in Hu.
  - intros dn u rest e' El (I' & S' & L' & T').
    assert (Hu : nbr vn v u). { exists l. split; [done|]. rewrite El. apply elem_of_app. right; left. }
    case_decide as Hlt.
    2: { eexists; split; [done|]. do 3 (split; [done|]). intros u' [Hu'| ->%elem_of_list_singleton]%elem_of_app; [auto|lia]. }
    pose proof (vnw_range _ _ VW _ _ Hu). pose proof (vnw_loop _ _ VW _ _ Hu).
    destruct (linkup_spec pb E F e' v u I' PW) as (b & e2 & El2 & I2 & S2); auto; try lia.
    destruct (linkup_complete e' v u I' PW) as (b' & e2' & El2' & LK & TC); auto.
    rewrite El2 in El2'. injection El2' as <- <-. rewrite El2.
    cbn [rbind]. eexists; split; [done|]. split; [done|].
    assert (IC : forall a q, in_chain e1 a q -> in_chain e' a q).
    { intros a q (ca & Ha & Q). destruct S' as [_ S']. destruct (S' a ca Ha) as (ca' & Ha' & Pa & _).
      exists ca'. split; [done|]. change (qin ca' q). apply pm_is_Some. rewrite Pa. by apply pm_is_Some. }
    split; [|split].
    + destruct S' as [Le' S'], S2 as [Le2 S2].
      split; [congruence|]. intros a ca Ha. destruct (S' a ca Ha) as (ca' & Ha' & Pa & Ka).
      destruct (S2 a ca' Ha') as (ca2 & Ha2 & Pa2 & Ka2). exists ca2. split; [done|]. split; congruence.
    + by eapply links_kept_trans.
    + intros u' [Hu'| ->%elem_of_list_singleton]%elem_of_app Hlt' Tu.
      * apply LK; [done|]. by apply T'.
      * apply TC. destruct Tu as (x & y & Hx & Hy & Hxy). exists x, y. auto.
  - exists e2. split; [done|]. split; [|split].
    + intros a b G HL. apply L2; [done|]. by apply LK1.
    + intros Co. apply L2; [done|]. exists c3. split; [done|]. by apply Conn.
    + intros u Hu Hlt (x & y & Hx & Hy & Hxy). apply T2; [|done|].
      * destruct Hu as (l' & Hl' & Hu). congruence.
      * exists x, y. split; [by apply IC1|]. split; [by apply IC1|done].
Qed.

Lemma emb_init_complete vn fixed initial : pb_wf pb -> vn_wf pb vn -> (forall a b, nbr vn a b -> E a b) ->
  init_pre pb E F fixed initial ->
  exists e, emb_init pb vn fixed initial = Ok e /\
    (forall v C, (v, C) ∈ initial -> connected_in adj (in_chain e v) -> linkedto e v v) /\
    (forall v C u, (v, C) ∈ initial -> nbr vn v u -> touching adj (in_chain e) v u -> linkedto e v u).
Proof.
  intros PW VW HE IP.
  destruct (emb_init_spec pb E F vn fixed initial PW VW HE IP) as (ex & Hex & Iex & Hfi & Hno).
  exists ex. split; [done|]. revert Hex. unfold emb_init.
  assert (A0 : assigned pb [] (emb_new pb)).
  { split; [by simpl; rewrite replicate_length|]. split; [by simpl; rewrite replicate_length|]. split.
    - intros v C H. by apply elem_of_nil in H.
    - intros v _ Lv. simpl. by apply lookup_replicate_2. }
  destruct (assign_loop pb fixed [] (emb_new pb) A0) as (e1 & -> & A1).
  { apply (ip_fnd _ _ _ _ _ IP). }
  { intros v C H. simpl in H. destruct (ip_fkeys _ _ _ _ _ IP _ _ H) as (? & ? & _). split; [lia|done]. }
  cbn [rbind]. simpl in A1.
  assert (NDa : NoDup (fixed ++ initial).*1).
  { rewrite fmap_app. apply NoDup_app. split; [apply (ip_fnd _ _ _ _ _ IP)|]. split; [|apply (ip_ind _ _ _ _ _ IP)].
    intros v H1 H2. apply elem_of_list_fmap in H1 as ([v1 C1] & -> & H1). apply elem_of_list_fmap in H2 as ([v2 C2] & Ev & H2).
    simpl in Ev. subst v2. apply (ip_fkeys _ _ _ _ _ IP) in H1 as [H1 _]. apply (ip_ikeys _ _ _ _ _ IP) in H2 as [H2 _]. simpl in *. lia. }
  assert (Ef : forall s, foldM (fun e '(v, C) => if fixedb pb v then Ok e else set_chain e v C) initial s =
               foldM (fun e '(v, C) => set_chain e v C) initial s).
  { intros s. assert (G : forall l, (forall v C, (v, C) ∈ l -> (v < nv pb)%nat) -> forall s,
       foldM (fun e '(v, C) => if fixedb pb v then Ok e else set_chain e v C) l s =
       foldM (fun e '(v, C) => set_chain e v C) l s).
    { induction l as [|[v C] l IH]; intros Hl s'; [done|]. cbn [foldM]. unfold fixedb at 1.
      pose proof (Hl v C ltac:(left)). destruct (Nat.leb_spec (nv pb) v); [lia|].
      destruct (set_chain s' v C); cbn [rbind]; [|done]. apply IH. intros v' C' H'. apply (Hl v' C'). by right. }
    apply G. intros v C Hin. by apply (ip_ikeys _ _ _ _ _ IP) in Hin as [? _]. }
  rewrite Ef.
  destruct (assign_loop pb initial fixed e1 A1 NDa) as (e2 & -> & A2).
  { intros v C H. apply elem_of_app in H as [H|H].
    - destruct (ip_fkeys _ _ _ _ _ IP _ _ H) as (? & ? & _). split; [lia|done].
    - destruct (ip_ikeys _ _ _ _ _ IP _ _ H) as (? & _ & Hq). split; [lia|]. intros q Hin. apply Hq in Hin as [? _]. lia. }
  cbn [rbind].
  pose proof (assigned_einv pb E F _ _ _ IP A2) as I2.
  destruct A2 as (L1 & L2 & B1 & B2).
  destruct (foldM_inv (init_one pb vn) (fun dn e => einv e /\
     (forall v c2, chains e2 !! v = Some c2 -> exists c, chains e !! v = Some c /\ (forall q, qin c q <-> qin c2 q) /\
        (v ∉ dn.*1 -> pm c = pm c2 /\ clinks c !! v = clinks c2 !! v)) /\
     (forall v C, (v, C) ∈ dn -> connected_in adj (in_chain e2 v) -> linkedto e v v) /\
     (forall v C u, (v, C) ∈ dn -> nbr vn v u -> (v < u)%nat -> touching adj (in_chain e2) v u -> linkedto e v u)) initial e2) as (e & -> & Ie & He & Hcn & Hto).
  - split; [done|]. split; [intros v c Hc; by exists c|]. split; [intros v C H|intros v C u H]; by apply elem_of_nil in H.
  - intros dn [v C] rest e El (Ie & He & Hcn & Hto).
    assert (Hin : (v, C) ∈ initial) by (rewrite El; apply elem_of_app; right; left).
    assert (Hvd : v ∉ dn.*1).
    { pose proof (ip_ind _ _ _ _ _ IP) as ND. rewrite El, fmap_app in ND. apply NoDup_app in ND as (_ & ND & _).
      intros H. apply (ND v H). simpl. left. }
    destruct (ip_ikeys _ _ _ _ _ IP _ _ Hin) as (Lv & NC & HC).
    assert (H2 : chains e2 !! v = Some (vec_chain C)) by (apply B1, elem_of_app; by right).
    destruct (He v _ H2) as (c & Hc & Qc & Hd). destruct (Hd Hvd) as [Pc Kc].
    rewrite pm_vec in Pc. simpl in Kc.
    destruct (init_one_spec pb E F vn e v C c) as (e' & El' & I' & L' & H'); auto.
    destruct (init_one_complete vn e v C c) as (e'' & El'' & LK & Co & To); auto.
    rewrite El' in El''. injection El'' as <-. rewrite El'.
    assert (IC : forall a q, in_chain e2 a q <-> in_chain e a q).
    { intros a q. split.
      - intros (ca & Ha & Q). destruct (He a ca Ha) as (ca1 & Ha1 & Q1 & _). exists ca1. split; [done|]. by apply Q1.
      - intros (ca & Ha & Q). destruct (lookup_lt_is_Some_2 (chains e2) a) as [ca2 Ha2].
        { rewrite L1, <- (ei_len _ _ _ _ Ie). by eapply lookup_lt_Some. }
        destruct (He a ca2 Ha2) as (ca1 & Ha1 & Q1 & _). assert (ca1 = ca) as -> by congruence. exists ca2. split; [done|]. by apply Q1. }
    eexists; split; [done|]. split; [done|]. split; [|split].
    + intros a ca Ha.
      destruct (He a ca Ha) as (ca1 & Ha1 & Q1 & D1). destruct (H' a ca1 Ha1) as (ca2 & Ha2 & D2 & Q2).
      exists ca2. split; [done|]. split. { intros q. by rewrite Q2, Q1. }
      rewrite fmap_app, not_elem_of_app. intros [Hn Hn']. destruct (D1 Hn) as [P1' K1'].
      destruct D2 as [P2' K2']. { intros ->. apply Hn'. simpl. left. }
      split; congruence.
    + intros v' C' [Hd'|[= -> ->]%elem_of_list_singleton]%elem_of_app Cv.
      * apply LK; [|by eapply Hcn]. intros [= ->]. destruct Hvd. apply elem_of_list_fmap. by exists (v, C').
      * apply Co. intros x y Hx Hy. specialize (Cv x y). rewrite !IC, !(in_chain_qin e v c) in Cv by done.
        specialize (Cv Hx Hy). eapply rtc_subrel; [|exact Cv]. intros a b (? & Ha & Hb). split; [done|].
        apply IC in Ha, Hb. split; by apply (in_chain_qin e v c).
    + intros v' C' u [Hd'|[= -> ->]%elem_of_list_singleton]%elem_of_app Hnb Hlt T.
      * apply LK; [lia|]. by eapply Hto.
      * apply To; auto. destruct T as (x & y & Hx & Hy & Hxy). exists x, y. split; [by apply IC|]. split; [by apply IC|done].
  - intros [= <-].
    assert (IC : forall a q, in_chain e a q -> in_chain e2 a q).
    { intros a q (ca & Ha & Q). destruct (lookup_lt_is_Some_2 (chains e2) a) as [ca2 Ha2].
      { rewrite L1, <- (ei_len _ _ _ _ Ie). by eapply lookup_lt_Some. }
      destruct (He a ca2 Ha2) as (ca1 & Ha1 & Q1 & _). assert (ca1 = ca) as -> by congruence. exists ca2. split; [done|]. by apply Q1. }
    assert (IC' : forall a q, in_chain e2 a q -> in_chain e a q).
    { intros a q (ca & Ha & Q). destruct (He a ca Ha) as (ca1 & Ha1 & Q1 & _). exists ca1. split; [done|]. by apply Q1. }
    split.
    + intros v C Hin Co. eapply Hcn; [done|]. intros x y Hx Hy. specialize (Co x y (IC' _ _ Hx) (IC' _ _ Hy)).
      eapply rtc_subrel; [|exact Co]. intros a b (? & Ha & Hb). split; [done|]. split; by apply IC.
    + intros v C u Hin Hn T.
      assert (T2 : touching adj (in_chain e2) v u). { destruct T as (x & y & Hx & Hy & Hxy). exists x, y. auto. }
      destruct (decide (v < u)%nat) as [Hlt|Hge]; [by eapply Hto|].
      pose proof (vnw_loop _ _ VW _ _ Hn). assert (u < v)%nat by lia.
      pose proof (vnw_src _ _ VW _ _ Hn) as Lv. assert (Hn' : nbr vn u v) by (apply (vnw_sym _ _ VW); [done|lia]).
      apply linkedto_sym with pb E F; [done|lia|].
      destruct (decide (u ∈ initial.*1)) as [Hiu|Nu].
      * apply elem_of_list_fmap in Hiu as ([u' Cu] & -> & Hiu). eapply Hto; [exact Hiu|done|done|].
        destruct T2 as (x & y & Hx & Hy & Hxy). exists y, x. split; [done|]. split; [done|]. destruct Hxy as [->|Ha]; [by left|right].
        destruct Ha; [right|left]; done.
      * exfalso. destruct T as (x & y & Hx & Hy & _).
        destruct (Hno u) as (cu & Hcu & Sz).
        { rewrite fmap_app, not_elem_of_app. split; [|done]. intros ([u' C'] & -> & Hf)%elem_of_list_fmap.
          destruct (ip_fkeys _ _ _ _ _ IP _ _ Hf) as ([? ?] & _). simpl in *. lia. }
        { lia. }
        apply (in_chain_qin _ _ _ _ Hcu) in Hy. by apply (qin_size cu y) in Hy.
Qed.
End emb.
