(** Several embeddings: proofs. *)
Require Import Lia.
From stdpp Require Import base list numbers relations.
From Verif Require Import Base NxModel SpecNx FeasModel ParModel SpecPar DiagProofs FeasProofs2 FeasProofs3.

Section par.
Context {A : Type} `{!EqDecision A}.
Implicit Types (g S T cur : nxgraph A) (e : pyemb A) (embs : list (pyemb A)).

(** [cur] is [T] without the nodes the embeddings use *)
Record rest_of (T : nxgraph A) (embs : list (pyemb A)) (cur : nxgraph A) : Prop := {
  ro_wf : nx_wf cur;
  ro_nodes : forall q, q ∈ nx_nodes cur <-> q ∈ nx_nodes T /\ ~ used embs q;
  ro_adj : forall a b, nx_adj cur a b <-> nx_adj T a b /\ ~ used embs a /\ ~ used embs b
}.
Lemma used_nil (q : A) : ~ used [] q.
Proof. intros (e & x & He & _). by apply elem_of_nil in He. Qed.
Lemma used_snoc embs e q : used (embs ++ [e]) q <-> used embs q \/ exists x, on_chain (chains_of e) x q.
Proof.
  unfold used. split.
  - intros (e' & x & He & Hx). apply elem_of_app in He as [He|He]; [by left; exists e', x|]. apply elem_of_list_singleton in He as ->. by right; exists x.
  - intros [(e' & x & He & Hx)|[x Hx]]; [exists e', x|exists e, x]; set_solver.
Qed.
Lemma used_app (l1 l2 : list (pyemb A)) q : used (l1 ++ l2) q <-> used l1 q \/ used l2 q.
Proof.
  unfold used. split.
  - intros (e' & x & He & Hx). apply elem_of_app in He as [He|He]; [left|right]; by exists e', x.
  - intros [(e' & x & He & Hx)|(e' & x & He & Hx)]; exists e', x; set_solver.
Qed.
Lemma rest_same T cur : nx_wf T -> same_graph T cur -> rest_of T [] cur.
Proof.
  intros Hwf [Hn Ha Hw]. split; [tauto| |].
  - intros q. rewrite Hn. pose proof (used_nil q). tauto.
  - intros a b. rewrite <- Ha. pose proof (used_nil a). pose proof (used_nil b). tauto.
Qed.
Lemma same_refl g : same_graph g g.
Proof. by split. Qed.
Lemma remove_wf g l : nx_wf g -> nx_wf (nx_remove g l).
Proof.
  intros [H1 H2 H3 H4]. split; simpl.
  - by apply NoDup_filter.
  - intros a b Hab. apply elem_of_list_filter in Hab as [[Ha Hb] Hab]. apply H2 in Hab. rewrite !elem_of_list_filter. tauto.
  - by apply NoDup_filter.
  - intros a b Hab Hba. apply elem_of_list_filter in Hab as [_ Hab], Hba as [_ Hba]. eauto.
Qed.
Lemma remove_adj g l a b : nx_adj (nx_remove g l) a b <-> nx_adj g a b /\ a ∉ l /\ b ∉ l.
Proof. unfold nx_adj, nx_remove. simpl. rewrite !elem_of_list_filter. simpl. tauto. Qed.
Lemma rest_remove T embs more g l : rest_of T embs g -> (forall q, q ∈ l <-> used more q) ->
  rest_of T (embs ++ more) (nx_remove g l).
Proof.
  intros [H1 H2 H3] Hl. split.
  - by apply remove_wf.
  - intros q. simpl. rewrite elem_of_list_filter, used_app, H2, Hl. tauto.
  - intros a b. rewrite remove_adj, H3, !used_app, !Hl. tauto.
Qed.
Lemma remove_nil g : nx_remove g [] = g.
Proof.
  destruct g as [ns es]. unfold nx_remove. simpl. f_equal.
  - induction ns as [|n ns IH]; [done|]. rewrite filter_cons_True by apply not_elem_of_nil. by rewrite IH.
  - induction es as [|n es IH]; [done|]. rewrite filter_cons_True by (split; apply not_elem_of_nil). by rewrite IH.
Qed.
Lemma on_chain_cons k v e x q : on_chain (chains_of ((k, v) :: e)) x q <-> (x = k /\ q ∈ cval_nodes v) \/ on_chain (chains_of e) x q.
Proof.
  unfold on_chain, chain_at, chains_of. rewrite fmap_cons. cbn [fst snd]. split.
  - intros (C & HC & Hq). apply elem_of_cons in HC as [[= -> ->]|HC]; [by left|]. right. by exists C.
  - intros [[-> Hq]|(C & HC & Hq)]; [exists (cval_nodes v)|exists C]; rewrite elem_of_cons; auto.
Qed.
Lemma on_chain_nil (x q : A) : ~ on_chain (chains_of []) x q.
Proof. intros (C & HC & _). by apply elem_of_nil in HC. Qed.
Lemma taken_ok o e : has_format o e -> exists l, taken o e = Ok l /\ forall q, q ∈ l <-> exists x, on_chain (chains_of e) x q.
Proof.
  induction e as [|[k v] e IH]; intros Hf; cbn [taken].
  - exists []. split; [done|]. intros q. split; [intros H; by apply elem_of_nil in H|]. intros [x H]. by apply on_chain_nil in H.
  - destruct IH as (l & E & Hl); [intros k' v' H; apply (Hf k' v'); by right|].
    assert (Hv := Hf k v ltac:(left)). exists (cval_nodes v ++ l). split.
    + destruct v as [q|c]; subst o; cbn [rbind]; by rewrite E.
    + intros q. rewrite elem_of_app, Hl. split.
      * intros [Hq|[x Hx]]; [exists k|exists x]; rewrite on_chain_cons; auto.
      * intros [x Hx]. apply on_chain_cons in Hx as [[_ Hq]|Hx]; [by left|right; by exists x].
Qed.
Lemma taken_all_ok o (l : list (pyemb A)) : (forall e, e ∈ l -> has_format o e) -> exists qs, taken_all o l = Ok qs /\ forall q, q ∈ qs <-> used l q.
Proof.
  induction l as [|e l IH]; intros Hf; cbn [taken_all].
  - exists []. split; [done|]. intros q. split; [intros H; by apply elem_of_nil in H|]. intros H. by apply used_nil in H.
  - destruct (taken_ok o e) as (a & Ea & Ha); [apply Hf; left|]. destruct IH as (b & Eb & Hb); [intros e' H; apply Hf; by right|].
    rewrite Ea. cbn [rbind]. rewrite Eb. cbn [rbind]. exists (a ++ b). split; [done|]. intros q. rewrite elem_of_app, Ha, Hb.
    change (e :: l) with ([e] ++ l). rewrite used_app. split; (intros [H|H]; [left|by right]).
    + destruct H as [x Hx]. exists e, x. split; [left|done].
    + destruct H as (e' & x & He & Hx). apply elem_of_list_singleton in He as ->. by exists x.
Qed.

(** an embedding in a part is one in the whole *)
Lemma embedding_mono emb S g h : (forall q, q ∈ nx_nodes g -> q ∈ nx_nodes h) -> (forall a b, nx_adj g a b -> nx_adj h a b) ->
  nx_embedding emb S g -> nx_embedding emb S h.
Proof.
  intros Hn Ha [H1 H2 H3 H4 H5]. split; [done|eauto| |done|].
  - intros x Hx a b Hca Hcb. specialize (H3 x Hx a b Hca Hcb). clear Hca Hcb. induction H3 as [|u v z [Huv Hp] _ IH]; [done|].
    eapply rtc_l; [|exact IH]. split; [by apply Ha|done].
  - intros x y Hxy Hne. destruct (H5 x y Hxy Hne) as (p & q & Hp & Hq & Hpq). exists p, q. auto.
Qed.
Lemma embedding_source emb S S' g : same_graph S S' -> nx_embedding emb S' g <-> nx_embedding emb S g.
Proof.
  intros [Hn Ha _]. split; intros [H1 H2 H3 H4 H5].
  - split; intros *; rewrite ?Hn, ?Ha; eauto.
  - split; intros *; rewrite <- ?Hn, <- ?Ha; eauto.
Qed.
Lemma good_mono o S g h e : (forall q, q ∈ nx_nodes g -> q ∈ nx_nodes h) -> (forall a b, nx_adj g a b -> nx_adj h a b) ->
  good_emb o S g e -> good_emb o S h e.
Proof. intros Hn Ha [H1 H2 H3 H4]. split; [done..|]. by eapply embedding_mono. Qed.
Lemma good_source o S S' g e : same_graph S S' -> good_emb o S' g e -> good_emb o S g e.
Proof.
  intros Hs [H1 H2 H3 H4]. split; [done|done| |by apply (embedding_source _ _ _ _ Hs)].
  intros k Hk. destruct Hs as [Hn _ _]. rewrite Hn. auto.
Qed.
Lemma good_nodes o S g e x q : good_emb o S g e -> on_chain (chains_of e) x q -> q ∈ nx_nodes g.
Proof.
  intros [H1 H2 H3 H4] Hq. eapply (ne_nodes _ _ _ H4 x q); [|done]. apply H3.
  destruct Hq as (C & HC & _). unfold chain_at, chains_of in HC. apply elem_of_list_fmap in HC as ([k v] & [= -> _] & Hk).
  apply elem_of_list_fmap. by exists (k, v).
Qed.
Lemma beside_embeds o S S' T embs cur : nx_wf S -> same_graph S S' -> rest_of T embs cur -> embeds_beside o S T embs -> embeds o S' cur.
Proof.
  intros HwS Hs [Hw Hn Ha] (emb & ND & Hemb & Hone & Hav). exists emb. split; [done|]. split.
  - apply (embedding_source _ _ _ _ Hs). destruct Hemb as [H1 H2 H3 H4 H5]. split; [done| | |done|].
    + intros x q Hx Hq. apply Hn. split; eauto.
    + intros x Hx a b Hca Hcb. specialize (H3 x Hx a b Hca Hcb). clear Hca Hcb. induction H3 as [|u v z (Huv & Hu & Hv) _ IH]; [done|].
      eapply rtc_l; [|exact IH]. split; [|done]. apply Ha. eauto.
    + intros x y Hxy Hne. destruct (H5 x y Hxy Hne) as (p & q & Hp & Hq & Hpq). exists p, q. split; [done|]. split; [done|]. apply Ha.
      assert (x ∈ nx_nodes S /\ y ∈ nx_nodes S) as [Hx Hy].
      { destruct Hxy as [Hxy|Hxy]; apply (nw_ends _ HwS) in Hxy; tauto. }
      eauto.
  - intros E x Hx. apply (Hone E). destruct Hs as [Hns _ _]. by rewrite Hns.
Qed.

Lemma disjoint_snoc embs e : all_disjoint embs -> (forall x q, on_chain (chains_of e) x q -> ~ used embs q) -> all_disjoint (embs ++ [e]).
Proof.
  intros Hd He i j e1 e2 x y q Hi Hj Hne H1 H2.
  assert (L : forall i e1, (embs ++ [e]) !! i = Some e1 -> (embs !! i = Some e1 /\ i < length embs) \/ (i = length embs /\ e1 = e)).
  { clear. intros i e1 Hi. apply lookup_app_Some in Hi as [Hi|[Hl Hi]]; [left; split; [done|by eapply lookup_lt_Some]|].
    apply list_lookup_singleton_Some in Hi as [Hi <-]. right. split; [lia|done]. }
  destruct (L i e1 Hi) as [[Hi' Hi1]|[-> ->]], (L j e2 Hj) as [[Hj' Hj1]|[-> ->]].
  - by apply (Hd i j e1 e2 x y q).
  - apply (He y q H2). exists e1, x. split; [by eapply elem_of_list_lookup_2|done].
  - apply (He x q H1). exists e2, y. split; [by eapply elem_of_list_lookup_2|done].
  - lia.
Qed.
Lemma disjoint_app embs (more : list (pyemb A)) : all_disjoint embs -> all_disjoint more -> (forall q, used more q -> ~ used embs q) -> all_disjoint (embs ++ more).
Proof.
  revert embs. induction more as [|e more IH]; intros embs H1 H2 H3; [by rewrite app_nil_r|].
  replace (embs ++ e :: more) with ((embs ++ [e]) ++ more) by by rewrite <- app_assoc. apply IH.
  - apply disjoint_snoc; [done|]. intros x q Hx. apply H3. exists e, x. split; [left|done].
  - intros i j e1 e2 x y q Hi Hj Hne. apply (H2 (Datatypes.S i) (Datatypes.S j)); [done|done|lia].
  - intros q Hq. rewrite used_snoc. intros [Hu|[x Hx]].
    + apply (H3 q); [|done]. destruct Hq as (e' & y & He & Hy). exists e', y. split; [by right|done].
    + destruct Hq as (e' & y & He & Hy). apply elem_of_list_lookup in He as [j Hj]. by apply (H2 0 (Datatypes.S j) e e' x y q).
Qed.

Lemma same_nonempty S S' : same_graph S S' -> nx_nodes S <> [] -> nx_nodes S' <> [].
Proof. intros [Hn _ _] HS E. rewrite E in Hn. by apply Permutation_nil_r in Hn. Qed.
(** the loop with more than one embedding to find *)
Lemma multi_many (w : world A) o uf same S S' T : nx_wf S -> nx_wf T -> nx_nodes S <> [] -> same_graph S S' -> honest_embedder o w ->
  forall k i own embs, rest_of T embs (default T own) -> (embs <> [] -> own <> None) ->
    (forall e, e ∈ embs -> good_emb o S T e) -> all_disjoint embs ->
  exists j embs', multi_loop w k S' true uf o same i T own embs = Ok (j, T, embs') /\
    (forall e, e ∈ embs' -> good_emb o S T e) /\ all_disjoint embs' /\ length embs' <= length embs + k /\
    (length embs' < length embs + k -> no_loops S -> complete_embedder (negb o) w -> (forall n, w_late w n = false) -> ~ embeds_beside (negb o) S T embs').
Proof.
  intros HwS HwT HS Hs Hemb. assert (HwS' : nx_wf S') by (apply Hs; done). assert (HS' : nx_nodes S' <> []) by by apply (same_nonempty S).
  induction k as [|k IH]; intros i own embs Hcur Hown Hg Hd; cbn [multi_loop].
  - exists i, embs. split; [done|]. split; [done|]. split; [done|]. split; [lia|]. intros; lia.
  - set (sm := same && match own with None => true | Some _ => false end). set (cur := default T own) in *.
    assert (Hf : exists b, (if uf then feasibility_filter S' cur sm (negb o) else Ok true) = Ok b /\ (b = false -> no_loops S -> ~ embeds (negb o) S' cur)).
    { destruct uf; [|by exists true]. destruct (filter_total S' cur sm (negb o)) as [b Eb]. exists b. split; [done|]. intros -> Hl.
      apply (rejected_infeasible S' cur sm (negb o) HwS' (ro_wf _ _ _ Hcur)); [|done].
      intros x Hx. apply (Hl x). destruct Hs as [_ Ha _]. assert (nx_adj S x x) as [?|?]; [apply Ha; by left|done..]. }
    destruct Hf as (b & Eb & Hb). rewrite Eb. cbn [rbind].
    assert (Stop : forall j : nat, exists (j' : nat) embs', Ok (j, T, embs) = Ok (j', T, embs') /\
      (forall e, e ∈ embs' -> good_emb o S T e) /\ all_disjoint embs' /\ length embs' <= length embs + Datatypes.S k /\
      ((no_loops S -> complete_embedder (negb o) w -> (forall n, w_late w n = false) -> ~ embeds (negb o) S' cur) ->
       length embs' < length embs + Datatypes.S k -> no_loops S -> complete_embedder (negb o) w -> (forall n, w_late w n = false) -> ~ embeds_beside (negb o) S T embs')).
    { intros j. exists j, embs. split; [done|]. split; [done|]. split; [done|]. split; [lia|]. intros Hne _ Hl Hc Hn Hbe.
      apply (Hne Hl Hc Hn). exact (beside_embeds _ _ _ _ _ _ HwS Hs Hcur Hbe). }
    destruct b; cbn [negb].
    2:{ destruct (Stop i) as (j' & embs' & H1 & H2 & H3 & H4 & H5). exists j', embs'. split; [done|]. split; [done|]. split; [done|]. split; [done|].
        intros Hlt Hl Hc Hn. apply H5; auto. }
    destruct (w_late w i) eqn:El.
    { destruct (Stop (Datatypes.S i)) as (j' & embs' & H1 & H2 & H3 & H4 & H5). exists j', embs'. split; [done|]. split; [done|]. split; [done|]. split; [done|].
      intros Hlt Hl Hc Hn. by rewrite Hn in El. }
    destruct (Hemb (Datatypes.S i) S' cur HwS' (ro_wf _ _ _ Hcur)) as [E0|Hge].
    { rewrite E0. destruct (Stop (i + 2)) as (j' & embs' & H1 & H2 & H3 & H4 & H5). exists j', embs'. split; [done|]. split; [done|]. split; [done|]. split; [done|].
      intros Hlt Hl Hc Hn. apply H5; try done. intros _ _ _ Hem. by apply (Hc (Datatypes.S i) S' cur HwS' (ro_wf _ _ _ Hcur) HS' Hem). }
    set (e := w_embedder w (Datatypes.S i) S' cur) in *.
    assert (Hge' : good_emb o S cur e) by by eapply good_source.
    assert (HgT : good_emb o S T e).
    { eapply good_mono; [| |exact Hge']; [intros q Hq; by apply (ro_nodes _ _ _ Hcur) in Hq as [? _]|intros a c Hac; by apply (ro_adj _ _ _ Hcur) in Hac as [? _]]. }
    assert (Hun : forall x q, on_chain (chains_of e) x q -> ~ used embs q).
    { intros x q Hq. apply (good_nodes _ _ _ _ _ _ Hge') in Hq. by apply (ro_nodes _ _ _ Hcur) in Hq as [_ ?]. }
    destruct (taken_ok o e (ge_format _ _ _ _ Hge)) as (gone & Eg & Hgone).
    destruct e as [|kv0 e0] eqn:Ee.
    { destruct (Stop (i + 2)) as (j' & embs' & H1 & H2 & H3 & H4 & H5). exists j', embs'. split; [done|]. split; [done|]. split; [done|]. split; [done|].
      intros Hlt Hl Hc Hn. apply H5; try done. intros _ _ _ Hem. by apply (Hc (Datatypes.S i) S' cur HwS' (ro_wf _ _ _ Hcur) HS' Hem). }
    rewrite <- Ee in *. rewrite Eg. cbn [rbind].
    assert (Hbase : exists base, (match embs with [] => Some T | _ => own end) = Some base /\ rest_of T embs base).
    { destruct embs as [|e1 embs1]; [exists T; split; [done|apply rest_same; [done|apply same_refl]]|].
      destruct own as [g|]; [by exists g|]. exfalso. by apply Hown. }
    destruct Hbase as (base & -> & Hbase).
    assert (Hbase' : rest_of T (embs ++ [e]) (nx_remove base gone)).
    { apply rest_remove; [done|]. intros q. rewrite Hgone. split.
      - intros [x Hx]. exists e, x. split; [by apply elem_of_list_singleton|done].
      - intros (e' & x & He & Hx). apply elem_of_list_singleton in He as ->. by exists x. }
    destruct (IH (i + 2) (Some (nx_remove base gone)) (embs ++ [e])) as (j & embs' & H1 & H2 & H3 & H4 & H5); [done|done| | |].
    + intros e' He'. apply elem_of_app in He' as [He'|He']; [auto|]. by apply elem_of_list_singleton in He' as ->.
    + by apply disjoint_snoc.
    + rewrite app_length in H4, H5. simpl in H4, H5. exists j, embs'. split; [done|]. split; [done|]. split; [done|]. split; [lia|]. intros Hlt. apply H5. lia.
Qed.

(** at most one embedding to find: nothing is removed, so the flag need not match the embedder *)
Lemma multi_one (w : world A) o flag uf same S S' T cur own k i : nx_wf S -> nx_wf T -> nx_nodes S <> [] -> same_graph S S' -> honest_embedder o w ->
  cur = default T own -> rest_of T [] cur -> k <= 1 ->
  exists j embs', multi_loop w k S' false uf flag same i T own [] = Ok (j, T, embs') /\
    (forall e, e ∈ embs' -> good_emb o S T e) /\ all_disjoint embs' /\ length embs' <= k /\
    (length embs' < k -> o = flag -> no_loops S -> complete_embedder (negb o) w -> (forall n, w_late w n = false) -> ~ embeds_beside (negb o) S T embs').
Proof.
  intros HwS HwT HS Hs Hemb Ec Hcur Hk. assert (HwS' : nx_wf S') by (apply Hs; done). assert (HS' : nx_nodes S' <> []) by by apply (same_nonempty S).
  assert (Hnil : all_disjoint (A := A) []) by (intros a b ? ? ? ? ? Hi; by rewrite lookup_nil in Hi).
  destruct k as [|k]; cbn [multi_loop].
  { exists i, []. split; [done|]. split; [intros e He; by apply elem_of_nil in He|]. split; [done|]. simpl. split; [lia|]. intros; lia. }
  rewrite <- Ec. set (sm := same && match own with None => true | Some _ => false end).
  assert (Hf : exists b, (if uf then feasibility_filter S' cur sm (negb flag) else Ok true) = Ok b /\ (b = false -> no_loops S -> ~ embeds (negb flag) S' cur)).
  { destruct uf; [|by exists true]. destruct (filter_total S' cur sm (negb flag)) as [b Eb]. exists b. split; [done|]. intros -> Hl.
    apply (rejected_infeasible S' cur sm (negb flag) HwS' (ro_wf _ _ _ Hcur)); [|done].
    intros x Hx. apply (Hl x). destruct Hs as [_ Ha _]. assert (nx_adj S x x) as [?|?]; [apply Ha; by left|done..]. }
  destruct Hf as (b & Eb & Hb). rewrite Eb. cbn [rbind].
  assert (Stop : forall j : nat, (o = flag -> no_loops S -> complete_embedder (negb o) w -> (forall n, w_late w n = false) -> ~ embeds (negb o) S' cur) ->
    exists (j' : nat) embs', Ok (j, T, []) = Ok (j', T, embs') /\
    (forall e, e ∈ embs' -> good_emb o S T e) /\ all_disjoint embs' /\ length embs' <= Datatypes.S k /\
     (length embs' < Datatypes.S k -> o = flag -> no_loops S -> complete_embedder (negb o) w -> (forall n, w_late w n = false) -> ~ embeds_beside (negb o) S T embs')).
  { intros j Hne. exists j, []. split; [done|]. split; [intros e He; by apply elem_of_nil in He|]. split; [done|]. split; [simpl; lia|]. intros _ Hof Hl Hc Hn Hbe.
    apply (Hne Hof Hl Hc Hn). exact (beside_embeds _ _ _ _ _ _ HwS Hs Hcur Hbe). }
  destruct b; cbn [negb].
  2:{ apply Stop. intros -> Hl _ _. auto. }
  destruct (w_late w i) eqn:El.
  { apply Stop. intros _ _ _ Hn. by rewrite Hn in El. }
  destruct (Hemb (Datatypes.S i) S' cur HwS' (ro_wf _ _ _ Hcur)) as [E0|Hge].
  { rewrite E0. apply Stop. intros _ _ Hc _ Hem. by apply (Hc (Datatypes.S i) S' cur HwS' (ro_wf _ _ _ Hcur) HS' Hem). }
  set (e := w_embedder w (Datatypes.S i) S' cur) in *.
  assert (HgT : good_emb o S T e).
  { eapply good_mono; [| |eapply good_source; [done|exact Hge]]; [intros q Hq; by apply (ro_nodes _ _ _ Hcur) in Hq as [? _]|intros a c Hac; by apply (ro_adj _ _ _ Hcur) in Hac as [? _]]. }
  destruct e as [|kv0 e0] eqn:Ee.
  { apply Stop. intros _ _ Hc _ Hem. by apply (Hc (Datatypes.S i) S' cur HwS' (ro_wf _ _ _ Hcur) HS' Hem). }
  rewrite <- Ee in *. assert (k = 0) as -> by lia. cbn [multi_loop]. exists (i + 2), [e]. split; [done|]. split; [|split; [|split; [simpl; lia|simpl; intros; lia]]].
  - intros e' He'. by apply elem_of_list_singleton in He' as ->.
  - apply (disjoint_snoc [] e Hnil). intros x q _. apply used_nil.
Qed.

Theorem multiple_good (w : world A) o uf sh it same S T i mx : nx_wf S -> nx_wf T -> nx_nodes S <> [] -> honest_embedder o w -> honest_shuffle w ->
  exists j embs, find_multiple_embeddings w i S T mx uf o sh it same = Ok (j, T, embs) /\
    (forall e, e ∈ embs -> good_emb o S T e) /\ all_disjoint embs /\
    (forall m, mx = Some m -> (Z.of_nat (length embs) <= Z.max 0 m)%Z) /\
    length embs * length (nx_nodes S) <= length (nx_nodes T) /\
    (it = true -> no_loops S -> complete_embedder (negb o) w -> (forall n, w_late w n = false) ->
     (match mx with None => True | Some m => Z.of_nat (length embs) < m end)%Z -> length embs < length (nx_nodes T) `div` length (nx_nodes S) -> ~ embeds_beside (negb o) S T embs).
Proof.
  intros HwS HwT HS Hemb Hsh. unfold find_multiple_embeddings. destruct it; cbn [negb].
  2:{ exists i, []. split; [done|]. split; [intros e He; by apply elem_of_nil in He|].
      split; [intros a b ? ? ? ? ? Hi; by rewrite lookup_nil in Hi|]. split; [intros m ->; simpl; lia|]. split; [simpl; lia|done]. }
  assert (Hlen : length (nx_nodes S) <> 0) by (destruct (nx_nodes S); [done|simpl; lia]).
  rewrite (proj2 (Nat.eqb_neq _ _) Hlen). set (d := length (nx_nodes T) `div` length (nx_nodes S)).
  set (n := match mx with None => Z.of_nat d | Some m => Z.min (Z.of_nat d) m end).
  assert (HS' : exists own S', (if sh then (Some (w_shuffled w i T), w_shuffled w (i + 1) S) else (None, S)) = (own, S') /\ same_graph S S' /\ rest_of T [] (default T own)).
  { destruct sh; eexists _, _; (split; [done|]); split; [apply Hsh|apply rest_same; [done|apply Hsh]|apply same_refl|apply rest_same; [done|apply same_refl]]. }
  destruct HS' as (own & S' & -> & Hs & Hcur).
  assert (Hnil : all_disjoint (A := A) []) by (intros a b ? ? ? ? ? Hi; by rewrite lookup_nil in Hi).
  assert (H : exists j embs', multi_loop w (Z.to_nat n) S' (1 <? n)%Z uf o same (i + 2) T own [] = Ok (j, T, embs') /\
    (forall e, e ∈ embs' -> good_emb o S T e) /\ all_disjoint embs' /\ length embs' <= Z.to_nat n /\
    (length embs' < Z.to_nat n -> no_loops S -> complete_embedder (negb o) w -> (forall n, w_late w n = false) -> ~ embeds_beside (negb o) S T embs')).
  { destruct (1 <? n)%Z eqn:En.
    - destruct (multi_many w o uf same S S' T HwS HwT HS Hs Hemb (Z.to_nat n) (i + 2) own []) as (j & embs' & H); [done|done|intros e He; by apply elem_of_nil in He|done|].
      by exists j, embs'.
    - apply Z.ltb_ge in En. destruct (multi_one w o o uf same S S' T (default T own) own (Z.to_nat n) (i + 2)) as (j & embs' & H1 & H2 & H3 & H4 & H5); [done..|lia|].
      exists j, embs'. split; [done|]. split; [done|]. split; [done|]. split; [done|]. intros Hlt. by apply H5. }
  destruct H as (j & embs' & H1 & H2 & H3 & H4 & H5). exists j, embs'. split; [done|]. split; [done|]. split; [done|]. split; [|split].
  - intros m ->. subst n. cbn beta iota in H4. lia.
  - assert (length embs' <= d) by (subst n; destruct mx; lia). pose proof (Nat.mul_div_le (length (nx_nodes T)) (length (nx_nodes S)) Hlen). subst d. nia.
  - intros _ Hl Hc Hn Hm Hd. apply H5; [|done..]. subst n. destruct mx; lia.
Qed.
End par.
