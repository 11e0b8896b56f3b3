(** The feasibility filter and the lower bound of the lattice size, in terms of embeddings. *)
Require Import Lia.
From stdpp Require Import base list numbers relations sorting.
From Verif Require Import Base NxModel SpecNx DiagProofs FeasModel SpecFeas FeasProofs1 FeasProofs2.

Section props.
Context {A : Type} `{!EqDecision A}.
Implicit Types (S T : nxgraph A).

Lemma embeds_chains o S T : embeds o S T -> exists C, chains_ok S T C /\ (o = true -> forall x, x ∈ nx_nodes S -> length (C x) = 1).
Proof.
  intros (emb & NE & HE & Ho). eexists. split; [by apply embedding_chains|]. intros Eo x Hx. destruct (Ho Eo x Hx) as [q Hq].
  assert (E : forall p, p ∈ remove_dups (default [] (dlookup emb x)) <-> p = q).
  { intros p. rewrite elem_of_remove_dups, <- Hq. destruct (dlookup emb x) as [D|] eqn:Ex; simpl.
    - by rewrite (on_chain_lookup emb x D NE Ex).
    - split; [intros H; by apply elem_of_nil in H|]. intros H. by apply on_chain_none in H. }
  assert (ND : NoDup (remove_dups (default [] (dlookup emb x)))) by apply NoDup_remove_dups. revert E ND.
  generalize (remove_dups (default [] (dlookup emb x))). intros l E ND. destruct l as [|a [|b l]].
  - exfalso. assert (H : q ∈ []) by (by apply E). by apply elem_of_nil in H.
  - done.
  - exfalso. assert (a = q) by (apply E; left). assert (b = q) by (apply E; right; left). subst.
    inversion ND as [|? ? Hn _]. apply Hn. left.
Qed.
Theorem embeds_accepted S T same o : nx_wf S -> nx_wf T -> no_loops S -> embeds o S T -> feasibility_filter S T same o = Ok true.
Proof. intros WS WT NL HE. destruct (embeds_chains _ _ _ HE) as (C & HC & Ho). by apply (filter_accepts S T C). Qed.
Theorem rejected_infeasible S T same o : nx_wf S -> nx_wf T -> no_loops S -> feasibility_filter S T same o = Ok false -> ~ embeds o S T.
Proof. intros WS WT NL HF HE. by rewrite embeds_accepted in HF. Qed.
Lemma embeds_nodes o S T : nx_wf S -> embeds o S T -> length (nx_nodes S) <= length (nx_nodes T).
Proof. intros WS HE. destruct (embeds_chains _ _ _ HE) as (C & HC & _). by apply (nodes_le S T C). Qed.

(** a vertex cannot have more neighbours than the vertex it is mapped to *)
Lemma subgraph_maps S T : embeds true S T -> exists f, (forall x, x ∈ nx_nodes S -> f x ∈ nx_nodes T) /\
  (forall x y, x ∈ nx_nodes S -> y ∈ nx_nodes S -> f x = f y -> x = y) /\
  (forall x y, x ∈ nx_nodes S -> y ∈ nx_nodes S -> nx_adj S x y -> x <> y -> nx_adj T (f x) (f y)).
Proof.
  intros HE. destruct (embeds_chains _ _ _ HE) as (C & HC & Ho).
  exists (fun x => default x (head (C x))).
  assert (E : forall x, x ∈ nx_nodes S -> C x = [default x (head (C x))]).
  { intros x Hx. specialize (Ho eq_refl x Hx). by destruct (C x) as [|q [|]]. }
  assert (I : forall x, x ∈ nx_nodes S -> default x (head (C x)) ∈ C x) by (intros x Hx; rewrite (E x Hx) at 2; left).
  split; [|split].
  - intros x Hx. eapply (ch_in _ _ _ HC); eauto.
  - intros x y Hx Hy He. eapply (ch_disj _ _ _ HC); [done|done|by apply I|]. rewrite He. by apply I.
  - intros x y Hx Hy Hxy Hne. destruct (ch_edge _ _ _ HC x y Hxy Hne) as (p & q & Hp & Hq & Ha).
    rewrite (E x Hx) in Hp. rewrite (E y Hy) in Hq. apply elem_of_list_singleton in Hp, Hq. by subst.
Qed.
Lemma star_nbrs S x : nx_wf S -> no_loops S -> exists l, NoDup l /\ length l = nx_degree S x /\ forall y, y ∈ l -> nx_adj S x y.
Proof.
  intros WS NL. rewrite (star_degree S NL x). exists ((fun e => if decide (e.1 = x) then e.2 else e.1) <$> star S x).
  split; [|split; [by rewrite fmap_length|]].
  - apply NoDup_fmap_2_strong; [|apply NoDup_filter, WS]. intros [a b] [c d] H1 H2 E. unfold star in *.
    apply elem_of_list_filter in H1 as [H1 E1], H2 as [H2 E2]. simpl in *.
    assert (a <> b) by (intros ->; by apply NL in E1). assert (c <> d) by (intros ->; by apply NL in E2).
    destruct (decide (a = x)) as [->|], (decide (c = x)) as [->|].
    + by subst.
    + destruct H2 as [?| ->]; [done|]. subst c. exfalso. apply H. by eapply (nw_once _ WS).
    + destruct H1 as [?| ->]; [done|]. subst d. exfalso. apply H0. by eapply (nw_once _ WS).
    + destruct H1 as [?| ->]; [done|]. destruct H2 as [?| ->]; [done|]. by subst.
  - intros y Hy. apply elem_of_list_fmap in Hy as ([a b] & -> & He). unfold star in He. apply elem_of_list_filter in He as [H E]. simpl in *.
    destruct (decide (a = x)) as [->|]; [by left|]. destruct H as [?| ->]; [done|]. by right.
Qed.
Lemma nbrs_degree S x l : NoDup l -> (forall y, y ∈ l -> nx_adj S x y) -> length l <= nx_degree S x.
Proof.
  intros ND Hl. unfold nx_degree. rewrite <- app_length. apply (length_le_rel (fun y e => (e.1 = x /\ e.2 = y) \/ (e.2 = x /\ e.1 = y))).
  - done.
  - intros y Hy. destruct (Hl y Hy) as [H|H].
    + exists (x, y). split; [|by left]. apply elem_of_app. left. by apply elem_of_list_filter.
    + exists (y, x). split; [|by right]. apply elem_of_app. right. by apply elem_of_list_filter.
  - intros y y' [a b] _ _ H1 H2. simpl in *. naive_solver.
Qed.
Lemma degree_at_most_iff S n : nx_wf S -> no_loops S -> degree_at_most S n <-> forall x, nx_degree S x <= n.
Proof.
  intros WS NL. split.
  - intros H x. destruct (star_nbrs S x WS NL) as (l & ND & <- & Hl). by apply (H x).
  - intros H x l ND Hl. etransitivity; [by apply (nbrs_degree S x)|done].
Qed.
Lemma subgraph_degree S T n : nx_wf S -> no_loops S -> embeds true S T -> degree_at_most T n -> forall x, x ∈ nx_nodes S -> nx_degree S x <= n.
Proof.
  intros WS NL HE HD x Hx. destruct (subgraph_maps S T HE) as (f & F1 & F2 & F3). destruct (star_nbrs S x WS NL) as (l & ND & <- & Hl).
  assert (HlS : forall y, y ∈ l -> y ∈ nx_nodes S).
  { intros y Hy. destruct (Hl y Hy) as [H|H]; by apply (nw_ends _ WS) in H as [? ?]. }
  rewrite <- (fmap_length f). apply (HD (f x)).
  - apply NoDup_fmap_2_strong; [|done]. intros a b Ha Hb. apply F2; auto.
  - intros b Hb. apply elem_of_list_fmap in Hb as (y & -> & Hy). apply F3; auto. intros ->. destruct (Hl y Hy) as [H|H]; by apply NL in H.
Qed.
Lemma subgraph_bipartite S T : nx_wf S -> no_loops S -> embeds true S T -> bipartite T -> bipartite S.
Proof.
  intros WS NL HE [side Hs]. destruct (subgraph_maps S T HE) as (f & F1 & F2 & F3). exists (fun x => side (f x)).
  intros a b Hab. apply Hs, F3; [| |done|].
  - destruct Hab as [H|H]; by apply (nw_ends _ WS) in H as [? ?].
  - destruct Hab as [H|H]; by apply (nw_ends _ WS) in H as [? ?].
  - intros ->. destruct Hab as [H|H]; by apply NL in H.
Qed.

(** ** Sizes *)
Lemma least_size_below fuel fam t N m0 m : m0 <= m < least_size fuel fam t N m0 -> size_enough fam t N m = false.
Proof.
  revert m0. induction fuel as [|fuel IH]; intros m0; simpl; [lia|]. destruct (size_enough fam t N m0) eqn:E; [lia|].
  intros H. destruct (decide (m = m0)) as [->|]; [done|]. apply (IH (Datatypes.S m0)). lia.
Qed.
Context (gen : family -> nat -> nat -> nxgraph A) (col : nxgraph A -> A -> nat).
Lemma grow_below fuel S fam t o m0 L m : grow_lattice gen fuel S fam t o m0 = Ok L -> m0 <= m < L ->
  feasibility_filter S (gen fam t m) false o = Ok false.
Proof.
  revert m0. induction fuel as [|fuel IH]; intros m0; cbn [grow_lattice]; [done|].
  destruct (feasibility_filter S (gen fam t m0) false o) as [[|]|] eqn:E; cbn [rbind]; [intros [= ->]; lia| |done].
  intros H Hm. destruct (decide (m = m0)) as [->|]; [done|]. apply (IH (Datatypes.S m0)); [done|lia].
Qed.
Lemma grow_reaches fuel S fam t o m0 m : m0 <= m < m0 + fuel -> feasibility_filter S (gen fam t m) false o = Ok true ->
  exists L, grow_lattice gen fuel S fam t o m0 = Ok L.
Proof.
  revert m0. induction fuel as [|fuel IH]; intros m0 Hm HF; [lia|]. cbn [grow_lattice].
  destruct (filter_total S (gen fam t m0) false o) as [b Hb]. rewrite Hb. cbn [rbind]. destruct b; [by eexists|].
  apply IH; [|done]. destruct (decide (m = m0)) as [->|]; [congruence|lia].
Qed.

Lemma too_small S fam t o m : nx_wf S -> lattice_nodes gen fam t -> (fam = Pegasus -> 1 <= m) -> embeds o S (gen fam t m) ->
  size_enough fam t (length (nx_nodes S)) m = true.
Proof.
  intros WS HN Hm HE. apply embeds_nodes in HE; [|done]. specialize (HN m). unfold size_enough. destruct fam; cbn beta iota in HN |- *.
  - apply Nat.leb_le. nia.
  - rewrite (proj2 (Nat.leb_le 1 m) (Hm eq_refl)). apply Nat.leb_le. lia.
  - apply Nat.leb_le. lia.
Qed.
Theorem bound_valid fuel S (T : option (nxgraph A * family * nat)) topology t o L fam tt m : nx_wf S -> no_loops S -> uses T topology t fam tt ->
  lattice_nodes gen fam tt -> (forall m, nx_wf (gen fam tt m)) -> (fam = Pegasus -> 1 <= m) ->
  lattice_size_lower_bound gen col fuel S T topology t o = Ok (Some L) -> embeds o S (gen fam tt m) -> L <= m.
Proof.
  intros WS NL HU HN HW Hm HR HE.
  assert (HG : grow_lattice gen fuel S fam tt o (first_size fam tt (length (nx_nodes S))) = Ok L).
  { unfold lattice_size_lower_bound in HR. destruct HU as [(-> & -> & ->)|(g & tile & -> & ->)].
    - destruct (nx_degree S <$> nx_nodes S) as [|d ds]; [done|]. destruct (_ <? _); [done|]. cbn [rbind] in HR.
      destruct (match fam with Chimera => _ | _ => _ end); [done|]. destruct (grow_lattice _ _ _ _ _ _ _); cbn [rbind] in HR; congruence.
    - destruct (feasibility_filter S g false o) as [[|]|]; cbn [rbind negb] in HR; try done.
      destruct topology as [f|].
      + assert (f = fam) as -> by (by destruct f, fam). destruct fam; cbn [rbind] in HR.
        * destruct (existsb _ _); [done|]. destruct (grow_lattice _ _ _ _ _ _ _); cbn [rbind] in HR; congruence.
        * destruct (grow_lattice _ _ _ _ _ _ _); cbn [rbind] in HR; congruence.
        * destruct (grow_lattice _ _ _ _ _ _ _); cbn [rbind] in HR; congruence.
      + cbn [rbind] in HR. destruct (match fam with Chimera => _ | _ => _ end); [done|].
        destruct (grow_lattice _ _ _ _ _ _ _); cbn [rbind] in HR; congruence. }
  destruct (decide (L <= m)) as [|Hlt]; [done|]. exfalso.
  destruct (decide (first_size fam tt (length (nx_nodes S)) <= m)) as [Hf|Hf].
  - pose proof (grow_below _ _ _ _ _ _ _ m HG ltac:(lia)) as HF.
    exact (rejected_infeasible S _ false o WS (HW m) NL HF HE).
  - pose proof (too_small S fam tt o m WS HN Hm HE) as H1.
    assert (H2 : size_enough fam tt (length (nx_nodes S)) m = false) by (eapply (least_size_below _ _ _ _ 0); split; [lia|apply not_le, Hf]). congruence.
Qed.
(** it ends when there is a size that is big enough *)
Theorem bound_found fuel S topology t o m : nx_wf S -> no_loops S -> nx_nodes S <> [] ->
  lattice_nodes gen topology (default 4 t) -> (forall m, nx_wf (gen topology (default 4 t) m)) -> (topology = Pegasus -> 1 <= m) ->
  embeds o S (gen topology (default 4 t) m) -> m < fuel ->
  exists r, lattice_size_lower_bound gen col fuel S None (Some topology) t o = Ok r.
Proof.
  intros WS NL Hne HN HW Hm HE Hfuel. unfold lattice_size_lower_bound.
  destruct (nx_degree S <$> nx_nodes S) as [|d ds] eqn:ED; [by apply fmap_nil_inv in ED|].
  destruct (_ <? _); cbn [rbind]; [by eexists|]. destruct (match topology with Chimera => _ | _ => _ end); [by eexists|].
  pose proof (too_small S _ _ o m WS HN Hm HE) as H1.
  assert (Hf : first_size topology (default 4 t) (length (nx_nodes S)) <= m).
  { destruct (decide (first_size topology (default 4 t) (length (nx_nodes S)) <= m)) as [|Hf]; [done|]. exfalso.
    assert (H2 : size_enough topology (default 4 t) (length (nx_nodes S)) m = false) by (eapply (least_size_below _ _ _ _ 0); split; [lia|apply not_le, Hf]). congruence. }
  destruct (grow_reaches fuel S topology (default 4 t) o (first_size topology (default 4 t) (length (nx_nodes S))) m) as [L ->].
  { split; [exact Hf|]. lia. }
  { by apply embeds_accepted. }
  cbn [rbind]. by eexists.
Qed.
(** for subgraphs, None means that no size is enough *)
Theorem none_valid fuel S topology t : nx_wf S -> no_loops S ->
  (forall m, degree_at_most (gen topology (default 4 t) m) (max_degree_of topology (default 4 t))) ->
  (topology = Chimera -> forall m, bipartite (gen topology (default 4 t) m)) ->
  (bipartite S -> forall x, x ∈ nx_nodes S -> col S x <= 1) ->
  lattice_size_lower_bound gen col fuel S None (Some topology) t true = Ok None ->
  forall m, ~ embeds true S (gen topology (default 4 t) m).
Proof.
  intros WS NL HD HB Hcol HR m HE. unfold lattice_size_lower_bound in HR.
  destruct (nx_degree S <$> nx_nodes S) as [|d ds] eqn:ED; [done|]. destruct (_ <? _) eqn:EL.
  - apply Nat.ltb_lt in EL.
    assert (HM : forall (ks : list nat) k0, foldl Nat.max k0 ks ∈ k0 :: ks).
    { clear. induction ks as [|k1 ks IH]; intros k0; simpl; [left|]. pose proof (IH (Nat.max k0 k1)) as I1.
      apply elem_of_cons in I1 as [I1|I1]; [|right; by right]. rewrite I1. destruct (Nat.max_spec k0 k1) as [[_ ->]|[_ ->]]; [right; left|left]. }
    pose proof (HM ds d) as Hin. rewrite <- ED in Hin. apply elem_of_list_fmap in Hin as (x & Ex & Hx).
    pose proof (subgraph_degree S _ _ WS NL HE (HD m) x Hx). lia.
  - cbn [rbind] in HR. destruct topology; cbn beta iota in HR.
    + destruct (existsb _ _) eqn:EX.
      * apply existsb_exists in EX as (x & Hx & H2). apply Nat.ltb_lt in H2. apply elem_of_list_In in Hx.
        assert (col S x <= 1); [|lia]. apply Hcol; [|done]. by apply (subgraph_bipartite S _ WS NL HE), HB.
      * destruct (grow_lattice _ _ _ _ _ _ _); cbn [rbind] in HR; congruence.
    + destruct (grow_lattice _ _ _ _ _ _ _); cbn [rbind] in HR; congruence.
    + destruct (grow_lattice _ _ _ _ _ _ _); cbn [rbind] in HR; congruence.
Qed.
(** a loop that never ends: sizes without end, none big enough *)
Lemma grow_never fuel S fam t o m0 : (forall m, feasibility_filter S (gen fam t m) false o = Ok false) ->
  grow_lattice gen fuel S fam t o m0 = Err OOF.
Proof. intros H. revert m0. induction fuel as [|fuel IH]; intros m0; cbn [grow_lattice]; [done|]. rewrite H. cbn [rbind]. apply IH. Qed.
End props.

Lemma chimera_edges m t a b : (a, b) ∈ nx_edges (chimera_graph m t) <-> chimera_arc a b /\ a ∈ chimera_nodes m t /\ b ∈ chimera_nodes m t.
Proof.
  simpl. rewrite elem_of_remove_dups, elem_of_list_filter. simpl. rewrite elem_of_list_In, in_prod_iff, <- !elem_of_list_In. done.
Qed.
Lemma chimera_wf m t : nx_wf (chimera_graph m t).
Proof.
  split.
  - apply NoDup_remove_dups.
  - intros a b He. apply chimera_edges in He as (_ & ? & ?). simpl. by rewrite !elem_of_remove_dups.
  - apply NoDup_remove_dups.
  - intros [[[i j] u] k] [[[i' j'] u'] k'] H1 H2. apply chimera_edges in H1 as [H1 _], H2 as [H2 _]. simpl in *. lia.
Qed.
Lemma chimera_size m t : length (nx_nodes (chimera_graph m t)) <= 2 * t * (m * m).
Proof.
  simpl. transitivity (length (chimera_nodes m t)).
  - generalize (chimera_nodes m t). intros l. induction l as [|x l IH]; simpl; [done|]. destruct (decide_rel _ _ _); simpl; lia.
  - unfold chimera_nodes, cnode. rewrite !prod_length, !seq_length. simpl. lia.
Qed.
Lemma chimera_bipartite m t : bipartite (chimera_graph m t).
Proof.
  exists (fun a : cnode => let '(i, j, u, k) := a in Nat.odd (i + j + u)).
  assert (H : forall a b, chimera_arc a b -> (let '(i, j, u, k) := a in Nat.odd (i + j + u)) <> (let '(i, j, u, k) := b in Nat.odd (i + j + u))).
  { intros [[[i j] u] k] [[[i' j'] u'] k'] H. assert (E : i' + j' + u' = S (i + j + u)) by (simpl in H; lia). rewrite E, Nat.odd_succ, <- Nat.negb_odd.
    by destruct (Nat.odd _). }
  intros a b [Hab|Hab]; apply chimera_edges in Hab as [Hab _]; [by apply H|]. apply not_eq_sym. by apply H.
Qed.
Lemma chimera_degree m t : degree_at_most (chimera_graph m t) (t + 2).
Proof.
  intros [[[i j] u] k] l ND Hl.
  assert (Hk : forall b, b ∈ chimera_nodes m t -> b.2 < t).
  { intros [[[i' j'] u'] k'] Hb. unfold chimera_nodes in Hb. rewrite elem_of_list_In in Hb. apply in_prod_iff in Hb as [_ Hb]. apply in_seq in Hb. simpl. lia. }
  assert (Hsub : l ⊆ ((fun k' => (i, j, 1 - u, k')) <$> seq 0 t) ++ (if decide (u = 0) then [(S i, j, u, k); (i - 1, j, u, k)] else [(i, S j, u, k); (i, j - 1, u, k)])).
  { intros [[[i' j'] u'] k'] Hb. apply Hl in Hb. apply elem_of_app.
    destruct Hb as [Hb|Hb]; apply chimera_edges in Hb as (Ha & H1 & H2); apply Hk in H1, H2; simpl in *;
      destruct Ha as [(? & ? & ? & ?)|[(? & ? & ? & ? & ?)|(? & ? & ? & ? & ?)]]; subst.
    - left. apply elem_of_list_fmap. exists k'. split; [done|]. apply elem_of_seq. lia.
    - right. left.
    - right. left.
    - left. apply elem_of_list_fmap. exists k'. split; [done|]. apply elem_of_seq. lia.
    - right. right. replace (S i' - 1) with i' by lia. left.
    - right. right. replace (S j' - 1) with j' by lia. left. }
  transitivity (length (((fun k' => (i, j, 1 - u, k')) <$> seq 0 t) ++ (if decide (u = 0) then [(S i, j, u, k); (i - 1, j, u, k)] else [(i, S j, u, k); (i, j - 1, u, k)]))).
  - by apply submseteq_length, NoDup_submseteq.
  - rewrite app_length, fmap_length, seq_length. destruct (decide (u = 0)); simpl; lia.
Qed.
Lemma star_wf n : nx_wf (star_graph n).
Proof.
  split; simpl.
  - apply (NoDup_fmap_2 (fun k => (0, 0, 0, k)) (0 :: seq 1 n)). apply (NoDup_seq 0 (S n)).
  - intros a b H. apply elem_of_list_fmap in H as (k & [= -> ->] & Hk). split; [left|]. right. apply elem_of_list_fmap. by exists k.
  - apply NoDup_fmap_2, NoDup_seq. intros x y H. by simplify_eq.
  - intros a b H1 H2. apply elem_of_list_fmap in H1 as (k & [= -> ->] & Hk). apply elem_of_list_fmap in H2 as (k' & E & Hk'). by simplify_eq.
Qed.
Lemma star_loops n : no_loops (star_graph n).
Proof. intros x H. simpl in H. apply elem_of_list_fmap in H as (k & E & Hk). simplify_eq. apply elem_of_seq in Hk. lia. Qed.
Lemma star_filter {A : Type} `{!EqDecision A} (S T : nxgraph A) n x : nx_wf T -> no_loops T -> degree_at_most T n ->
  x ∈ nx_nodes S -> n < nx_degree S x -> feasibility_filter S T false true = Ok false.
Proof.
  intros WT NL HD Hx Hn. unfold feasibility_filter. destruct (_ || _) eqn:E; [done|]. apply orb_false_iff in E as [E _]. apply Nat.ltb_ge in E.
  assert (E0 : (length (nx_nodes S) =? 0) = false).
  { apply Nat.eqb_neq. intros E0. apply nil_length_inv in E0. rewrite E0 in Hx. by apply elem_of_nil in Hx. }
  rewrite E0. destruct (length (nx_nodes T) =? 0); [done|]. unfold degree_filter. rewrite bool_decide_eq_true_2; [done|].
  assert (HS : nx_degree S x ∈ degrees_sorted S) by (rewrite degrees_perm; apply elem_of_list_fmap; by exists x).
  apply elem_of_list_lookup in HS as [i Hi]. pose proof (lookup_lt_Some _ _ _ Hi) as Hl.
  assert (Ht : length (degrees_sorted T) - length (degrees_sorted S) + i < length (degrees_sorted T)) by (rewrite !degrees_length in *; lia).
  apply lookup_lt_is_Some in Ht as [t Ht]. apply Exists_exists. exists (t, nx_degree S x). split.
  - apply elem_of_list_lookup. exists i. apply lookup_zip_with_Some. exists t, (nx_degree S x). by rewrite lookup_drop.
  - simpl. apply elem_of_list_lookup_2 in Ht. rewrite degrees_perm in Ht. apply elem_of_list_fmap in Ht as (q & -> & _).
    apply (degree_at_most_iff T n WT NL) with (x := q) in HD. lia.
Qed.
Lemma chimera_loops m t : no_loops (chimera_graph m t).
Proof. intros [[[i j] u] k] H. apply chimera_edges in H as [H _]. simpl in H. lia. Qed.
