(** The candidate sets of [closest] and their barycentres. *)
From Coq Require Import QArith Lqa Lia.
From stdpp Require Import base list numbers gmap relations.
From Verif Require Import Base NxModel PyCacheModel LayoutModel SpecNx SpecLayout.

(** ** Dicts *)
Section dicts.
Context {K B : Type} `{!EqDecision K}.
Implicit Types d : list (K * B).
Lemma gstore_keys d k b : (dstore d k b).*1 = if decide (k ∈ d.*1) then d.*1 else d.*1 ++ [k].
Proof.
  induction d as [|[k' b'] d IH]; cbn; [done|]. destruct (decide (k' = k)) as [->|Hne]; cbn.
  - rewrite decide_True by left. done.
  - rewrite IH. destruct (decide (k ∈ d.*1)) as [H|H].
    + rewrite decide_True by (by right). done.
    + rewrite decide_False; [done|]. intros [->|?]%elem_of_cons; done.
Qed.
Lemma gstore_key d k b k' : k' ∈ (dstore d k b).*1 <-> k' = k \/ k' ∈ d.*1.
Proof.
  rewrite gstore_keys. destruct (decide _) as [H|H].
  - split; [by right|]. intros [->|?]; done.
  - rewrite elem_of_app, elem_of_list_singleton. tauto.
Qed.
Lemma gstore_nodup d k b : NoDup d.*1 -> NoDup (dstore d k b).*1.
Proof.
  intros H. rewrite gstore_keys. destruct (decide _); [done|]. apply NoDup_app. split; [done|]. split; [|apply NoDup_singleton].
  intros x Hx ->%elem_of_list_singleton. done.
Qed.
Lemma gstore_elem d k b e : e ∈ dstore d k b -> e = (k, b) \/ e ∈ d.
Proof.
  induction d as [|[k' b'] d IH]; cbn; [intros ->%elem_of_list_singleton; by left|].
  destruct (decide (k' = k)) as [->|]; rewrite !elem_of_cons; naive_solver.
Qed.
Lemma glookup_Some d k b : NoDup d.*1 -> (k, b) ∈ d -> dlookup d k = Some b.
Proof.
  induction d as [|[k' b'] d IH]; cbn; intros HN H; [by apply elem_of_nil in H|]. apply NoDup_cons in HN as [HN1 HN2].
  apply elem_of_cons in H as [[= -> ->]|H]; [by rewrite decide_True|]. rewrite decide_False; [by apply IH|].
  intros ->. apply HN1. apply elem_of_list_fmap. by exists (k, b).
Qed.
End dicts.

(** ** Connected subgraphs *)
Section conn.
Context (G : nxgraph nat).
Lemma neighbors_spec v u : u ∈ neighbors G v <-> nx_adj G v u /\ u ∈ nx_nodes G.
Proof. unfold neighbors, nx_adj, nx_has_edge. rewrite elem_of_list_filter, bool_decide_eq_true. done. Qed.
Lemma grow_spec L Z : Z ∈ grow G L <-> exists X v u, X ∈ L /\ v ∈ X /\ nx_adj G v u /\ u ∈ nx_nodes G /\ Z = X ∪ {[u]}.
Proof.
  unfold grow. rewrite elem_of_list_to_set. rewrite elem_of_list_bind. split.
  - intros (X & HX & HL). apply elem_of_list_bind in HX as (v & HX & Hv). apply elem_of_list_bind in HX as (u & HX & Hu).
    apply elem_of_list_singleton in HX. apply elem_of_elements in HL. apply elem_of_elements in Hv. apply neighbors_spec in Hu as [??]. eauto 10.
  - intros (X & v & u & HX & Hv & Ha & Hu & ->). exists X. split; [|by apply elem_of_elements].
    apply elem_of_list_bind. exists v. split; [|by apply elem_of_elements]. apply elem_of_list_bind. exists u. rewrite neighbors_spec.
    split; [by left|done].
Qed.
Lemma joined_grow (X : gset nat) v u : joined_in (nx_adj G) (fun v => v ∈ X) -> v ∈ X -> nx_adj G v u ->
  joined_in (nx_adj G) (fun w => w ∈ X ∪ {[u]}).
Proof.
  intros HJ Hv Ha.
  assert (HX : forall x y, x ∈ X -> y ∈ X -> rtc (fun a b => nx_adj G a b /\ a ∈ X ∪ {[u]} /\ b ∈ X ∪ {[u]}) x y).
  { intros x y Hx Hy. eapply rtc_subrel; [|by apply HJ]. intros a b (? & ? & ?). set_solver. }
  assert (Ha' : nx_adj G u v) by (destruct Ha; [by right|by left]).
  intros x y Hx Hy. apply elem_of_union in Hx as [Hx|Hx], Hy as [Hy|Hy].
  - by apply HX.
  - apply elem_of_singleton in Hy as ->. eapply rtc_r; [by apply (HX x v)|]. set_solver.
  - apply elem_of_singleton in Hx as ->. eapply rtc_l; [|by apply (HX v y)]. set_solver.
  - apply elem_of_singleton in Hx as ->. apply elem_of_singleton in Hy as ->. done.
Qed.
Lemma levels_sound i X : X ∈ levels G i -> connected_set G X /\ size X <= S i.
Proof.
  revert X. induction i as [|i IH]; intros X; cbn [levels].
  - rewrite elem_of_list_to_set, elem_of_list_fmap. intros (v & -> & Hv). split; [|by rewrite size_singleton].
    split; [set_solver|]. split; [set_solver|]. intros x y ->%elem_of_singleton ->%elem_of_singleton. done.
  - intros (X0 & v & u & HX & Hv & Ha & Hu & ->)%grow_spec. destruct (IH _ HX) as ((H1 & H2 & H3) & H4). split.
    + split; [set_solver|]. split; [set_solver|]. by eapply joined_grow.
    + pose proof (size_union_alt X0 {[u]}) as E. rewrite E. pose proof (subseteq_size ({[u]} ∖ X0) ({[u]} : gset nat) ltac:(set_solver)) as Hs.
      rewrite size_singleton in Hs. lia.
Qed.
Lemma rtc_leave {A} (R : A -> A -> Prop) (P : A -> Prop) `{!forall a, Decision (P a)} x y : rtc R x y -> P x -> ~ P y -> exists a b, R a b /\ P a /\ ~ P b.
Proof.
  induction 1 as [x|x z y Hxz Hzy IH]; intros Hx Hy; [done|]. destruct (decide (P z)) as [Hz|Hz]; [by apply IH|eauto].
Qed.
Lemma levels_grow X : connected_set G X -> forall i, i < size X -> exists Y, Y ∈ levels G i /\ Y ⊆ X /\ size Y = S i.
Proof.
  intros (H1 & H2 & H3). induction i as [|i IH]; intros Hi; cbn [levels].
  - apply set_choose_L in H1 as [v Hv]. exists {[v]}. split; [|split; [set_solver|apply size_singleton]].
    apply elem_of_list_to_set, elem_of_list_fmap. eauto.
  - destruct IH as (Y & HY & HYX & HS); [lia|].
    assert (exists x, x ∈ X /\ x ∉ Y) as (y & HyX & HyY).
    { destruct (decide (X ⊆ Y)) as [Hs|Hs]; [apply subseteq_size in Hs; lia|].
      destruct (set_choose_or_empty (X ∖ Y)) as [[x Hx]|He]; [exists x; set_solver|]. exfalso. apply Hs. set_solver. }
    assert (exists x, x ∈ Y) as [x HxY] by (apply set_choose_L; intros ->; by rewrite size_empty in HS).
    destruct (rtc_leave _ (fun a => a ∈ Y) x y (H3 x y ltac:(set_solver) HyX) HxY HyY) as (a & b & (Hab & Ha & Hb) & HaY & HbY).
    exists (Y ∪ {[b]}). split.
    + apply grow_spec. exists Y, a, b. by repeat (split; [by auto|]).
    + split; [set_solver|]. rewrite size_union by set_solver. rewrite size_singleton. lia.
Qed.
Lemma conn_size X : connected_set G X -> 1 <= size X <= length (nx_nodes G).
Proof.
  intros (H1 & H2 & _). split.
  - assert (size X <> 0); [|lia]. intros H%size_empty_inv. apply H1. by apply leibniz_equiv.
  - transitivity (size (list_to_set (nx_nodes G) : gset nat)).
    + apply subseteq_size. intros v Hv. apply elem_of_list_to_set, H2, Hv.
    + clear. generalize (nx_nodes G) as l. induction l as [|v l IHl]; cbn [list_to_set length]; [by rewrite size_empty|].
      rewrite size_union_alt. pose proof (subseteq_size (list_to_set l ∖ {[v]}) (list_to_set l : gset nat) ltac:(set_solver)) as Hs. rewrite size_singleton. lia.
Qed.
Lemma subgraphs_sound k j X : X ∈ connected_subgraphs G k j -> connected_set G X /\ size X <= j.
Proof.
  unfold connected_subgraphs. destruct (_ || _) eqn:E; [|by intros ?%elem_of_empty]. intros [H1 H2]%levels_sound.
  assert (1 <= j). { apply orb_true_iff in E as [E%Nat.eqb_eq|[E%Nat.ltb_lt _]%andb_true_iff]; lia. }
  split; [done|lia].
Qed.
Lemma subgraphs_complete k X : connected_set G X -> size X <= k -> X ∈ connected_subgraphs G k (size X).
Proof.
  intros HX Hk. pose proof (conn_size X HX) as Hs. destruct (levels_grow X HX (pred (size X)) ltac:(lia)) as (Y & HY & HYX & HS).
  replace (S (pred (size X))) with (size X) in HS by lia.
  assert (Y = X) as ->. { apply leibniz_equiv. intros v. split; [apply HYX|]. intros Hv. destruct (decide (v ∈ Y)) as [?|Hn]; [done|].
    pose proof (subset_size Y X ltac:(split; [done|]; intros Hc; by apply Hn, Hc)). lia. }
  unfold connected_subgraphs. replace (_ || _) with true; [done|]. symmetry. apply orb_true_iff.
  destruct (decide (size X = 1)) as [->|]; [by left|]. right. apply andb_true_iff. split; [apply Nat.ltb_lt; lia|apply Nat.leb_le; lia].
Qed.
End conn.

(** ** Barycentres *)
Lemma add_lookup (p q : list Q) i x y : p !! i = Some x -> q !! i = Some y -> add_points p q !! i = Some (x + y)%Q.
Proof. intros Hp Hq. unfold add_points. by rewrite lookup_zip_with, Hp; cbn; rewrite Hq. Qed.
Lemma mean_spec d (ps : list (list Q)) : ps <> [] -> (forall p, p ∈ ps -> length p = d) -> exists p, mean ps = Ok p /\ length p = d /\ barycentre ps p.
Proof.
  destruct ps as [|p0 ps]; [done|]. intros _ Hd. unfold mean. eexists. split; [reflexivity|].
  assert (H : forall ps a, length a = d -> (forall p, p ∈ ps -> length p = d) -> length (foldl add_points a ps) = d /\
    forall i x, a !! i = Some x -> exists y, foldl add_points a ps !! i = Some y /\
      Forall (fun q => is_Some (q !! i)) ps /\ (y == x + foldr Qplus 0 ((fun q => default 0 (q !! i)) <$> ps))%Q).
  { clear. induction ps as [|p ps IH]; intros a Ha Hp; cbn [foldl fmap list_fmap foldr].
    - split; [done|]. intros i x Hx. exists x. split; [done|]. split; [done|]. ring.
    - destruct (IH (add_points a p)) as [H1 H2]; [|intros q Hq; apply Hp; by right|].
      { unfold add_points. rewrite zip_with_length, Ha, (Hp p) by left. lia. }
      split; [done|]. intros i x Hx. assert (is_Some (p !! i)) as [z Hz].
      { apply lookup_lt_is_Some. rewrite (Hp p) by left. apply lookup_lt_Some in Hx. lia. }
      destruct (H2 i _ (add_lookup _ _ _ _ _ Hx Hz)) as (y & Hy & HF & E). exists y. split; [done|]. split; [constructor; [by eexists|done]|].
      rewrite E, Hz. cbn. ring. }
  destruct (H ps p0) as [H1 H2]; [apply Hd; left|intros p Hp; apply Hd; by right|]. split; [by rewrite fmap_length|].
  intros i x Hx. rewrite list_lookup_fmap in Hx. apply fmap_Some in Hx as (y & Hy & ->).
  assert (is_Some (p0 !! i)) as [x0 Hx0]. { apply lookup_lt_is_Some. rewrite (Hd p0) by left. apply lookup_lt_Some in Hy. lia. }
  destruct (H2 i x0 Hx0) as (y' & Hy' & HF & E). rewrite Hy in Hy'. injection Hy' as <-. split; [constructor; [by eexists|done]|].
  cbn [fmap list_fmap foldr]. rewrite Hx0. cbn [default]. change (from_option id 0%Q (Some x0)) with x0. rewrite <- E. field.
  intros Hz. unfold Qeq, inject_Z in Hz. cbn [Qnum Qden length] in Hz. lia.
Qed.

Section candidates.
Context (ord : gset (gset nat) -> list (gset nat)) (Hord : forall s, ord s ≡ₚ elements s).
Context (T : nxgraph nat) (d : nat) (tl : list (nat * list Q)) (HL : layout_of T d tl).

Lemma position_ok k X : connected_set T X -> (k = 1 -> size X <= 1) -> exists p, subset_position tl k X = Ok p /\ centre_of tl d X p.
Proof using HL Hord.
  intros HX Hk. destruct HL as (L1 & L2 & L3). destruct HX as (X1 & X2 & X3).
  assert (Hget : forall v, v ∈ X -> exists p, dlookup tl v = Some p /\ (v, p) ∈ tl /\ length p = d).
  { intros v Hv. destruct (L2 v (X2 v Hv)) as [p Hp]. exists p. split; [by apply glookup_Some|]. split; [done|]. by eapply L3. }
  unfold subset_position. destruct (k =? 1) eqn:E.
  - apply Nat.eqb_eq in E. specialize (Hk E). assert (size X = 1) as HS.
    { assert (size X <> 0); [|lia]. intros H%size_empty_inv. apply X1. by apply leibniz_equiv. }
    apply size_1_elem_of in HS as [v ->%leibniz_equiv]. rewrite elements_singleton. destruct (Hget v ltac:(set_solver)) as (p & Hp & Hin & Hd).
    rewrite Hp. cbn. exists p. split; [done|]. split; [done|]. exists [p]. rewrite size_singleton. split; [done|]. split.
    + intros i x Hx. split; [constructor; [by eexists|done]|]. cbn [fmap list_fmap foldr]. rewrite Hx. cbn [default length].
      change (from_option id 0%Q (Some x)) with x. cbn. ring.
    + exists [v]. split; [apply NoDup_singleton|]. split; [set_solver|]. by repeat constructor.
  - destruct (foldM_inv (fun ps v => let! p := py_get (dlookup tl v) in Ok (ps ++ [p]))
      (fun dn ps => Forall2 (fun v q => (v, q) ∈ tl) dn ps) (elements X) []) as (ps & -> & HF).
    { constructor. }
    { intros dn v rest ps Hs HI. destruct (Hget v) as (p & -> & Hin & _). { apply elem_of_elements. rewrite Hs. apply elem_of_app. right. left. }
      cbn [py_get rbind]. eexists. split; [reflexivity|]. apply Forall2_app; [done|]. by repeat constructor. }
    cbn [rbind]. destruct (mean_spec d ps) as (p & Hm & Hd & Hb).
    + intros ->. apply Forall2_nil_inv_r in HF. by apply X1, leibniz_equiv, elements_empty_inv.
    + intros p Hp. apply elem_of_list_lookup in Hp as [i Hi]. destruct (Forall2_lookup_r _ _ _ _ _ HF Hi) as (v & _ & Hin). by eapply L3.
    + exists p. split; [done|]. split; [done|]. exists ps. split; [rewrite <- (Forall2_length _ _ _ HF); done|]. split; [done|].
      exists (elements X). split; [apply NoDup_elements|]. split; [apply list_to_set_elements_L|done].
Qed.

Lemma subset_layout_ok lo hi : exists sl, subset_layout ord T tl lo hi = Ok sl /\ candidates T d tl lo hi sl.
Proof using HL Hord.
  unfold subset_layout.
  destruct (foldM_inv (fun d k => foldM (fun d X => let! p := subset_position tl k X in Ok (dstore d X p)) (ord (connected_subgraphs T hi k)) d)
    (fun dn (sl : list (gset nat * list Q)) => NoDup sl.*1 /\ (forall X p, (X, p) ∈ sl -> connected_set T X /\ size X <= hi /\ centre_of tl d X p) /\
      (forall k X, k ∈ dn -> X ∈ connected_subgraphs T hi k -> X ∈ sl.*1)) (seq lo (S hi - lo)) []) as (sl & -> & H1 & H2 & H3).
  { split; [constructor|]. split; [by intros X p ?%elem_of_nil|by intros k X ?%elem_of_nil]. }
  { intros dn k rest s Hsq (I1 & I2 & I3).
    assert (Hk : lo <= k <= hi). { assert (Hin : k ∈ seq lo (S hi - lo)) by (rewrite Hsq; apply elem_of_app; right; left). apply elem_of_seq in Hin. lia. }
    destruct (foldM_inv (fun d X => let! p := subset_position tl k X in Ok (dstore d X p))
      (fun dn' (sl : list (gset nat * list Q)) => NoDup sl.*1 /\ (forall X p, (X, p) ∈ sl -> connected_set T X /\ size X <= hi /\ centre_of tl d X p) /\
        (forall X, X ∈ s.*1 \/ X ∈ dn' -> X ∈ sl.*1)) (ord (connected_subgraphs T hi k)) s) as (sl & -> & J1 & J2 & J3).
    { split; [done|]. split; [done|]. intros X [?|?%elem_of_nil]; done. }
    { intros dn' X rest' s' Hs' (K1 & K2 & K3).
      assert (HX : X ∈ connected_subgraphs T hi k). { apply elem_of_elements. rewrite <- Hord, Hs'. apply elem_of_app. right. left. }
      apply subgraphs_sound in HX as [HX HS]. destruct (position_ok k X HX) as (p & -> & Hp); [lia|]. cbn [rbind]. eexists. split; [reflexivity|].
      split; [by apply gstore_nodup|]. split.
      - intros Y q [[= -> ->]|Hq]%gstore_elem; [|by apply K2]. split; [done|]. split; [lia|done].
      - intros Y HY. apply gstore_key. rewrite elem_of_app, elem_of_list_singleton in HY. naive_solver. }
    eexists. split; [reflexivity|]. split; [done|]. split; [done|]. intros k' X Hk' HX. apply J3.
    apply elem_of_app in Hk' as [Hk'| ->%elem_of_list_singleton]; [left; by eapply I3|]. right. rewrite Hord. by apply elem_of_elements. }
  eexists. split; [reflexivity|]. split; [done|]. split; [done|]. intros X HX HS. apply (H3 (size X)); [apply elem_of_seq; lia|].
  apply subgraphs_complete; [done|lia].
Qed.
End candidates.
