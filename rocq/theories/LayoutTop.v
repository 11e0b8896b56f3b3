(** Runs of the layout functions, and the composition with minorminer.find_embedding. *)
From Coq Require Import QArith Qabs Lqa Lia.
From stdpp Require Import base list numbers gmap sorting relations.
From Verif Require Import Base NxModel SpecNx PyCacheModel GraphModel ParamModel PathModel PyModel SpecPy LayoutModel SpecLayout LayoutProofs1 LayoutProofs2 P_py.
From stdpp Require Import list.

(** ** A search through all points satisfies the specification of the tree *)
Definition closer (pts : list (list Q)) (u : list Q) (i j : nat) : Prop :=
  (Qle_bool (sqdist u (default [] (pts !! i))) (sqdist u (default [] (pts !! j)))) = true.
#[global] Instance closer_dec pts u : RelDecision (closer pts u).
Proof. intros i j. unfold closer. apply _. Defined.
Definition scan (pts : list (list Q)) (u : list Q) (k : nat) : list (Q * nat) :=
  take k (((fun i => (sqdist u (default [] (pts !! i)), i)) <$> merge_sort (closer pts u) (seq 0 (length pts))) ++ replicate k (0%Q, length pts)).
Lemma sorted_app_rel {B} (R : B -> B -> Prop) l1 l2 x y : StronglySorted R (l1 ++ l2) -> x ∈ l1 -> y ∈ l2 -> R x y.
Proof.
  induction l1 as [|z l1 IH]; [by intros ? ?%elem_of_nil|]. intros HS [->|Hx]%elem_of_cons Hy; apply StronglySorted_inv in HS as [HS HF].
  - rewrite Forall_forall in HF. apply HF. apply elem_of_app. by right.
  - by apply IH.
Qed.
Lemma scan_nearest pts u k : 1 <= k <= length pts -> nearest pts u k (scan pts u k).
Proof.
  intros Hk. unfold scan. set (l := merge_sort (closer pts u) (seq 0 (length pts))).
  assert (HP : l ≡ₚ seq 0 (length pts)) by apply merge_sort_Permutation.
  assert (Htr : Transitive (closer pts u)). { intros i j h. unfold closer. rewrite !Qle_bool_iff. apply Qle_trans. }
  assert (Htot : Total (closer pts u)). { intros i j. unfold closer. rewrite !Qle_bool_iff.
    destruct (Qlt_le_dec (sqdist u (default [] (pts !! i))) (sqdist u (default [] (pts !! j)))) as [H|H]; [left; by apply Qlt_le_weak|by right]. }
  assert (HS : StronglySorted (closer pts u) l) by (apply StronglySorted_merge_sort; apply _).
  assert (Hl : length l = length pts) by (by rewrite HP, seq_length).
  rewrite take_app_le by (rewrite fmap_length; lia). rewrite <- fmap_take.
  set (f := fun i => (sqdist u (default [] (pts !! i)), i)).
  assert (E : (f <$> take k l).*2 = take k l). { rewrite <- list_fmap_compose. unfold f. cbn. transitivity (id <$> take k l); [done|apply list_fmap_id]. }
  assert (Hlt : forall i, i ∈ l -> i < length pts). { intros i Hi. rewrite HP in Hi. apply elem_of_seq in Hi. lia. }
  split; [rewrite fmap_length, take_length; lia|]. rewrite E. split; [|split].
  - apply (NoDup_app (take k l) (drop k l)). rewrite take_drop, HP. apply NoDup_seq.
  - intros i Hi. apply Hlt. rewrite <- (take_drop k l). apply elem_of_app. by left.
  - intros i j p q Hi Hj Hp Hq.
    assert (Hj' : j ∈ drop k l). { assert (j ∈ l) as Hjl by (rewrite HP; apply elem_of_seq; apply lookup_lt_Some in Hq; lia). rewrite <- (take_drop k l) in Hjl. apply elem_of_app in Hjl as [?|?]; done. }
    rewrite <- (take_drop k l) in HS. assert (HC : closer pts u i j) by (by eapply sorted_app_rel). unfold closer in HC. rewrite Hp, Hq in HC. by apply Qle_bool_iff in HC.
Qed.

(** ** [find_embedding] with a placement *)
Section embed.
Context {A : Type} `{!EqDecision A} (pin : A -> nat -> A).
Definition with_placement (h : hint) (pl : list (A * list A)) (p : pyparams A) : pyparams A :=
  match h with
  | InitialChains => mkPP (py_opts p) (py_fixed p) pl (py_restrict p) (py_suspend p)
  | SuspendChains => mkPP (py_opts p) (py_fixed p) (py_initial p) (py_restrict p) ((fun e => (e.1, [e.2])) <$> pl)
  end.
Lemma layout_find_with h pl S T p o : layout_find_embedding pin h pl S T p o = py_find_embedding pin S T (with_placement h pl p) o.
Proof. by destruct h. Qed.
Lemma no_fixed_maps (I : list (A * list A)) : NoDup I.*1 -> (forall v C, (v, C) ∈ I -> NoDup C) -> good_maps [] I.
Proof.
  intros H1 H2. split; [constructor|done|done|by intros ? ? ? ? ? ?%elem_of_nil|]. intros v C HC. split.
  - intros (C' & HC' & _). by apply elem_of_nil in HC'.
  - by intros ? ? ? ? ?%elem_of_nil.
Qed.
Lemma layout_embedding_ok h pl S T p o : py_fixed p = [] -> py_initial p = [] -> py_suspend p = [] -> py_restrict p = [] ->
  NoDup pl.*1 -> (forall v C, (v, C) ∈ pl -> NoDup C) -> py_fits S T (with_placement h pl p) o ->
  (forall e, layout_find_embedding pin h pl S T p o = Err e -> e <> UB /\ e <> OOF) /\
  forall r d, layout_find_embedding pin h pl S T p o = Ok r -> reports r d -> label_embedding S T d /\
    (h = SuspendChains -> forall v C, occurs S v -> (v, C) ∈ pl -> C <> [] -> exists q, q ∈ C /\ in_dict d v q).
Proof.
  intros HF HI HX HR H1 H2 Hfit. rewrite layout_find_with.
  assert (HG : good_maps (py_fixed (with_placement h pl p)) (py_initial (with_placement h pl p))).
  { destruct h; cbn; rewrite HF, ?HI; [by apply no_fixed_maps|]. apply no_fixed_maps; [constructor|by intros ? ? ?%elem_of_nil]. }
  assert (HR' : py_restrict (with_placement h pl p) = []) by (by destruct h).
  assert (HN : forall v, ~ given (py_fixed (with_placement h pl p)) v).
  { intros v (C & HC & _). destruct h; cbn in HC; rewrite HF in HC; by apply elem_of_nil in HC. }
  split; [intros e He; by eapply C47_safe|]. intros r d Hr Hd. split; [by eapply C47_success_free|].
  intros -> v C Hv HC Hne. refine (C31_suspend_partial pin S T _ o r d HG HR' Hfit Hr Hd v Hv (HN v) [C] C _ _ Hne); [|left].
  cbn. apply elem_of_list_fmap. by exists (v, C).
Qed.
End embed.

Lemma closest_embedding_ok pin ord kd ovf (T : nxgraph nat) d tl h SL lo hi k S p o :
  (forall s, ord s ≡ₚ elements s) -> (forall pts u k, 1 <= k <= length pts -> nearest pts u k (kd pts u k)) -> (forall i, ovf i 1 = false) ->
  layout_of T d tl -> 1 <= k -> (exists Xs, NoDup Xs /\ length Xs = k /\ forall X, X ∈ Xs -> connected_set T X /\ lo <= size X <= hi) ->
  NoDup SL.*1 -> py_fixed p = [] -> py_initial p = [] -> py_suspend p = [] -> py_restrict p = [] ->
  (forall X : list (nat * list (list nat)), length X = length SL -> (forall e, e ∈ X -> length e.2 = 1) ->
     py_fits S (mkPG (nx_edges T) (Some (nx_nodes T))) (mkPP (py_opts p) [] [] [] X) o) ->
  exists pl, closest ord kd ovf SL T tl lo hi k = Ok pl /\
  (forall e, closest_embedding pin ord kd ovf h SL T tl lo hi k S p o = Err e -> e <> UB /\ e <> OOF) /\
  forall r dd, closest_embedding pin ord kd ovf h SL T tl lo hi k S p o = Ok r -> reports r dd ->
    label_embedding S (mkPG (nx_edges T) (Some (nx_nodes T))) dd /\
    (h = SuspendChains -> forall v X, occurs S v -> (v, X) ∈ pl -> exists q, q ∈ X /\ in_dict dd v q).
Proof.
  intros Hord Hkd Hovf HL Hk HXs HN HF HI HX HR Hfit. destruct (closest_ok ord Hord kd Hkd ovf Hovf T d tl HL SL lo hi k Hk HXs) as (pl & E & Hpl & Hnear & _).
  exists pl. split; [done|]. unfold closest_embedding. rewrite E. cbn [rbind]. set (pl' := (fun e => (e.1, elements e.2)) <$> pl).
  assert (K1 : pl'.*1 = SL.*1). { unfold pl'. rewrite <- list_fmap_compose. rewrite <- Hpl. done. }
  assert (K2 : forall v C, (v, C) ∈ pl' -> NoDup C). { intros v C HC. apply elem_of_list_fmap in HC as ([v' X] & [= -> ->] & _). apply NoDup_elements. }
  assert (Hlen : length pl' = length SL) by (by rewrite <- (fmap_length fst), K1, fmap_length).
  assert (Hfit' : py_fits S (mkPG (nx_edges T) (Some (nx_nodes T))) (with_placement h pl' p) o).
  { assert (H0 : py_fits S (mkPG (nx_edges T) (Some (nx_nodes T))) (mkPP (py_opts p) [] [] [] ((fun e => (e.1, [e.2])) <$> pl')) o).
    { apply Hfit; [by rewrite fmap_length|]. intros e He. apply elem_of_list_fmap in He as (e' & -> & _). done. }
    destruct h; cbn.
    - intros VS VT HS HT n m Hn Hm. apply (H0 VS VT HS HT n m); unfold blobs_of in *; cbn in *; rewrite HX in *; cbn in *; lia.
    - exact H0. }
  destruct (layout_embedding_ok pin h pl' S (mkPG (nx_edges T) (Some (nx_nodes T))) p o HF HI HX HR ltac:(by rewrite K1) K2 Hfit') as [Herr Hok].
  split; [exact Herr|]. intros r dd Hr Hd. destruct (Hok r dd Hr Hd) as [H1 H2]. split; [done|]. intros Hh v X Hv Hin.
  destruct (H2 Hh v (elements X) Hv) as (q & Hq & Hd'); [apply elem_of_list_fmap; by exists (v, X)| |exists q; split; [by apply elem_of_elements|done]].
  intros He. apply elem_of_list_lookup in Hin as [i Hi]. assert (exists x, SL !! i = Some (v, x)) as [x Hx].
  { assert (E' : pl.*1 !! i = Some v) by (by rewrite list_lookup_fmap, Hi). rewrite Hpl, list_lookup_fmap in E'. apply fmap_Some in E' as ([v' x] & E' & ->). by exists x. }
  destruct (Hnear i v x X Hx Hi) as ((Hne & _) & _). apply Hne. by apply leibniz_equiv, elements_empty_inv.
Qed.
