(** Embedders for the examples; arrays of embeddings. *)
Require Import Lia.
From stdpp Require Import base list numbers relations.
From Verif Require Import Base NxModel SpecNx FeasModel ParModel SpecPar DiagProofs FeasProofs3 ParProofs ParProofs2.

(** proposes always the same dict, after a check *)
Section emb.
Context {A : Type} `{!EqDecision A}.
Definition good_b (o : bool) (e : pyemb A) (S T : nxgraph A) : bool :=
  bool_decide (NoDup e.*1) && forallb (fun k => bool_decide (k ∈ nx_nodes S)) e.*1
  && match valid_embedding o e S T with Ok b => b | Err _ => false end.
Lemma good_b_good o e S T : nx_wf S -> nx_wf T -> good_b o e S T = true -> good_emb o S T e.
Proof.
  intros HS HT. unfold good_b. rewrite !andb_true_iff, bool_decide_eq_true, forallb_forall. intros [[ND Hk] Hv].
  apply valid_good; [done|done|done| |].
  - intros k Hk'. apply elem_of_list_In, Hk in Hk'. by apply bool_decide_eq_true in Hk'.
  - destruct (valid_embedding o e S T) as [[]|]; done.
Qed.
Definition fixed_world (o : bool) (e : pyemb A) : world A :=
  mkWorld (fun _ S T => if good_b o e S T then e else []) (fun _ => false) (fun _ g => g).
Lemma fixed_honest o e : honest_embedder o (fixed_world o e).
Proof. intros i S T HS HT. cbn [fixed_world w_embedder]. destruct (good_b o e S T) eqn:E; [right; by apply good_b_good|by left]. Qed.

(** tries all maps of the source nodes to target nodes *)
Fixpoint all_maps (ks vs : list A) : list (pyemb A) :=
  match ks with
  | [] => [[]]
  | k :: ks => v ← vs; r ← all_maps ks vs; [(k, Node v) :: r]
  end.
Lemma all_maps_in ks vs (f : A -> A) : (forall k, k ∈ ks -> f k ∈ vs) -> ((fun k => (k, Node (f k))) <$> ks) ∈ all_maps ks vs.
Proof.
  induction ks as [|k ks IH]; intros Hf; [by left|]. rewrite fmap_cons. cbn [all_maps]. apply elem_of_list_bind. exists (f k). split; [|apply Hf; left].
  apply elem_of_list_bind. eexists. split; [|apply IH; intros k' Hk'; apply Hf; by right]. by apply elem_of_list_singleton.
Qed.
Definition brute_world : world A :=
  mkWorld (fun _ S T => default [] (head (filter (fun e => good_b false e S T = true) (all_maps (nx_nodes S) (nx_nodes T))))) (fun _ => false) (fun _ g => g).
Lemma brute_honest : honest_embedder false brute_world.
Proof.
  intros i S T HS HT. cbn [brute_world w_embedder]. destruct (filter _ _) as [|e l] eqn:E; [by left|]. right. simpl.
  assert (He : e ∈ e :: l) by left. rewrite <- E in He. apply elem_of_list_filter in He as [He _]. by apply good_b_good.
Qed.
Lemma brute_complete : complete_embedder true brute_world.
Proof.
  intros i S T HS HT Hne Hemb. cbn [brute_world w_embedder]. destruct (subgraph_maps S T Hemb) as (f & Hf & Hinj & Hadj).
  set (e := (fun k => (k, Node (f k))) <$> nx_nodes S).
  assert (Hkeys : e.*1 = nx_nodes S).
  { subst e. rewrite <- list_fmap_compose. clear. induction (nx_nodes S) as [|x l IH]; [done|]. rewrite fmap_cons. by rewrite IH. }
  assert (Hon : forall x q, on_chain (chains_of e) x q <-> x ∈ nx_nodes S /\ q = f x).
  { intros x q. subst e. clear. induction (nx_nodes S) as [|y l IH].
    - split; [intros H; by apply on_chain_nil in H|]. intros [H _]. by apply elem_of_nil in H.
    - rewrite fmap_cons, on_chain_cons, IH, elem_of_cons. simpl. rewrite elem_of_list_singleton. split; [intros [[-> ->]|[? ->]]; auto|]. intros [[->|?] ->]; auto. }
  assert (Hgb : good_b false e S T = true).
  { unfold good_b. rewrite !andb_true_iff, bool_decide_eq_true, forallb_forall, Hkeys. split; [split; [apply HS|]|].
    - intros k Hk. apply bool_decide_eq_true. by apply elem_of_list_In.
    - unfold valid_embedding. assert (Ht : tuples false e = Ok (chains_of e)).
      { subst e. clear. induction (nx_nodes S) as [|y l IH]; [done|]. rewrite fmap_cons. cbn [tuples rbind]. rewrite IH. done. }
      rewrite Ht. cbn [rbind]. apply (valid_iff (chains_of e) S T); [rewrite chains_keys, Hkeys; apply HS|done|done|].
      split.
      + intros x Hx. exists (f x). by apply Hon.
      + intros x q Hx Hq. apply Hon in Hq as [_ ->]. auto.
      + intros x Hx a b Ha Hb. apply Hon in Ha as [_ ->], Hb as [_ ->]. done.
      + intros x y q Hx Hy Ha Hb. apply Hon in Ha as [_ ->], Hb as [_ Hb]. by apply Hinj.
      + intros x y Hxy Hn. exists (f x), (f y). rewrite !Hon.
        assert (x ∈ nx_nodes S /\ y ∈ nx_nodes S) as [Hx Hy] by (destruct Hxy as [Hxy|Hxy]; apply (nw_ends _ HS) in Hxy; tauto). auto. }
  assert (Hin : e ∈ filter (fun e => good_b false e S T = true) (all_maps (nx_nodes S) (nx_nodes T))).
  { apply elem_of_list_filter. split; [done|]. by apply all_maps_in. }
  destruct (filter _ _) as [|e' l] eqn:E; [by apply elem_of_nil in Hin|]. simpl. intros E'.
  assert (He : e' ∈ e' :: l) by left. rewrite <- E in He. clear E Hin. subst e'. apply elem_of_list_filter in He as [He _]. apply good_b_good in He; [|done|done].
  destruct (nx_nodes S) as [|x0 l0] eqn:En; [done|]. destruct (ne_nonempty _ _ _ (ge_embedding _ _ _ _ He) x0) as [q Hq]; [rewrite En; left|]. by apply on_chain_nil in Hq.
Qed.

(** arrays *)
Lemma row_ok {B} (e : list (A * B)) (order : list A) acc : (forall v, v ∈ order -> exists x, dlookup e v = Some x) ->
  exists r, foldM (fun acc v => match dlookup e v with Some x => Ok (acc ++ [x]) | None => Err UB end) order acc = Ok (acc ++ r)
    /\ length r = length order /\ forall k v x, order !! k = Some v -> r !! k = Some x -> dlookup e v = Some x.
Proof.
  revert acc. induction order as [|v order IH]; intros acc H; cbn [foldM].
  - exists []. by rewrite app_nil_r.
  - destruct (H v) as [x Ex]; [left|]. rewrite Ex. cbn [rbind]. destruct (IH (acc ++ [x])) as (r & Er & Hl & Hr); [intros u Hu; apply H; by right|].
    exists (x :: r). rewrite Er, <- app_assoc. split; [done|]. split; [simpl; by rewrite Hl|]. intros [|k] u y Hu Hy; simpl in Hu, Hy; [congruence|eauto].
Qed.
Theorem array_roundtrip {B} (embs : list (list (A * B))) (order : list A) : NoDup order ->
  (forall e v, e ∈ embs -> v ∈ order -> exists x, dlookup e v = Some x) -> length embs <> length order ->
  exists rows out, embeddings_to_array embs (Some order) = Ok rows /\ array_to_embeddings rows order = Ok out /\
    length out = length embs /\
    forall k e d, embs !! k = Some e -> out !! k = Some d -> d.*1 = order /\ forall v y, (v, y) ∈ d -> exists x, dlookup e v = Some x /\ y = Entry x.
Proof.
  intros ND Hall Hne. unfold embeddings_to_array.
  set (row := fun e : list (A * B) => foldM (fun acc v => match dlookup e v with Some x => Ok (acc ++ [x]) | None => Err UB end) order []).
  assert (Hrows : forall l acc, (forall e, e ∈ l -> e ∈ embs) -> exists rows, foldM (fun acc e => let! r := row e in Ok (acc ++ [r])) l acc = Ok (acc ++ rows) /\ length rows = length l
    /\ forall k e r, l !! k = Some e -> rows !! k = Some r -> length r = length order /\ forall i v x, order !! i = Some v -> r !! i = Some x -> dlookup e v = Some x).
  { induction l as [|e l IH]; intros acc Hl; cbn [foldM].
    - exists []. by rewrite app_nil_r.
    - destruct (row_ok e order []) as (r & Er & Hlen & Hr); [intros v Hv; apply Hall; [apply Hl; left|done]|]. unfold row at 1. rewrite Er. cbn [rbind app].
      destruct (IH (acc ++ [r])) as (rows & E & Hl' & H); [intros e' He'; apply Hl; by right|]. exists (r :: rows). rewrite E, <- app_assoc. split; [done|].
      split; [simpl; by rewrite Hl'|]. intros [|k] e' r' He' Hr'; simpl in He', Hr'; [|eauto]. injection He' as <-. injection Hr' as <-. done. }
  destruct (Hrows embs []) as (rows & E & Hlen & H); [done|]. exists rows. unfold array_to_embeddings.
  rewrite Hlen, (proj2 (Nat.eqb_neq _ _) Hne).
  assert (Hb : forallb (fun r : list B => length r <=? length order) rows = true).
  { apply forallb_forall. intros r Hr. apply elem_of_list_In, elem_of_list_lookup in Hr as [k Hk].
    destruct (lookup_lt_is_Some_2 embs k) as [e He]; [apply lookup_lt_Some in Hk; lia|]. destruct (H k e r He Hk) as [-> _]. apply Nat.leb_refl. }
  rewrite Hb. eexists. split; [done|]. split; [done|]. split; [by rewrite fmap_length|].
  intros k e d He Hd. rewrite list_lookup_fmap in Hd. destruct (rows !! k) as [r|] eqn:Hr; [|done]. injection Hd as <-. destruct (H k e r He Hr) as [Hlr Hx]. split.
  - apply fst_zip. rewrite fmap_length. lia.
  - intros v y Hvy. apply elem_of_list_lookup in Hvy as [i Hi]. apply lookup_zip_with_Some in Hi as (v' & y' & [= <- <-] & Hv & Hy).
    rewrite list_lookup_fmap in Hy. destruct (r !! i) as [x|] eqn:Ex; [|done]. injection Hy as <-. exists x. split; [by eapply Hx|done].
Qed.
End emb.
