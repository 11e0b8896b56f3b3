(** Proofs about the clique cache: answers over a whole history, export and import. *)
From stdpp Require Import base list list_numbers numbers gmap sorting.
From Verif Require Import Base Wp SpecBus PyCacheModel PyCacheProofs1 PyCacheProofs2.

Lemma max_list_in (l : list nat) : l <> [] -> max_list l ∈ l.
Proof.
  induction l as [|a l IH]; [done|]. intros _. change (max_list (a :: l)) with (a `max` max_list l).
  destruct l as [|b l]; [cbn; rewrite Nat.max_0_r; by left|].
  destruct (Nat.max_spec a (max_list (b :: l))) as [[_ ->]|[_ ->]]; [right; by apply IH|by left].
Qed.
Lemma elem_of_keys {A} (m : gmap nat A) i : i ∈ (map_to_list m).*1 <-> is_Some (m !! i).
Proof.
  rewrite elem_of_list_fmap. split.
  - intros ([i' a] & -> & Hx). apply elem_of_map_to_list in Hx. by eexists.
  - intros [a Ha]. exists (i, a). split; [done|]. by apply elem_of_map_to_list.
Qed.
Lemma max_key_ok {A} (m : gmap nat A) k : max_key m = Ok k -> is_Some (m !! k) /\ forall j, is_Some (m !! j) -> j <= k.
Proof.
  unfold max_key. assert (Hk := elem_of_keys m). destruct (map_to_list m) as [|x l]; [done|].
  intros [= H]. assert (H' : k = max_list ((x :: l).*1)) by (by rewrite <-H). rewrite H'. split.
  - apply Hk. by apply max_list_in.
  - intros j Hj. apply Hk in Hj. by apply max_list_elem_of_le.
Qed.
Lemma filter_all {A} (P : A -> Prop) `{!forall x, Decision (P x)} (l : list A) : (forall x, x ∈ l -> P x) -> filter P l = l.
Proof.
  induction l as [|x l IH]; [done|]. intros HP. rewrite filter_cons_True by (apply HP; by left). f_equal. apply IH. intros y Hy. apply HP. by right.
Qed.
Lemma sub_filter {A} (P : A -> Prop) `{!forall x, Decision (P x)} (l : list A) : filter P l `sublist_of` l.
Proof.
  induction l as [|x l IH]; [done|]. rewrite filter_cons. case_decide; [by apply sublist_skip|by apply sublist_cons].
Qed.
Lemma filter_le_length {A} (P : A -> Prop) `{!forall x, Decision (P x)} (l : list A) : length (filter P l) <= length l.
Proof. apply submseteq_length, sublist_submseteq, sub_filter. Qed.
Lemma max_key_err {A} (m : gmap nat A) e : max_key m = Err e -> m = ∅.
Proof. unfold max_key. destruct (map_to_list m) eqn:E; [|done]. intros _. by apply map_to_list_empty_iff. Qed.
Lemma max_key_some {A} (m : gmap nat A) j : is_Some (m !! j) -> exists k, max_key m = Ok k.
Proof. intros [x Hx]. destruct (max_key m) eqn:E; [by eexists|]. apply max_key_err in E as ->. by rewrite lookup_empty in Hx. Qed.

(** every way to obtain a cache, from embeddings of the kind [G] *)
Inductive reached (G : pemb -> Prop) : ccache -> Prop :=
| r_blank : reached G cc_blank
| r_make embs : (forall i e, embs !! i = Some e -> G e /\ forall ch, ch ∈ e -> length ch = i) -> reached G (make_clique_cache embs)
| r_direct c e c' : reached G c -> G e -> insert_direct c e = Ok c' -> reached G c'
| r_insert q c e c' : reached G c -> G e -> insert_merge q c e = Ok c' -> reached G c'
| r_merge q c d c' : reached G c -> reached G d -> merge_clique_cache q c d = Ok c' -> reached G c'.

Lemma max_list_ge (l : list nat) x : x ∈ l -> x <= max_list l.
Proof. apply max_list_elem_of_le. Qed.

Definition shorter_lists (e : pemb) : list pemb :=
  (fun i => filter (fun ch => length ch <= i) (sort_len e)) <$> seq 0 (S (max_list (length <$> sort_len e))).
Lemma shorter_lookup e i x : shorter_lists e !! i = Some x <-> i <= maxlen (sort_len e) /\ x = filter (fun ch => length ch <= i) (sort_len e).
Proof.
  unfold shorter_lists. fold (maxlen (sort_len e)). rewrite list_lookup_fmap_Some. split.
  - intros (j & Hj & ->). apply lookup_seq in Hj as [-> ?]. cbn. split; [lia|done].
  - intros [Hi ->]. exists i. split; [|done]. apply lookup_seq. lia.
Qed.
Lemma shorter_wf e : cwf (make_clique_cache (shorter_lists e)).
Proof.
  apply make_wf. intros i x Hx. apply shorter_lookup in Hx as [Hi ->]. split; [apply sorted_filter, sort_len_sorted|].
  intros ch [Hch _]%elem_of_list_filter. done.
Qed.
Lemma insert_merge_eq q c e : insert_merge q c e = merge_clique_cache q c (make_clique_cache (shorter_lists e)).
Proof. done. Qed.

Section reach.
  Context (G : pemb -> Prop) (Gsub : forall e e', G e -> e' ⊆+ e -> G e').

  Lemma shorter_G e x : G e -> x ∈ cc_raw (make_clique_cache (shorter_lists e)) -> G x.
  Proof using Gsub.
    intros HG. unfold make_clique_cache. rewrite (md_raw _ _ (make_made _)). intros [i Hi]%elem_of_list_lookup.
    apply shorter_lookup in Hi as [_ ->]. eapply Gsub; [exact HG|]. etrans; [apply sublist_submseteq, sub_filter|]. by rewrite sort_len_perm.
  Qed.

  Lemma reached_wf c : reached G c -> cwf c /\ forall e, e ∈ cc_raw c -> G e.
  Proof using Gsub.
    induction 1 as [|embs H|c e c' _ [Hw HG] He Hc|q c e c' _ [Hw HG] He Hc|q c d c' _ [Hw HG] _ [Hw' HG'] Hc].
    - split; [apply blank_wf|]. intros e He. by apply elem_of_nil in He.
    - split.
      + apply make_wf. intros i e He. destruct (H i e He) as [_ Hl]. split; [by eapply equal_sorted|]. intros ch Hch. by rewrite (Hl ch Hch).
      + unfold make_clique_cache. rewrite (md_raw _ _ (make_made _)). intros e [i Hi]%elem_of_list_lookup. by eapply H.
    - destruct (insert_direct_wf c e Hw) as (c1 & Hc1 & Hw1 & Hr & _). assert (c1 = c') as -> by congruence. split; [done|].
      rewrite Hr. intros x [Hx|Hx]%elem_of_app; [by apply HG|]. apply elem_of_list_singleton in Hx as ->. eapply Gsub; [exact He|]. by rewrite sort_len_perm.
    - rewrite insert_merge_eq in Hc. destruct (merge_ok q c (make_clique_cache (shorter_lists e)) Hw (shorter_wf e)) as (c1 & Hc1 & Hw1 & _ & _ & _ & _ & _ & _ & Hr).
      assert (c1 = c') as -> by congruence. split; [done|]. intros x Hx. destruct (Hr _ Hx) as [?|?]; [by apply HG|by eapply shorter_G].
    - destruct (merge_ok q c d Hw Hw') as (c1 & Hc1 & Hw1 & _ & _ & _ & _ & _ & _ & Hr).
      assert (c1 = c') as -> by congruence. split; [done|]. intros x Hx. destruct (Hr _ Hx) as [?|?]; [by apply HG|by apply HG'].
  Qed.

  (** operations never fail *)
  Lemma reached_ops c e q d : reached G c -> reached G d ->
    (exists c', insert_direct c e = Ok c') /\ (exists c', insert_merge q c e = Ok c') /\ (exists c', merge_clique_cache q c d = Ok c').
  Proof using Gsub.
    intros [Hw _]%reached_wf [Hw' _]%reached_wf. split_and!.
    - destruct (insert_direct_wf c e Hw) as (c1 & Hc1 & _). by exists c1.
    - destruct (merge_ok q c (make_clique_cache (shorter_lists e)) Hw (shorter_wf e)) as (c1 & Hc1 & _). by exists c1.
    - destruct (merge_ok q c d Hw Hw') as (c1 & Hc1 & _). by exists c1.
  Qed.

  (** the answers *)
  Lemma answer c nn : reached G c -> exists r, find_clique_embedding c nn = Ok r /\
    let l := (num_nodes nn 0).2 in
    ((r = [] /\ cc_size c !! length l = None) \/ exists e, offers c (length l) e /\ G e /\ length e = length l /\ r = zip l e).
  Proof using Gsub.
    intros [Hw HG]%reached_wf. unfold find_clique_embedding. 
    assert (Hn : (num_nodes nn 0).1 = length (num_nodes nn 0).2) by (destruct nn; cbn; [by rewrite seq_length|done]).
    destruct (num_nodes nn 0) as [num l]. cbn in Hn. subst num. cbn [fst snd].
    destruct (cc_size c !! length l) as [k|] eqn:E; [|eexists; split; [done|by left]].
    destruct (wf_size _ Hw _ _ E) as (e & He & Hle). rewrite He. cbn [py_get rbind]. eexists. split; [done|]. right.
    exists (take (length l) e). split; [by exists k, e|]. split; [eapply Gsub; [eapply HG, elem_of_list_lookup_2, He|apply sublist_submseteq, sublist_take]|].
    split; [rewrite take_length; lia|]. apply zip_take.
  Qed.

  Lemma largest c : reached G c -> exists r, largest_clique c = Ok r /\
    ((r = [] /\ forall n, cc_size c !! n = None) \/ exists e, e ∈ cc_raw c /\ G e /\ r = enumerated e /\ forall n e', offers c n e' -> n <= length e).
  Proof using Gsub.
    intros [Hw HG]%reached_wf. unfold largest_clique. destruct (map_to_list (cc_size c)) as [|x l] eqn:E.
    - eexists. split; [done|]. left. split; [done|]. apply map_to_list_empty_iff in E. rewrite E. intros n. apply lookup_empty.
    - destruct (max_key (cc_size c)) as [k|] eqn:Em; [|apply max_key_err in Em; rewrite Em, map_to_list_empty in E; done].
      apply max_key_ok in Em as [[key Hk] Hmax]. cbn [rbind]. rewrite Hk. cbn [py_get rbind].
      destruct (wf_size _ Hw _ _ Hk) as (e & He & Hle). rewrite He. cbn [py_get rbind]. eexists. split; [done|]. right.
      exists e. split; [by eapply elem_of_list_lookup_2|]. split; [eapply HG, elem_of_list_lookup_2, He|]. split; [done|].
      intros n e' (k' & x' & Hk' & _). etrans; [|exact Hle]. apply Hmax. by exists k'.
  Qed.
End reach.

(** after a merge *)
Lemma insert_merge_best c e c' : cwf c -> insert_merge None c e = Ok c' ->
  (forall n, (exists x, offers c' n x) <-> (exists x, offers c n x) \/ n <= length e) /\
  (forall n x, offers c' n x -> (forall y, offers c n y -> maxlen x <= maxlen y) /\ (forall s, s ⊆+ e -> length s = n -> maxlen x <= maxlen s)) /\
  (forall n x y, offers c' n x -> offers c n y -> x <> y -> maxlen x < maxlen y).
Proof.
  intros Hw Hc. rewrite insert_merge_eq in Hc.
  destruct (merge_ok None c (make_clique_cache (shorter_lists e)) Hw (shorter_wf e)) as (c1 & Hc1 & Hw1 & _ & Hdom & Hq & Hq' & _).
  assert (c1 = c') as -> by congruence. clear Hc1 Hc.
  pose proof (make_made (shorter_lists e)) as HM. fold (make_clique_cache (shorter_lists e)) in HM.
  assert (Hmaxl : shorter_lists e !! maxlen (sort_len e) = Some (sort_len e)).
  { apply shorter_lookup. split; [done|]. symmetry. apply filter_all. by apply maxlen_le. }
  assert (Hhas : forall n, (exists x, offers (make_clique_cache (shorter_lists e)) n x) <-> n <= length e).
  { intros n. rewrite <-(offers_has _ _ (shorter_wf e)). unfold make_clique_cache. rewrite (made_has _ _ _ HM). split.
    - intros (x & [i Hi]%elem_of_list_lookup & Hn). apply shorter_lookup in Hi as [_ ->].
      etrans; [exact Hn|]. etrans; [apply filter_le_length|]. by rewrite sort_len_perm.
    - intros Hn. exists (sort_len e). split; [by eapply elem_of_list_lookup_2|]. by rewrite sort_len_perm. }
  assert (Hqual : forall x y, length x = length y -> (emb_quality None y <= emb_quality None x)%Z -> maxlen x <= maxlen y).
  { intros x y Hl. destruct x as [|a x], y as [|b y]; [done|done|done|]. unfold emb_quality. lia. }
  assert (Hlen : forall d n x, offers d n x -> length x = n).
  { intros d n x (k & x' & _ & _ & Hn & ->). rewrite take_length. lia. }
  split; [intros n; by rewrite Hdom, Hhas|]. split.
  - intros n x Hx. split.
    + intros y Hy. apply Hqual; [by rewrite (Hlen _ _ _ Hx), (Hlen _ _ _ Hy)|]. eapply Hq; [exact Hx|by left].
    + intros s Hs Hn. assert (Hse : maxlen s <= maxlen (sort_len e)).
      { apply maxlen_le. intros ch Hch. pose proof (proj1 (maxlen_le (sort_len e) _) (le_n _)) as HH. apply HH. rewrite sort_len_perm. by eapply elem_of_submseteq. }
      assert (Hns : n <= length e) by (rewrite <-Hn; by apply submseteq_length).
      apply Hhas in Hns as [y Hy]. etrans; [apply Hqual; [|eapply Hq; [exact Hx|right; exact Hy]]; by rewrite (Hlen _ _ _ Hx), (Hlen _ _ _ Hy)|].
      destruct Hy as (k & y' & Hk & Hr & Hn' & ->). apply (md_size _ _ HM) in Hk as (y'' & Hy'' & Hn'' & Hmin).
      unfold make_clique_cache in Hr. rewrite (md_raw _ _ HM) in Hr. assert (y'' = y') as -> by congruence.
      assert (Hkl : k <= maxlen s).
      { destruct (decide (k <= maxlen s)); [done|]. exfalso.
        assert (Hx' : shorter_lists e !! maxlen s = Some (filter (fun ch => length ch <= maxlen s) (sort_len e))) by (by apply shorter_lookup).
        specialize (Hmin (maxlen s) _ ltac:(lia) Hx'). enough (Hsub : s ⊆+ filter (fun ch => length ch <= maxlen s) (sort_len e)) by (apply submseteq_length in Hsub; lia).
        assert (Hs' : s ⊆+ sort_len e) by (by rewrite sort_len_perm). 
        rewrite <-(filter_all (fun ch => length ch <= maxlen s) s) at 1 by (by apply maxlen_le).
        revert Hs'. generalize (maxlen s) as m. generalize (sort_len e) as z. clear. intros z m Hs.
        apply submseteq_sublist_l in Hs as (w & Hw & HP). rewrite <-HP. clear HP.
        induction Hw as [|a l1 l2 Hw IH|a l1 l2 Hw IH]; [done| |].
        - rewrite !filter_cons. case_decide; [by apply submseteq_skip|done].
        - rewrite filter_cons. case_decide; [by apply submseteq_cons|done]. }
      apply shorter_lookup in Hr as [_ ->]. apply maxlen_le. intros ch Hch. etrans; [|exact Hkl].
      assert (Hch' : ch ∈ filter (fun ch => length ch <= k) (sort_len e)) by (eapply elem_of_submseteq; [exact Hch|apply sublist_submseteq, sublist_take]).
      apply elem_of_list_filter in Hch'. tauto.
  - intros n x y Hx Hy Hne. specialize (Hq' _ _ _ Hx Hy Hne). assert (Hl : length x = length y) by (by rewrite (Hlen _ _ _ Hx), (Hlen _ _ _ Hy)).
    destruct x as [|a x], y as [|b y]; [done|done|done|]. unfold emb_quality in Hq'. lia.
Qed.

(** export and import *)
Lemma offers_direct c e c' : cwf c -> sorted_len e -> insert_direct c e = Ok c' ->
  cwf c' /\ forall n x, offers c' n x <-> (n = length e /\ x = e) \/ (n <> length e /\ offers c n x).
Proof.
  intros Hw Hs Hc. destruct (insert_direct_wf c e Hw) as (c1 & Hc1 & Hw1 & Hr & Hz). assert (c1 = c') as -> by congruence. split; [done|].
  intros n x. unfold offers. rewrite Hr, Hz, (sort_len_id e Hs). split.
  - intros (k & e' & Hk & He & Hn & ->). destruct (decide (n = length e)) as [->|Hne].
    + left. split; [done|]. rewrite lookup_insert in Hk. injection Hk as <-. rewrite list_lookup_middle in He by done. injection He as <-. by rewrite firstn_all.
    + right. split; [done|]. rewrite lookup_insert_ne in Hk by done. destruct (wf_size _ Hw _ _ Hk) as (e'' & He'' & _).
      rewrite lookup_app_l in He by (by eapply lookup_lt_Some). by exists k, e'.
  - intros [[-> ->]|[Hne (k & e' & Hk & He & Hn & ->)]].
    + exists (length (cc_raw c)), e. rewrite lookup_insert. split_and!; [done|by rewrite list_lookup_middle|done|by rewrite firstn_all].
    + exists k, e'. rewrite lookup_insert_ne by done. split_and!; try done. rewrite lookup_app_l; [done|]. by eapply lookup_lt_Some.
Qed.

Lemma import_spec l c : cwf c -> (forall e, e ∈ l -> sorted_len e) ->
  exists c', import_embs c l = Ok c' /\ cwf c' /\
    forall n x, offers c' n x <-> (exists i, l !! i = Some x /\ n = length x /\ forall j y, i < j -> l !! j = Some y -> length y <> n) \/
      (offers c n x /\ forall y, y ∈ l -> length y <> n).
Proof.
  intros Hw Hs. apply (foldM_inv insert_direct (fun dn c' => cwf c' /\
    forall n x, offers c' n x <-> (exists i, dn !! i = Some x /\ n = length x /\ forall j y, i < j -> dn !! j = Some y -> length y <> n) \/
      (offers c n x /\ forall y, y ∈ dn -> length y <> n))).
  - split; [done|]. intros n x. split; [intros H; right; split; [done|]; intros y Hy; by apply elem_of_nil in Hy|]. intros [(i & Hi & _)|[H _]]; done.
  - intros dn e rest c1 Hl [Hw1 H1]. destruct (insert_direct_wf c1 e Hw1) as (c2 & Hc2 & _). exists c2. split; [done|].
    destruct (offers_direct c1 e c2 Hw1) as [Hw2 H2]; [apply Hs; rewrite Hl; set_solver|done|]. split; [done|].
    intros n x. rewrite H2, H1. split.
    + intros [[-> ->]|[Hne [(i & Hi & -> & Hj)|[Ho Hno]]]].
      * left. exists (length dn). split; [by apply list_lookup_middle|]. split; [done|]. intros j y Hj Hy.
        apply lookup_lt_Some in Hy. rewrite app_length in Hy. cbn in Hy. lia.
      * left. exists i. pose proof (lookup_lt_Some _ _ _ Hi). split; [by rewrite lookup_app_l|]. split; [done|]. intros j y Hij Hy.
        apply lookup_app_Some in Hy as [Hy|[_ Hy]]; [by eapply Hj|]. apply list_lookup_singleton_Some in Hy as [_ <-]. done.
      * right. split; [done|]. intros y [Hy|Hy]%elem_of_app; [by apply Hno|]. apply elem_of_list_singleton in Hy as ->. done.
    + intros [(i & Hi & -> & Hj)|[Ho Hno]].
      * apply lookup_app_Some in Hi as [Hi|[Hle Hi]].
        -- right. pose proof (lookup_lt_Some _ _ _ Hi). split.
           { apply not_eq_sym. apply (Hj (length dn)); [done|]. by apply list_lookup_middle. }
           left. exists i. split; [done|]. split; [done|]. intros j y Hij Hy. apply (Hj j); [done|]. rewrite lookup_app_l; [done|]. by eapply lookup_lt_Some.
        -- apply list_lookup_singleton_Some in Hi as [_ ->]. by left.
      * right. split; [apply not_eq_sym, Hno; set_solver|]. right. split; [done|]. intros y Hy. apply Hno. set_solver.
Qed.

Lemma offers_blank n e : ~ offers cc_blank n e.
Proof. intros (k & e' & Hk & _). cbn in Hk. by rewrite lookup_empty in Hk. Qed.

Lemma offers_sorted c n e : cwf c -> offers c n e -> sorted_len e /\ length e = n.
Proof.
  intros Hw (k & e' & _ & He & Hn & ->). split; [|rewrite take_length; lia]. apply sorted_take. eapply (wf_sorted _ Hw), elem_of_list_lookup_2, He.
Qed.

Lemma export_sparse_spec c : cwf c -> exists l, export_sparse c = Ok l /\ NoDup l.*1 /\ forall n e, (n, e) ∈ l <-> offers c n e.
Proof.
  intros Hw. pose proof (NoDup_fst_map_to_list (cc_size c)) as Hnd.
  destruct (foldM_inv (fun acc p => let! e := py_get (cc_raw c !! p.2) in Ok (acc ++ [(p.1, take p.1 e)]))
    (fun dn acc => acc.*1 = dn.*1 /\ forall n e, (n, e) ∈ acc <-> exists k e', (n, k) ∈ dn /\ cc_raw c !! k = Some e' /\ e = take n e')
    (map_to_list (cc_size c)) []) as (l & Hl & H1 & H2).
  - split; [done|]. intros n e. split; [intros H; by apply elem_of_nil in H|]. intros (k & e' & H & _). by apply elem_of_nil in H.
  - intros dn [n k] rest acc Hl [H1 H2]. assert (Hk : cc_size c !! n = Some k) by (apply elem_of_map_to_list; rewrite Hl; set_solver).
    destruct (wf_size _ Hw _ _ Hk) as (e & He & Hn). cbn [fst snd]. rewrite He. cbn [py_get rbind]. eexists. split; [done|]. split; [by rewrite !fmap_app, H1|].
    intros n' e'. rewrite elem_of_app, H2. split.
    + intros [(k' & x & Hin & Hx & ->)|Hin]; [exists k', x; split; [set_solver|done]|].
      apply elem_of_list_singleton in Hin. injection Hin as -> ->. exists k, e. split; [set_solver|done].
    + intros (k' & x & Hin & Hx & ->). apply elem_of_app in Hin as [Hin|Hin]; [left; by exists k', x|]. right.
      apply elem_of_list_singleton in Hin. injection Hin as -> ->. assert (x = e) as -> by congruence. by left.
  - exists l. split; [done|]. rewrite H1. split; [done|]. intros n e. rewrite H2. unfold offers. split.
    + intros (k & e' & Hin & He & ->). apply elem_of_map_to_list in Hin. exists k, e'. split_and!; try done.
      destruct (wf_size _ Hw _ _ Hin) as (x & Hx & ?). congruence.
    + intros (k & e' & Hk & He & _ & ->). exists k, e'. split; [by apply elem_of_map_to_list|done].
Qed.

Lemma sparse_roundtrip c : cwf c -> exists l c', export_sparse c = Ok l /\ import_embs cc_blank l.*2 = Ok c' /\ forall n e, offers c' n e <-> offers c n e.
Proof.
  intros Hw. destruct (export_sparse_spec c Hw) as (l & Hl & Hnd & Hin).
  assert (Hlen : forall n e, (n, e) ∈ l -> length e = n /\ sorted_len e).
  { intros n e H. apply Hin in H. destruct (offers_sorted _ _ _ Hw H). done. }
  destruct (import_spec l.*2 cc_blank blank_wf) as (c' & Hc' & _ & Ho).
  { intros e ([n e'] & -> & H)%elem_of_list_fmap. by eapply Hlen. }
  exists l, c'. split; [done|]. split; [done|]. intros n e. rewrite Ho. rewrite <-Hin. split.
  - intros [(i & Hi & -> & _)|[H _]]; [|by apply offers_blank in H]. apply list_lookup_fmap_Some in Hi as ([n e'] & Hi & ->).
    apply elem_of_list_lookup_2 in Hi. cbn. by rewrite (proj1 (Hlen _ _ Hi)).
  - intros Hi. left. pose proof (proj1 (Hlen _ _ Hi)) as Hn. apply elem_of_list_lookup in Hi as [i Hi]. exists i. rewrite list_lookup_fmap, Hi. cbn. split; [done|]. split; [done|].
    intros j y Hij Hy. apply list_lookup_fmap_Some in Hy as ([n' e'] & Hj & ->). cbn. intros Heq.
    pose proof (proj1 (Hlen _ _ (elem_of_list_lookup_2 _ _ _ Hj))) as Hn'. assert (n' = n) as -> by lia.
    enough (i = j) by lia. eapply (NoDup_lookup l.*1); [done| |]; rewrite list_lookup_fmap; [by rewrite Hi|by rewrite Hj].
Qed.

Lemma export_dense_spec c m : cwf c -> max_key (cc_size c) = Ok m -> exists l, export_dense c = Ok l /\ length l = m /\
  forall i e, l !! i = Some e -> offers c i e \/ ((forall x, ~ offers c i x) /\ e = []).
Proof.
  intros Hw Hm. unfold export_dense. rewrite Hm. cbn [rbind].
  destruct (foldM_inv (fun acc i => match cc_size c !! i with
     | Some k => let! e := py_get (cc_raw c !! k) in Ok (acc ++ [take i e]) | None => Ok (acc ++ [[]]) end)
    (fun dn acc => length acc = length dn /\ forall i e, acc !! i = Some e -> offers c i e \/ ((forall x, ~ offers c i x) /\ e = [])) (seq 0 m) []) as (l & Hl & H1 & H2).
  - split; [done|]. intros i e H. done.
  - intros dn i rest acc Hl [H1 H2]. assert (Hi : i = length dn).
    { assert (Hx : seq 0 m !! length dn = Some i) by (rewrite Hl; by apply list_lookup_middle). apply lookup_seq in Hx. lia. }
    destruct (cc_size c !! i) as [k|] eqn:E.
    + destruct (wf_size _ Hw _ _ E) as (e & He & Hn). rewrite He. cbn [py_get rbind]. eexists. split; [done|]. split; [rewrite !app_length; cbn; lia|].
      intros j x [Hx|[Hj Hx]]%lookup_app_Some; [by apply H2|]. apply list_lookup_singleton_Some in Hx as [Hj0 <-]. assert (j = i) as -> by lia. left. by exists k, e.
    + eexists. split; [done|]. split; [rewrite !app_length; cbn; lia|].
      intros j x [Hx|[Hj Hx]]%lookup_app_Some; [by apply H2|]. apply list_lookup_singleton_Some in Hx as [Hj0 <-]. assert (j = i) as -> by lia.
      right. split; [|done]. intros x (k & ? & Hk & _). congruence.
  - exists l. rewrite seq_length in H1. done.
Qed.

Lemma dense_roundtrip c m : cwf c -> max_key (cc_size c) = Ok m -> exists l c', export_dense c = Ok l /\ import_embs cc_blank l = Ok c' /\
  (forall n e, 1 <= n -> n < m -> offers c' n e <-> offers c n e) /\ (forall n e, m <= n -> 1 <= n -> ~ offers c' n e).
Proof.
  intros Hw Hm. destruct (export_dense_spec c m Hw Hm) as (l & Hl & Hlen & Hin).
  assert (Hs : forall i e, l !! i = Some e -> sorted_len e /\ (length e = i \/ e = [])).
  { intros i e H. destruct (Hin _ _ H) as [Ho|[_ ->]]; [destruct (offers_sorted _ _ _ Hw Ho); by split; [|left]|]. split; [constructor|by right]. }
  destruct (import_spec l cc_blank blank_wf) as (c' & Hc' & _ & Ho).
  { intros e [i Hi]%elem_of_list_lookup. by eapply Hs. }
  exists l, c'. split; [done|]. split; [done|]. split.
  - intros n e Hn1 Hnm. rewrite Ho. split.
    + intros [(i & Hi & -> & _)|[H _]]; [|by apply offers_blank in H]. destruct (Hs _ _ Hi) as [_ [Hli| ->]]; [|cbn in Hn1; lia].
      destruct (Hin _ _ Hi) as [H|[_ ->]]; [by rewrite Hli|cbn in Hn1; lia].
    + intros H. left. exists n. destruct (lookup_lt_is_Some_2 l n ltac:(lia)) as [x Hx]. destruct (Hin _ _ Hx) as [H'|[H' _]]; [|by apply H' in H].
      assert (x = e) as -> by (by eapply offers_fun). split; [done|]. split; [by destruct (offers_sorted _ _ _ Hw H)|].
      intros j y Hj Hy Hyn. destruct (Hs _ _ Hy) as [_ [Hl'| ->]]; [lia|cbn in Hyn; lia].
  - intros n e Hmn Hn1. rewrite Ho. intros [(i & Hi & -> & _)|[H _]]; [|by apply offers_blank in H].
    pose proof (lookup_lt_Some _ _ _ Hi). destruct (Hs _ _ Hi) as [_ [Hl'| ->]]; [lia|cbn in Hn1; lia].
Qed.
