(** Proofs about the clique cache: the size index, the answers, insertion. *)
From stdpp Require Import base list list_numbers numbers gmap sorting.
From Verif Require Import Base Wp SpecBus PyCacheModel.

Lemma fill_spec (len : nat) : forall (i : nat) (m : gmap nat nat),
  (forall a b, a <= b <= i -> is_Some (m !! b) -> is_Some (m !! a)) -> (forall a, a <= i -> m !! a <> Some len) ->
  forall n, fill_sizes i len m !! n = (if bool_decide (n <= i /\ m !! n = None) then Some len else m !! n).
Proof.
  induction i as [|i IH]; intros m Hc Hn n; cbn [fill_sizes]; destruct (m !! _) as [l|] eqn:E; cbn [default from_option]; unfold id.
  - pose proof (Hn 0 ltac:(lia)) as Hn0. destruct (Nat.eqb_spec l len) as [->|Hne]; [done|]. cbn [negb].
    rewrite (insert_id _ _ _ E). case_bool_decide as Hb; [|done]. destruct Hb as [Hb0 Hb]. assert (n = 0) as -> by lia. congruence.
  - rewrite Nat.eqb_refl. cbn [negb]. destruct (decide (n = 0)) as [->|Hne].
    + rewrite lookup_insert. rewrite bool_decide_true; [done|]. done.
    + rewrite lookup_insert_ne by done. rewrite bool_decide_false; [done|]. intros [? ?]. lia.
  - pose proof (Hn (S i) ltac:(lia)) as Hn0. destruct (Nat.eqb_spec l len) as [->|Hne]; [done|]. cbn [negb].
    rewrite (insert_id _ _ _ E). case_bool_decide as Hb; [|done]. destruct Hb as [Hb0 Hb].
    destruct (Hc n (S i) ltac:(lia) ltac:(rewrite E; eauto)) as [? HH]. congruence.
  - rewrite Nat.eqb_refl. cbn [negb]. rewrite IH.
    + destruct (decide (n = S i)) as [->|Hne].
      * rewrite bool_decide_false by lia. rewrite lookup_insert. rewrite bool_decide_true; [done|]. split; [lia|done].
      * rewrite lookup_insert_ne by done. destruct (decide (n <= i /\ m !! n = None)) as [Hd|Hd].
        -- rewrite !bool_decide_true; [done|split; [lia|tauto]|done].
        -- rewrite !bool_decide_false; [done| |done]. intros [? ?]. apply Hd. split; [lia|done].
    + intros a b Hab. rewrite !lookup_insert_ne by lia. apply Hc. lia.
    + intros a Ha. rewrite lookup_insert_ne by lia. apply Hn. lia.
Qed.

(** the first embedding with at least [n] chains *)
Definition first_fit (embs : list pemb) (n l : nat) : Prop :=
  exists emb, embs !! l = Some emb /\ n <= length emb /\ forall l' emb', l' < l -> embs !! l' = Some emb' -> length emb' < n.

Lemma first_fit_fun embs n l l' : first_fit embs n l -> first_fit embs n l' -> l = l'.
Proof.
  intros (e & He & Hn & Hf) (e' & He' & Hn' & Hf').
  destruct (lt_eq_lt_dec l l') as [[?| ->]|?]; [|done|].
  - specialize (Hf' _ _ l0 He). lia.
  - specialize (Hf _ _ l0 He'). lia.
Qed.

Lemma first_fit_app embs e n l : first_fit (embs ++ [e]) n l <->
  first_fit embs n l \/ (l = length embs /\ n <= length e /\ forall x, x ∈ embs -> length x < n).
Proof.
  split.
  - intros (x & Hx & Hn & Hf). apply lookup_app_Some in Hx as [Hx|[Hl Hx]].
    + left. exists x. split; [done|]. split; [done|]. intros l' e' Hl He. eapply Hf; [done|].
      rewrite lookup_app_l; [done|]. by eapply lookup_lt_Some.
    + right. apply list_lookup_singleton_Some in Hx as [Hx ->]. split; [lia|]. split; [done|].
      intros y [i Hi]%elem_of_list_lookup. eapply (Hf i); [pose proof (lookup_lt_Some _ _ _ Hi); lia|]. rewrite lookup_app_l; [done|]. by eapply lookup_lt_Some.
  - intros [(x & Hx & Hn & Hf)|(-> & Hn & Hf)].
    + exists x. pose proof (lookup_lt_Some _ _ _ Hx). split; [by rewrite lookup_app_l|]. split; [done|].
      intros l' e' Hl He. eapply Hf; [done|]. rewrite lookup_app_l in He; [done|lia].
    + exists e. split; [by apply list_lookup_middle|]. split; [done|]. intros l' e' Hl He.
      rewrite lookup_app_l in He by lia. apply Hf. by eapply elem_of_list_lookup_2.
Qed.

Record made (P : list pemb) (s : ccache * nat) : Prop := {
  md_raw : cc_raw s.1 = P;
  md_max : (forall e, e ∈ P -> length e <= s.2) /\ (P <> [] -> exists e, e ∈ P /\ length e = s.2) /\ (P = [] -> s.2 = 0);
  md_size : forall n l, cc_size s.1 !! n = Some l <-> first_fit P n l;
  md_len : forall n l, cc_length s.1 !! n = Some l <-> n = l /\ l < length P }.

Lemma made_has P s n : made P s -> is_Some (cc_size s.1 !! n) <-> exists e, e ∈ P /\ n <= length e.
Proof.
  intros HM. split.
  - intros [l Hl]. apply (md_size _ _ HM) in Hl as (e & He & Hn & _). exists e. split; [by eapply elem_of_list_lookup_2|done].
  - intros (e & He & Hn). destruct (list_find (fun e => n <= length e) P) as [[i x]|] eqn:E.
    + apply list_find_Some in E as (Hi & Hx & Hf). exists i. apply (md_size _ _ HM). exists x. split; [done|]. split; [done|].
      intros l' e' Hl Hl'. specialize (Hf _ _ Hl' Hl). lia.
    + apply list_find_None in E. rewrite Forall_forall in E. specialize (E _ He). cbn in E. lia.
Qed.

Lemma made_step P s e : made P s -> made (P ++ [e]) (add_emb s (length P, e)).
Proof.
  intros HM. destruct s as [c M]. assert (Hhas := fun n => made_has _ _ n HM). cbn in Hhas. destruct HM as [Hr (HM1 & HM2 & HM0) Hs Hl]. cbn in *.
  assert (HMM : forall x, x ∈ P ++ [e] -> length x <= length e `max` M).
  { intros x [Hx|Hx]%elem_of_app; [specialize (HM1 _ Hx); lia|]. apply elem_of_list_singleton in Hx as ->. lia. }
  assert (Hat : exists x, x ∈ P ++ [e] /\ length x = length e `max` M).
  { destruct (decide (M <= length e)); [exists e; split; [set_solver|lia]|].
    assert (P <> []) as Hne by (intros HP; specialize (HM0 HP); lia). destruct (HM2 Hne) as (x & Hx & HxM). exists x. split; [set_solver|lia]. }
  split; cbn.
  - by rewrite Hr.
  - split; [done|]. split; [done|]. by destruct P.
  - intros n l. rewrite fill_spec.
    + rewrite first_fit_app, <-Hs. case_bool_decide as Hb.
      * destruct Hb as [Hn Hnone]. rewrite Hnone. split.
        -- intros [= ->]. right. split; [done|]. 
           assert (Hall : forall x, x ∈ P -> length x < n).
           { intros x Hx. destruct (decide (length x < n)); [done|]. destruct (proj2 (Hhas n)) as [? HH]; [exists x; split; [done|lia]|congruence]. }
           split; [|done]. destruct Hat as (x & Hx & HxM). apply elem_of_app in Hx as [Hx|Hx]; [specialize (Hall _ Hx); lia|].
           apply elem_of_list_singleton in Hx as ->. lia.
        -- intros [?|(-> & ?)]; [done|done].
      * split; [by left|]. intros [?|(-> & Hn & Hall)]; [done|]. exfalso. apply Hb. split; [lia|].
        destruct (cc_size c !! n) as [l|] eqn:E; [|done]. destruct (proj1 (Hhas n)) as (x & Hx & ?); [by rewrite E|]. specialize (Hall _ Hx). lia.
    + intros a b Hab Hb. apply Hhas in Hb as (x & Hx & ?). apply Hhas. exists x. split; [done|lia].
    + intros a Ha Habs. apply Hs in Habs as (x & Hx & _). apply lookup_lt_Some in Hx. lia.
  - intros n l. rewrite app_length; cbn. destruct (decide (n = length P)) as [->|Hne].
    + rewrite lookup_insert. split; [intros [= <-]; lia|]. intros [<- ?]. done.
    + rewrite lookup_insert_ne by done. rewrite Hl. split; intros [-> ?]; split; try done; lia.
Qed.

Lemma make_made embs : made embs (foldl add_emb (cc_blank, 0) (imap (fun i e => (i, e)) embs)).
Proof.
  induction embs as [|e P IH] using rev_ind.
  - cbn. split; cbn; [done| |intros n l; rewrite lookup_empty; split; [done|intros (e & He & _); done]|intros n l; rewrite lookup_empty; split; [done|lia]].
    split; [intros e He; by apply elem_of_nil in He|]. split; [done|done].
  - rewrite imap_app, foldl_app. cbn. rewrite Nat.add_0_r. by apply made_step.
Qed.

(** C45 *)
Lemma size_index embs n :
  match cc_size (make_clique_cache embs) !! n with
  | Some l => first_fit embs n l
  | None => forall emb, emb ∈ embs -> length emb < n
  end.
Proof.
  pose proof (make_made embs) as HM. destruct (_ !! n) as [l|] eqn:E.
  - by apply (md_size _ _ HM) in E.
  - intros e He. destruct (decide (length e < n)); [done|]. destruct (proj2 (made_has _ _ n HM)) as [? HH].
    { exists e. split; [done|lia]. }
    unfold make_clique_cache in E. rewrite E in HH. done.
Qed.

Lemma zip_take {A B} (l : list A) (k : list B) : zip l k = zip l (take (length l) k).
Proof. revert k. induction l as [|a l IH]; intros [|b k]; cbn; [done..|]. f_equal. apply IH. Qed.

(** sub-embeddings *)
Lemma clique_sub nodes edges emb emb' : clique_embedding nodes edges emb -> emb' `sublist_of` emb -> clique_embedding nodes edges emb'.
Proof.
  intros [Hg Hp] Hs. split.
  - intros c Hc. apply Hg. eapply elem_of_submseteq; [done|]. by apply sublist_submseteq.
  - assert (Hgen : forall l1 l2, l1 `sublist_of` l2 -> (forall i j c d, i <> j -> l2 !! i = Some c -> l2 !! j = Some d -> c ## d /\ coupled edges c d) ->
      forall i j c d, i <> j -> l1 !! i = Some c -> l1 !! j = Some d -> c ## d /\ coupled edges c d).
    { clear. induction 1 as [|x l1 l2 Hs IH|x l1 l2 Hs IH]; intros Hp i j c d Hij Hi Hj; [done| |].
      - destruct i as [|i], j as [|j]; cbn in Hi, Hj; [done| | |].
        + assert (Hd : d ∈ l2) by (eapply elem_of_submseteq; [by eapply elem_of_list_lookup_2|by apply sublist_submseteq]).
          apply elem_of_list_lookup in Hd as [k Hk]. eapply (Hp 0 (S k)); [done|done|done].
        + assert (Hd : c ∈ l2) by (eapply elem_of_submseteq; [by eapply elem_of_list_lookup_2|by apply sublist_submseteq]).
          apply elem_of_list_lookup in Hd as [k Hk]. eapply (Hp (S k) 0); [done|done|done].
        + eapply (IH (fun i j c d Hij Hi Hj => Hp (S i) (S j) c d ltac:(lia) Hi Hj) i j); [lia|done|done].
      - eapply (IH (fun i j c d Hij Hi Hj => Hp (S i) (S j) c d ltac:(lia) Hi Hj) i j); [lia|done|done]. }
    by eapply Hgen.
Qed.

Lemma clique_perm nodes edges emb emb' : clique_embedding nodes edges emb -> emb' ≡ₚ emb -> clique_embedding nodes edges emb'.
Proof.
  intros [Hg Hp] HP. split.
  - intros c Hc. apply Hg. by rewrite <-HP.
  - apply Permutation_inj in HP as (Hlen & f & Hf & HH). intros i j c d Hij Hi Hj. eapply (Hp (f i) (f j)); [by intros ?%Hf| |].
    + by rewrite <-HH.
    + by rewrite <-HH.
Qed.
