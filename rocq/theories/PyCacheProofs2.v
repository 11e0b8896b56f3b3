(** Proofs about the clique cache: sorting, insertion, merging, export and import. *)
From stdpp Require Import base list list_numbers numbers gmap sorting.
From Verif Require Import Base Wp SpecBus PyCacheModel PyCacheProofs1.

Notation sorted_len := (StronglySorted (fun a b : pchain => length a <= length b)).

Lemma ins_len_perm ch l : ins_len ch l ≡ₚ ch :: l.
Proof. induction l as [|d r IH]; cbn; [done|]. destruct (_ <=? _); [|done]. rewrite IH. apply perm_swap. Qed.
Lemma ins_len_sorted ch l : sorted_len l -> sorted_len (ins_len ch l).
Proof.
  induction 1 as [|d r Hr IH Hall]; cbn; [repeat constructor|].
  destruct (Nat.leb_spec (length d) (length ch)).
  - constructor; [done|]. rewrite Forall_forall in *. intros x Hx. rewrite ins_len_perm in Hx. apply elem_of_cons in Hx as [->|Hx]; [done|by apply Hall].
  - constructor; [by constructor|]. rewrite Forall_forall in *. intros x Hx. apply elem_of_cons in Hx as [->|Hx]; [lia|]. specialize (Hall _ Hx). lia.
Qed.
Lemma ins_len_last ch l : Forall (fun d : pchain => length d <= length ch) l -> ins_len ch l = l ++ [ch].
Proof. induction 1 as [|d r Hd Hr IH]; cbn; [done|]. rewrite (proj2 (Nat.leb_le _ _) Hd). by rewrite IH. Qed.
Lemma sort_len_snoc e ch : sort_len (e ++ [ch]) = ins_len ch (sort_len e).
Proof. unfold sort_len. by rewrite foldl_app. Qed.
Lemma sort_len_perm e : sort_len e ≡ₚ e.
Proof. induction e as [|ch e IH] using rev_ind; [done|]. rewrite sort_len_snoc, ins_len_perm, IH. rewrite (comm (++)). done. Qed.
Lemma sort_len_sorted e : sorted_len (sort_len e).
Proof. induction e as [|ch e IH] using rev_ind; [constructor|]. rewrite sort_len_snoc. by apply ins_len_sorted. Qed.
Lemma sorted_app l1 l2 : sorted_len (l1 ++ l2) <-> sorted_len l1 /\ sorted_len l2 /\ forall a b, a ∈ l1 -> b ∈ l2 -> length a <= length b.
Proof.
  induction l1 as [|x l1 IH]; cbn.
  - split; [intros H; split_and!; [constructor|done|intros a b Ha; by apply elem_of_nil in Ha]|tauto].
  - split.
    + intros H. apply StronglySorted_inv in H as [H Hall]. apply IH in H as (H1 & H2 & H12). rewrite Forall_app in Hall. destruct Hall as [Ha Hb].
      rewrite !Forall_forall in *. split_and!; [constructor; [done|by rewrite Forall_forall]|done|].
      intros a b Hal Hbl. apply elem_of_cons in Hal as [->|Hal]; [by apply Hb|by apply H12].
    + intros (H1 & H2 & H12). apply StronglySorted_inv in H1 as [H1 Hall]. constructor.
      * apply IH. split_and!; [done|done|]. intros a b Ha Hb. apply H12; [by right|done].
      * rewrite Forall_app. split; [done|]. rewrite Forall_forall. intros b Hb. apply H12; [by left|done].
Qed.
Lemma sort_len_id e : sorted_len e -> sort_len e = e.
Proof.
  induction e as [|ch e IH] using rev_ind; [done|]. intros H. apply sorted_app in H as (He & _ & Hl).
  rewrite sort_len_snoc, IH by done. apply ins_len_last. rewrite Forall_forall. intros x Hx. apply Hl; [done|]. by left.
Qed.
Lemma sorted_take n e : sorted_len e -> sorted_len (take n e).
Proof. intros H. rewrite <-(take_drop n e) in H. apply sorted_app in H. tauto. Qed.
Lemma sorted_filter (P : pchain -> Prop) `{!forall x, Decision (P x)} e : sorted_len e -> sorted_len (filter P e).
Proof.
  induction 1 as [|d r Hr IH Hall]; cbn; [constructor|]. case_decide; [|done].
  constructor; [done|]. rewrite Forall_forall in *. intros x [_ Hx]%elem_of_list_filter. by apply Hall.
Qed.

Definition maxlen (e : pemb) : nat := max_list (length <$> e).
Lemma maxlen_le e n : maxlen e <= n <-> forall ch, ch ∈ e -> length ch <= n.
Proof.
  unfold maxlen. induction e as [|d e IH]; cbn.
  - split; [|lia]. intros _ ch Hch. by apply elem_of_nil in Hch.
  - split.
    + intros H ch [->|Hch]%elem_of_cons; [lia|]. apply IH; [lia|done].
    + intros H. apply Nat.max_lub; [apply H; by left|]. apply IH. intros ch Hch. apply H. by right.
Qed.
Lemma maxlen_sorted e j ch : sorted_len e -> e !! j = Some ch -> maxlen (take (S j) e) = length ch.
Proof.
  intros Hs Hj. assert (E : take (S j) e = take j e ++ [ch]) by (by apply take_S_r). rewrite <-(take_drop (S j) e), E in Hs.
  apply sorted_app in Hs as (Hs & _ & _). apply sorted_app in Hs as (_ & _ & Hl). apply Nat.le_antisymm.
  - apply maxlen_le. rewrite E. intros x [Hx|Hx]%elem_of_app; [apply Hl; [done|by left]|]. apply elem_of_list_singleton in Hx as ->. done.
  - pose proof (proj1 (maxlen_le (take (S j) e) _) (le_n _)) as H. apply H. rewrite E. set_solver.
Qed.

Record cwf (c : ccache) : Prop := {
  wf_size : forall n k, cc_size c !! n = Some k -> exists e, cc_raw c !! k = Some e /\ n <= length e;
  wf_len : forall l k, cc_length c !! l = Some k -> exists e, cc_raw c !! k = Some e /\ forall ch, ch ∈ e -> length ch <= l;
  wf_sorted : forall e, e ∈ cc_raw c -> sorted_len e }.

Lemma blank_wf : cwf cc_blank.
Proof. split; cbn; [intros n k; by rewrite lookup_empty|intros n k; by rewrite lookup_empty|intros e He; by apply elem_of_nil in He]. Qed.

Lemma make_wf embs : (forall i e, embs !! i = Some e -> sorted_len e /\ forall ch, ch ∈ e -> length ch <= i) -> cwf (make_clique_cache embs).
Proof.
  intros H. pose proof (make_made embs) as HM. split.
  - intros n k Hk. apply (md_size _ _ HM) in Hk as (e & He & Hn & _). exists e. unfold make_clique_cache. by rewrite (md_raw _ _ HM).
  - intros l k Hk. apply (md_len _ _ HM) in Hk as [-> Hk]. apply lookup_lt_is_Some in Hk as [e He]. exists e. unfold make_clique_cache. rewrite (md_raw _ _ HM). split; [done|]. by apply H.
  - unfold make_clique_cache. rewrite (md_raw _ _ HM). intros e [i Hi]%elem_of_list_lookup. by eapply H.
Qed.

Lemma equal_sorted e n : (forall ch, ch ∈ e -> length ch = n) -> sorted_len e.
Proof.
  induction e as [|d e IH]; intros H; [constructor|]. constructor; [apply IH; intros ch Hch; apply H; by right|].
  rewrite Forall_forall. intros x Hx. rewrite (H d) by left. rewrite (H x) by (by right). done.
Qed.

Lemma insert_direct_wf c e : cwf c -> exists c', insert_direct c e = Ok c' /\ cwf c' /\
  cc_raw c' = cc_raw c ++ [sort_len e] /\ cc_size c' = <[length e := length (cc_raw c)]> (cc_size c).
Proof.
  intros [Hs Hl Ho]. unfold insert_direct. set (emb := sort_len e). set (len := match last emb with Some ch => length ch | None => 0 end).
  assert (Hlen : length emb = length e) by (unfold emb; by rewrite sort_len_perm).
  assert (Hsrt : sorted_len emb) by apply sort_len_sorted.
  assert (Hmax : forall ch, ch ∈ emb -> length ch <= len).
  { unfold len. destruct (last emb) as [z|] eqn:E; [|apply last_None in E as ->; intros ch Hch; by apply elem_of_nil in Hch].
    apply last_Some in E as [l E]. rewrite E in Hsrt |- *. apply sorted_app in Hsrt as (_ & _ & Hz). intros ch [Hch|Hch]%elem_of_app; [apply Hz; [done|by left]|].
    apply elem_of_list_singleton in Hch as ->. done. }
  assert (Hraw : forall k x, cc_raw c !! k = Some x -> (cc_raw c ++ [emb]) !! k = Some x).
  { intros k x Hk. rewrite lookup_app_l; [done|]. by eapply lookup_lt_Some. }
  assert (Hnew : (cc_raw c ++ [emb]) !! length (cc_raw c) = Some emb) by (by apply list_lookup_middle).
  assert (Hbl : exists bl, match cc_length c !! len with
     | None => Ok (<[len := length (cc_raw c)]> (cc_length c))
     | Some k => let! old := py_get ((cc_raw c ++ [emb]) !! k) in Ok (if length old <? length emb then <[len := length (cc_raw c)]> (cc_length c) else cc_length c)
     end = Ok bl /\ (bl = cc_length c \/ bl = <[len := length (cc_raw c)]> (cc_length c))).
  { destruct (cc_length c !! len) as [k|] eqn:E; [|eexists; split; [done|by right]].
    destruct (Hl _ _ E) as (o & Hk & _). rewrite (Hraw _ _ Hk). cbn [py_get rbind]. destruct (_ <? _); eexists; (split; [done|]); [by right|by left]. }
  destruct Hbl as (bl & -> & Hbl). cbn [rbind]. eexists. split; [done|]. cbn [cc_raw cc_size]. rewrite Hlen. split; [|done]. split; cbn [cc_raw cc_size cc_length].
  - intros n k Hk. destruct (decide (n = length e)) as [->|Hne].
    + rewrite lookup_insert in Hk. injection Hk as <-. exists emb. split; [done|lia].
    + rewrite lookup_insert_ne in Hk by done. destruct (Hs _ _ Hk) as (x & Hx & ?). exists x. split; [by apply Hraw|done].
  - intros l k Hk. assert (Hc : (l = len /\ k = length (cc_raw c)) \/ cc_length c !! l = Some k).
    { destruct Hbl as [-> | ->]; [by right|]. destruct (decide (l = len)) as [->|Hne]; [rewrite lookup_insert in Hk; left; split; congruence|].
      rewrite lookup_insert_ne in Hk by done. by right. }
    destruct Hc as [[-> ->]|Hc]; [exists emb; by split|]. destruct (Hl _ _ Hc) as (x & Hx & ?). exists x. split; [by apply Hraw|done].
  - intros x [Hx|Hx]%elem_of_app; [by apply Ho|]. apply elem_of_list_singleton in Hx as ->. done.
Qed.

(** merging *)
Lemma use_spec used k used' i : use used k = (used', i) ->
  used' !! i = Some k /\ used `prefix_of` used' /\ forall x, x ∈ used' -> x ∈ used \/ x = k.
Proof.
  unfold use. destruct (list_find _ used) as [[j x]|] eqn:E; intros [= <- <-].
  - apply list_find_Some in E as (Hj & <- & _). split; [done|]. split; [done|]. by left.
  - split; [by apply list_lookup_middle|]. split; [by exists [k]|]. intros x [Hx|Hx]%elem_of_app; [by left|]. apply elem_of_list_singleton in Hx as ->. by right.
Qed.

Lemma prefix_lookup' {A} (a b : list A) i x : a `prefix_of` b -> a !! i = Some x -> b !! i = Some x.
Proof. intros [k ->] H. rewrite lookup_app_l; [done|]. by eapply lookup_lt_Some. Qed.

Definition merge_step (pick : nat -> res (nat * bool)) (s : list (nat * bool) * gmap nat nat) (i : nat) : res (list (nat * bool) * gmap nat nat) :=
  let! k := pick i in let '(used, key) := use s.1 k in Ok (used, <[i := key]> s.2).

Lemma merge_fold pick l u0 : (forall i, i ∈ l -> exists k, pick i = Ok k) ->
  exists s, foldM (merge_step pick) l (u0, ∅) = Ok s /\ u0 `prefix_of` s.1 /\
    (forall i, i ∈ l -> exists k key, pick i = Ok k /\ s.2 !! i = Some key /\ s.1 !! key = Some k) /\
    (forall i, i ∉ l -> s.2 !! i = None) /\
    (forall k, k ∈ s.1 -> k ∈ u0 \/ exists i, i ∈ l /\ pick i = Ok k).
Proof.
  intros Hp. apply (foldM_inv (merge_step pick) (fun dn s => u0 `prefix_of` s.1 /\
    (forall i, i ∈ dn -> exists k key, pick i = Ok k /\ s.2 !! i = Some key /\ s.1 !! key = Some k) /\
    (forall i, i ∉ dn -> s.2 !! i = None) /\
    (forall k, k ∈ s.1 -> k ∈ u0 \/ exists i, i ∈ dn /\ pick i = Ok k))).
  - cbn. split; [done|]. split; [intros i Hi; by apply elem_of_nil in Hi|]. split; [intros; apply lookup_empty|by left].
  - intros dn x rest [used m] Hl (H1 & H2 & H3 & H4). cbn in *. destruct (Hp x) as [k Hk]; [subst l; set_solver|]. unfold merge_step. rewrite Hk. cbn [rbind fst snd].
    destruct (use used k) as [used' key] eqn:E. apply use_spec in E as (E1 & E2 & E3). eexists. split; [done|]. cbn.
    split; [by etrans|]. split; [|split].
    + intros i Hi. destruct (decide (i = x)) as [->|Hne].
      * exists k, key. by rewrite lookup_insert.
      * rewrite lookup_insert_ne by done. apply elem_of_app in Hi as [Hi|Hi]; [|apply elem_of_list_singleton in Hi; done].
        destruct (H2 _ Hi) as (k' & key' & ? & ? & ?). exists k', key'. split; [done|]. split; [done|]. by eapply prefix_lookup'.
    + intros i Hi. rewrite lookup_insert_ne by set_solver. apply H3. set_solver.
    + intros k' Hk'. destruct (E3 _ Hk') as [Hin| ->]; [|right; exists x; split; [set_solver|done]].
      destruct (H4 _ Hin) as [?|(i & ? & ?)]; [by left|]. right. exists i. split; [set_solver|done].
Qed.

Lemma elem_of_sorted_keys a b i : i ∈ sorted_keys a b <-> is_Some (a !! i) \/ is_Some (b !! i).
Proof.
  unfold sorted_keys. rewrite elem_of_list_filter.
  assert (Hk : forall m : gmap nat nat, i ∈ (map_to_list m).*1 <-> is_Some (m !! i)).
  { intros m. rewrite elem_of_list_fmap. split.
    - intros ([i' k] & -> & Hx). apply elem_of_map_to_list in Hx. by eexists.
    - intros [k Hk]. exists (i, k). split; [done|]. by apply elem_of_map_to_list. }
  rewrite elem_of_app, !Hk. split; [tauto|]. intros H. split; [done|]. rewrite elem_of_seq. split; [lia|]. cbn.
  assert (Hin : i ∈ (map_to_list a).*1 ++ (map_to_list b).*1) by (rewrite elem_of_app, !Hk; done).
  pose proof (max_list_elem_of_le _ _ Hin). lia.
Qed.

(** what a cache offers for a size, and for a chain length *)
Definition offers (c : ccache) (n : nat) (e : pemb) : Prop :=
  exists k e', cc_size c !! n = Some k /\ cc_raw c !! k = Some e' /\ n <= length e' /\ e = take n e'.
Definition offers_len (c : ccache) (l : nat) (e : pemb) : Prop :=
  exists k, cc_length c !! l = Some k /\ cc_raw c !! k = Some e.

Lemma offers_fun c n e e' : offers c n e -> offers c n e' -> e = e'.
Proof. intros (k & x & Hk & Hx & _ & ->) (k' & x' & Hk' & Hx' & _ & ->). congruence. Qed.
Lemma offers_has c n : cwf c -> is_Some (cc_size c !! n) <-> exists e, offers c n e.
Proof.
  intros Hw. split.
  - intros [k Hk]. destruct (wf_size _ Hw _ _ Hk) as (e & He & Hn). by exists (take n e), k, e.
  - intros (e & k & e' & Hk & _). by exists k.
Qed.

Definition emb_quality (quality : option (pemb -> Z)) (e : pemb) : Z :=
  match e with
  | [] => 0%Z
  | _ => match quality with None => (- Z.of_nat (maxlen e))%Z | Some q => q e end
  end.

Lemma quality_ok quality e n : sorted_len e -> n <= length e -> quality_of quality e n = Ok (emb_quality quality (take n e)).
Proof.
  intros Hs Hn. destruct n as [|j]; [done|]. cbn [quality_of]. destruct (lookup_lt_is_Some_2 e j ltac:(lia)) as [ch Hch].
  assert (Hne : exists a b, take (S j) e = a :: b) by (destruct e as [|a b]; [done|]; eexists _, _; done).
  unfold emb_quality. destruct Hne as (a & b & E). rewrite E. destruct quality as [q|].
  - done.
  - rewrite Hch. cbn [py_get rbind]. by rewrite <-E, (maxlen_sorted e j ch).
Qed.

Section merge.
  Context (quality : option (pemb -> Z)) (own other : ccache) (Ho : cwf own) (H0 : cwf other).

  Let src (k : nat * bool) := cc_raw (if k.2 : bool then own else other) !! k.1.
  Definition pick_size (i : nat) : res (nat * bool) :=
    match cc_size other !! i, cc_size own !! i with
    | Some key0, None => Ok (key0, false)
    | None, Some key1 => Ok (key1, true)
    | None, None => Err BadInit
    | Some key0, Some key1 =>
        let! e0 := py_get (cc_raw other !! key0) in
        let! e1 := py_get (cc_raw own !! key1) in
        let! qual0 := quality_of quality e0 i in
        let! qual1 := quality_of quality e1 i in
        Ok (if (qual1 <? qual0)%Z then (key0, false) else (key1, true))
    end.
  Definition pick_len (i : nat) : res (nat * bool) :=
    match cc_length other !! i, cc_length own !! i with
    | Some key0, None => Ok (key0, false)
    | None, Some key1 => Ok (key1, true)
    | None, None => Err BadInit
    | Some key0, Some key1 =>
        let! e0 := py_get (cc_raw other !! key0) in
        let! e1 := py_get (cc_raw own !! key1) in
        Ok (if length e1 <? length e0 then (key0, false) else (key1, true))
    end.

  Lemma pick_size_ok i : i ∈ sorted_keys (cc_size other) (cc_size own) ->
    exists k e, pick_size i = Ok k /\ src k = Some e /\ i <= length e /\
      cc_size (if k.2 then own else other) !! i = Some k.1 /\
      (forall e', offers other i e' -> (emb_quality quality e' <= emb_quality quality (take i e))%Z) /\
      (forall e', offers own i e' -> (emb_quality quality e' <= emb_quality quality (take i e))%Z) /\
      (k.2 = false -> forall e', offers own i e' -> (emb_quality quality e' < emb_quality quality (take i e))%Z).
  Proof using Ho H0.
    rewrite elem_of_sorted_keys. intros Hi. unfold pick_size.
    destruct (cc_size other !! i) as [k0|] eqn:E0, (cc_size own !! i) as [k1|] eqn:E1.
    - destruct (wf_size _ H0 _ _ E0) as (e0 & He0 & Hn0). destruct (wf_size _ Ho _ _ E1) as (e1 & He1 & Hn1).
      rewrite He0, He1. cbn [py_get rbind].
      rewrite (quality_ok quality e0 i) by (first [done|eapply (wf_sorted _ H0), elem_of_list_lookup_2, He0]).
      rewrite (quality_ok quality e1 i) by (first [done|eapply (wf_sorted _ Ho), elem_of_list_lookup_2, He1]). cbn [rbind].
      assert (Hf0 : forall e', offers other i e' -> e' = take i e0).
      { intros e' He'. eapply offers_fun; [done|]. by exists k0, e0. }
      assert (Hf1 : forall e', offers own i e' -> e' = take i e1).
      { intros e' He'. eapply offers_fun; [done|]. by exists k1, e1. }
      destruct (Z.ltb_spec (emb_quality quality (take i e1)) (emb_quality quality (take i e0))) as [Hq|Hq].
      + exists (k0, false), e0. split_and!; try done.
        * intros e' ->%Hf0. lia.
        * intros e' ->%Hf1. lia.
        * intros _ e' ->%Hf1. lia.
      + exists (k1, true), e1. split_and!; try done.
        * intros e' ->%Hf0. lia.
        * intros e' ->%Hf1. lia.
    - destruct (wf_size _ H0 _ _ E0) as (e0 & He0 & Hn0). exists (k0, false), e0. split_and!; try done.
      + intros e' He'. assert (e' = take i e0) as -> by (eapply offers_fun; [done|]; by exists k0, e0). done.
      + intros e' (k & ? & Hk & _). congruence.
      + intros _ e' (k & ? & Hk & _). congruence.
    - destruct (wf_size _ Ho _ _ E1) as (e1 & He1 & Hn1). exists (k1, true), e1. split_and!; try done.
      + intros e' (k & ? & Hk & _). congruence.
      + intros e' He'. assert (e' = take i e1) as -> by (eapply offers_fun; [done|]; by exists k1, e1). done.
    - destruct Hi as [[? ?]|[? ?]]; congruence.
  Qed.

  Lemma pick_len_ok i : i ∈ sorted_keys (cc_length other) (cc_length own) ->
    exists k e, pick_len i = Ok k /\ src k = Some e /\
      cc_length (if k.2 then own else other) !! i = Some k.1 /\
      (forall ch, ch ∈ e -> length ch <= i) /\
      (forall e', offers_len other i e' \/ offers_len own i e' -> length e' <= length e) /\
      (k.2 = false -> forall e', offers_len own i e' -> length e' < length e).
  Proof using Ho H0.
    rewrite elem_of_sorted_keys. intros Hi. unfold pick_len.
    destruct (cc_length other !! i) as [k0|] eqn:E0, (cc_length own !! i) as [k1|] eqn:E1.
    - destruct (wf_len _ H0 _ _ E0) as (e0 & He0 & Hn0). destruct (wf_len _ Ho _ _ E1) as (e1 & He1 & Hn1).
      rewrite He0, He1. cbn [py_get rbind].
      destruct (Nat.ltb_spec (length e1) (length e0)) as [Hq|Hq].
      + exists (k0, false), e0. split_and!; try done.
        * intros e' [(k & Hk & Hr)|(k & Hk & Hr)]; [assert (e' = e0) as -> by congruence|assert (e' = e1) as -> by congruence]; lia.
        * intros _ e' (k & Hk & Hr). assert (e' = e1) as -> by congruence; lia.
      + exists (k1, true), e1. split_and!; try done.
        intros e' [(k & Hk & Hr)|(k & Hk & Hr)]; [assert (e' = e0) as -> by congruence|assert (e' = e1) as -> by congruence]; lia.
    - destruct (wf_len _ H0 _ _ E0) as (e0 & He0 & Hn0). exists (k0, false), e0. split_and!; try done.
      + intros e' [(k & Hk & Hr)|(k & Hk & Hr)]; [assert (e' = e0) as -> by congruence|congruence]; lia.
      + intros _ e' (k & Hk & _). congruence.
    - destruct (wf_len _ Ho _ _ E1) as (e1 & He1 & Hn1). exists (k1, true), e1. split_and!; try done.
      intros e' [(k & Hk & Hr)|(k & Hk & Hr)]; [congruence|assert (e' = e1) as -> by congruence]; lia.
    - destruct Hi as [[? ?]|[? ?]]; congruence.
  Qed.

  Lemma merge_ok : exists c, merge_clique_cache quality own other = Ok c /\ cwf c /\
    (forall n e, offers c n e -> offers own n e \/ offers other n e) /\
    (forall n, (exists e, offers c n e) <-> (exists e, offers own n e) \/ (exists e, offers other n e)) /\
    (forall n e e', offers c n e -> offers own n e' \/ offers other n e' -> (emb_quality quality e' <= emb_quality quality e)%Z) /\
    (forall n e e', offers c n e -> offers own n e' -> e <> e' -> (emb_quality quality e' < emb_quality quality e)%Z) /\
    (forall l, (exists e, offers_len c l e) <-> (exists e, offers_len own l e) \/ (exists e, offers_len other l e)) /\
    (forall l e, offers_len c l e -> (offers_len own l e \/ offers_len other l e) /\
        (forall e', offers_len own l e' \/ offers_len other l e' -> length e' <= length e)) /\
    (forall e, e ∈ cc_raw c -> e ∈ cc_raw own \/ e ∈ cc_raw other).
  Proof using Ho H0.
    destruct (merge_fold pick_size (sorted_keys (cc_size other) (cc_size own)) []) as (s & Es & _ & S1 & S2 & S3).
    { intros i Hi. destruct (pick_size_ok i Hi) as (k & e & Hk & _). by exists k. }
    destruct (merge_fold pick_len (sorted_keys (cc_length other) (cc_length own)) s.1) as (t & Et & T0 & T1 & T2 & T3).
    { intros i Hi. destruct (pick_len_ok i Hi) as (k & e & Hk & _). by exists k. }
    assert (Hsrc : forall k, k ∈ t.1 -> exists e, src k = Some e).
    { intros k Hk. destruct (T3 _ Hk) as [Hk'|(i & Hi & Hp)].
      - destruct (S3 _ Hk') as [Hn|(i & Hi & Hp)]; [by apply elem_of_nil in Hn|].
        destruct (pick_size_ok i Hi) as (k' & e & Hk1 & He & _). assert (k = k') as -> by congruence. by exists e.
      - destruct (pick_len_ok i Hi) as (k' & e & Hk1 & He & _). assert (k = k') as -> by congruence. by exists e. }
    destruct (foldM_inv (fun acc k => let! e := py_get (cc_raw (if k.2 : bool then own else other) !! k.1) in Ok (acc ++ [e]))
      (fun dn acc => Some <$> acc = src <$> dn) t.1 []) as (raw & Eraw & Hraw).
    { done. }
    { intros dn k rest acc Hl HI. destruct (Hsrc k) as [e He]; [rewrite Hl; set_solver|]. unfold src in He. rewrite He. cbn [py_get rbind].
      eexists. split; [done|]. rewrite !fmap_app, HI. cbn. unfold src. by rewrite He. }
    assert (Hrl : forall i k, t.1 !! i = Some k -> raw !! i = src k).
    { intros i k Hk. assert (HH : (Some <$> raw) !! i = (src <$> t.1) !! i) by (by rewrite Hraw). rewrite !list_lookup_fmap, Hk in HH. cbn in HH.
      destruct (raw !! i) as [e|]; cbn in HH; [congruence|done]. }
    assert (Hrin : forall e, e ∈ raw -> exists k, k ∈ t.1 /\ src k = Some e).
    { intros e He. assert (HH : Some e ∈ src <$> t.1) by (rewrite <-Hraw; by apply elem_of_list_fmap_1).
      apply elem_of_list_fmap in HH as (k & Hk & Hin). by exists k. }
    exists (mkCC raw s.2 t.2). unfold merge_clique_cache.
    change (merge_size quality other own) with (merge_step pick_size). rewrite Es. cbn [rbind].
    change (merge_length other own) with (merge_step pick_len). rewrite Et. cbn [rbind]. rewrite Eraw. cbn [rbind].
    split; [done|].
    (** what the merged cache offers *)
    assert (HS : forall n key, s.2 !! n = Some key -> exists k e, pick_size n = Ok k /\ raw !! key = Some e /\ n <= length e /\
       cc_raw (if k.2 : bool then own else other) !! k.1 = Some e /\ cc_size (if k.2 then own else other) !! n = Some k.1 /\ n ∈ sorted_keys (cc_size other) (cc_size own)).
    { intros n key Hk. destruct (decide (n ∈ sorted_keys (cc_size other) (cc_size own))) as [Hi|Hi]; [|rewrite (S2 _ Hi) in Hk; done].
      destruct (S1 _ Hi) as (k & key' & Hp & Hk' & Hu). assert (key' = key) as -> by congruence.
      destruct (pick_size_ok n Hi) as (k' & e & Hp' & He & Hn & Hz & _). assert (k' = k) as -> by congruence.
      exists k, e. split_and!; try done. rewrite (Hrl key k); [done|]. by eapply prefix_lookup'. }
    assert (HL : forall n key, t.2 !! n = Some key -> exists k e, pick_len n = Ok k /\ raw !! key = Some e /\
       cc_raw (if k.2 : bool then own else other) !! k.1 = Some e /\ cc_length (if k.2 then own else other) !! n = Some k.1 /\ n ∈ sorted_keys (cc_length other) (cc_length own)).
    { intros n key Hk. destruct (decide (n ∈ sorted_keys (cc_length other) (cc_length own))) as [Hi|Hi]; [|rewrite (T2 _ Hi) in Hk; done].
      destruct (T1 _ Hi) as (k & key' & Hp & Hk' & Hu). assert (key' = key) as -> by congruence.
      destruct (pick_len_ok n Hi) as (k' & e & Hp' & He & Hz & _). assert (k' = k) as -> by congruence.
      exists k, e. split_and!; try done. by rewrite (Hrl key k). }
    assert (Hoff : forall n e, offers (mkCC raw s.2 t.2) n e -> n ∈ sorted_keys (cc_size other) (cc_size own) /\ exists k e', pick_size n = Ok k /\ src k = Some e' /\ e = take n e' /\
       offers (if k.2 then own else other) n e).
    { intros n e (key & e' & Hk & He' & Hn & ->). cbn in Hk, He'. destruct (HS _ _ Hk) as (k & e'' & Hp & He'' & Hn' & Hr & Hz & Hi). assert (e'' = e') as -> by congruence.
      split; [done|]. exists k, e'. split_and!; try done. by exists k.1, e'. }
    split.
    { split; cbn.
      - intros n key Hk. destruct (HS _ _ Hk) as (k & e & _ & He & Hn & _). by exists e.
      - intros l key Hk. destruct (HL _ _ Hk) as (k & e & Hp & He & _ & _ & Hi). exists e. split; [done|].
        destruct (pick_len_ok l Hi) as (k' & e' & Hp' & He' & _ & Hch & _). assert (k' = k) as -> by congruence.
        destruct (T1 _ Hi) as (k'' & key' & Hp'' & Hk' & Hu). assert (key' = key) as -> by congruence. assert (k'' = k) as -> by congruence.
        rewrite (Hrl _ _ Hu), He' in He. injection He as <-. done.
      - intros e He. destruct (Hrin _ He) as (k & _ & Hk). unfold src in Hk. destruct k as [k [|]]; cbn in Hk.
        + eapply (wf_sorted _ Ho), elem_of_list_lookup_2, Hk.
        + eapply (wf_sorted _ H0), elem_of_list_lookup_2, Hk. }
    split_and!.
    - intros n e He. destruct (Hoff _ _ He) as (_ & [k [|]] & e' & _ & _ & _ & Hk); cbn in Hk; [by left|by right].
    - intros n. split.
      + intros [e He]. destruct (Hoff _ _ He) as (_ & [k [|]] & e' & _ & _ & _ & Hk); cbn in Hk; [left|right]; by exists e.
      + intros H. assert (Hi : n ∈ sorted_keys (cc_size other) (cc_size own)).
        { apply elem_of_sorted_keys. rewrite (offers_has _ _ Ho), (offers_has _ _ H0). tauto. }
        destruct (S1 _ Hi) as (k & key & Hp & Hk & Hu). destruct (HS _ _ Hk) as (k' & e & _ & He & Hn & _). by exists (take n e), key, e.
    - intros n e e' He He'. destruct (Hoff _ _ He) as (Hi & k & x & Hp & Hx & -> & _).
      destruct (pick_size_ok n Hi) as (k' & x' & Hp' & Hx' & Hn & _ & Hq0 & Hq1 & _). assert (k' = k) as -> by congruence. assert (x' = x) as -> by congruence.
      destruct He' as [He'|He']; [by apply Hq1|by apply Hq0].
    - intros n e e' He He' Hne. destruct (Hoff _ _ He) as (Hi & k & x & Hp & Hx & -> & Hk).
      destruct (pick_size_ok n Hi) as (k' & x' & Hp' & Hx' & Hn & _ & _ & _ & Hq). assert (k' = k) as -> by congruence. assert (x' = x) as -> by congruence.
      destruct (k.2) eqn:E2; [|by apply Hq]. destruct Hne. by eapply offers_fun.
    - intros l. split.
      + intros (e & key & Hk & He). cbn in Hk. destruct (HL _ _ Hk) as ([k [|]] & e' & _ & _ & Hr & Hz & _); cbn in Hr, Hz; [left|right]; exists e', k; done.
      + intros H. assert (Hi : l ∈ sorted_keys (cc_length other) (cc_length own)).
        { apply elem_of_sorted_keys. destruct H as [(e & k & Hk & _)|(e & k & Hk & _)]; [right|left]; by exists k. }
        destruct (T1 _ Hi) as (k & key & Hp & Hk & Hu). destruct (HL _ _ Hk) as (k' & e & _ & He & _). by exists e, key.
    - intros l e (key & Hk & He). cbn in Hk, He. destruct (HL _ _ Hk) as (k & e' & Hp & He' & Hr & Hz & Hi). assert (e' = e) as -> by congruence. split.
      + destruct k as [k [|]]; cbn in Hr, Hz; [left|right]; by exists k.
      + destruct (pick_len_ok l Hi) as (k' & x' & Hp' & Hx' & _ & _ & Hq & _). assert (k' = k) as -> by congruence. unfold src in Hx'. assert (x' = e) as -> by congruence.
        intros e' He''. apply Hq. tauto.
    - intros e He. destruct (Hrin _ He) as ([k [|]] & _ & Hk); unfold src in Hk; cbn in Hk; [left|right]; by eapply elem_of_list_lookup_2.
  Qed.
End merge.
