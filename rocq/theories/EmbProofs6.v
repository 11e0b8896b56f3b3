(** The reference-count diagnostic, connectedness of rooted chains, and the invariant of
    every embedding reachable by a sequence of operations. *)
From stdpp Require Import base list numbers gmap fin_maps relations.
From Verif Require Import Base Spec ChainModel ChainProofs ChainProofs2 EmbModel EmbProofs EmbProofs2 EmbProofs3 EmbProofs4 EmbProofs5.
Local Open Scope Z_scope.

(** ** run_diagnostic *)
Definition bump (m : gmap nat Z) (q : nat) : gmap nat Z := <[q := default 0 (m !! q) + 1]> m.
Definition cnt (q : nat) (l : list nat) : Z := Z.of_nat (length (filter (fun x => x = q) l)).

Lemma bump_val l : forall m q, default 0 (foldl bump m l !! q) = default 0 (m !! q) + cnt q l.
Proof.
  induction l as [|x l IH]; intros m q; simpl; [unfold cnt; simpl; lia|].
  rewrite IH. unfold bump, cnt. rewrite filter_cons. destruct (decide (x = q)) as [->|N].
  - rewrite lookup_insert. simpl. lia.
  - rewrite lookup_insert_ne by done. lia.
Qed.
Lemma bump_dom l : forall m q, is_Some (foldl bump m l !! q) <-> is_Some (m !! q) \/ q ∈ l.
Proof.
  induction l as [|x l IH]; intros m q; simpl.
  - split; [auto|]. intros [?|H]; [done|]. by apply elem_of_nil in H.
  - rewrite IH. unfold bump. rewrite elem_of_cons. destruct (decide (x = q)) as [->|N].
    + rewrite lookup_insert. split; eauto.
    + rewrite lookup_insert_ne by done. naive_solver.
Qed.
Lemma ref_counts_bump c : ref_counts c = foldl bump (foldl bump ∅ ((map_to_list (clinks c)).*2)) ((map_to_list (cdata c)).*2.*1).
Proof. done. Qed.

Lemma cnt_perm q l l' : l ≡ₚ l' -> cnt q l = cnt q l'.
Proof. intros H. unfold cnt. by rewrite H. Qed.
Lemma cnt_occ m q : cnt q ((map_to_list m).*2) = occ m q.
Proof.
  induction m as [|k v m Hk IH] using map_ind.
  - rewrite map_to_list_empty, occ_empty. done.
  - rewrite occ_insert by done. rewrite <- IH.
    rewrite (cnt_perm q _ ((k, v) :: map_to_list m).*2).
    2:{ apply fmap_Permutation. by apply map_to_list_insert. }
    rewrite fmap_cons. unfold cnt. rewrite filter_cons. cbn [snd].
    destruct (decide (v = q)); cbn [length]; lia.
Qed.
Lemma map_snd_fst (m : gmap nat (nat * Z)) : (map_to_list m).*2.*1 ≡ₚ (map_to_list (fst <$> m)).*2.
Proof.
  rewrite map_to_list_fmap. rewrite <- !list_fmap_compose.
  apply reflexive_eq. apply list_fmap_ext. intros ? [? [? ?]]. done.
Qed.

Lemma run_diagnostic_ok adj c : cwf ex0 adj c -> run_diagnostic c = 0.
Proof.
  intros W. unfold run_diagnostic.
  assert (G : forall p r, ref_counts c !! p = Some r -> exists p', cdata c !! p = Some (p', r)).
  { intros p r H. rewrite ref_counts_bump in H.
    assert (V : r = occ (clinks c) p + occ (pm c) p).
    { pose proof (bump_val ((map_to_list (cdata c)).*2.*1) (foldl bump ∅ ((map_to_list (clinks c)).*2)) p) as X.
      rewrite H in X. simpl in X. rewrite X, bump_val, lookup_empty, cnt_occ. simpl.
      rewrite (cnt_perm _ _ _ (map_snd_fst (cdata c))), cnt_occ. done. }
    assert (D : is_Some (pm c !! p)).
    { assert (X : is_Some (ref_counts c !! p)) by (rewrite ref_counts_bump, H; eauto).
      rewrite ref_counts_bump, !bump_dom, lookup_empty in X.
      destruct X as [[[? ?]|X]|X]; [done| |].
      - apply elem_of_list_fmap in X as ([k v] & -> & X). apply elem_of_map_to_list in X.
        simpl. eapply cwf_links; eauto.
      - rewrite map_snd_fst in X. apply elem_of_list_fmap in X as ([k v] & -> & X). apply elem_of_map_to_list in X.
        simpl. destruct (cwf_anc _ _ _ W k) as [rr A]; [by exists v|].
        destruct A as [k' A|k' p' rr A N A']; fold (pm c) in X; [replace v with k' by congruence; eauto|].
        replace v with p' by congruence. by eapply anc_in. }
    destruct D as [p' D]. apply pm_lookup in D as [r' D]. exists p'. rewrite D. repeat f_equal.
    rewrite (cwf_refs _ _ _ W _ _ _ D). unfold ex0. lia. }
  assert (L : forall l, (forall p r, (p, r) ∈ l -> exists p', cdata c !! p = Some (p', r)) ->
     foldl (fun (e : Z) '(p, r) => match cdata c !! p with None => Z.lor e 1
       | Some (_, r') => if decide (r = r') then e else Z.lor e 2 end) 0 l = 0).
  { induction l as [|[p r] l IH]; intros H; [done|]. simpl.
    destruct (H p r) as [p' E]; [by left|]. rewrite E. rewrite decide_True by done.
    apply IH. intros; apply H. by right. }
  apply L. intros p r H. apply G. by apply elem_of_map_to_list.
Qed.

(** ** connectedness *)
Lemma rooted_connected (adj : nat -> nat -> Prop) c r : (forall x y, adj x y -> adj y x) -> cwf ex0 adj c -> rooted_at c r ->
  connected_in adj (qin c).
Proof.
  intros Sy W R.
  assert (A : forall x, qin c x -> rtc (fun a b => adj a b /\ qin c a /\ qin c b) x r).
  { intros x X. apply pm_is_Some in X. specialize (R x X).
    induction R as [q H|q p r' H N A IH]; [done|].
    assert (P : is_Some (pm c !! p)) by (by eapply anc_in).
    eapply rtc_l; [|by apply IH]. split; [by eapply cwf_adj|].
    split; apply pm_is_Some; eauto. }
  intros x y X Y. etrans; [by apply A|].
  assert (B : forall a, rtc (fun a b => adj a b /\ qin c a /\ qin c b) a r ->
     rtc (fun a b => adj a b /\ qin c a /\ qin c b) r a).
  { intros a. induction 1 as [|a b z H _ IH]; [done|]. eapply rtc_r; [by apply IH|]. naive_solver. }
  by apply B, A.
Qed.
