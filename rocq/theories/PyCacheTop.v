(** The cache properties in terms of requests and answers. *)
From stdpp Require Import base list list_numbers numbers gmap sorting.
From Verif Require Import Base Wp SpecBus SpecCache BusModel CliqueModel SmallModel BicliqueModel CliqueTop BicliqueTop PyCacheModel PyCacheProofs1 PyCacheProofs2 PyCacheProofs3 PyCacheProofs4.

Lemma clique_submseteq nodes edges e e' : clique_embedding nodes edges e -> e' ⊆+ e -> clique_embedding nodes edges e'.
Proof.
  intros H Hs. apply submseteq_sublist_l in Hs as (w & Hw & HP). eapply clique_sub; [|exact Hw]. by eapply clique_perm.
Qed.

Lemma longest_zip (l : list nat) (e : pemb) : length e = length l -> longest (zip l e) = maxlen e.
Proof. intros H. unfold longest, chains_of, maxlen. by rewrite snd_zip by lia. Qed.
Lemma chains_zip (l : list nat) (e : pemb) : length e = length l -> chains_of (zip l e) = e.
Proof. intros H. unfold chains_of. by rewrite snd_zip by lia. Qed.
Lemma labels_zip (l : list nat) (e : pemb) : length e = length l -> (zip l e).*1 = l.
Proof. intros H. by rewrite fst_zip by lia. Qed.
Lemma zip_nonempty (l : list nat) (e : pemb) : l <> [] -> length e = length l -> zip l e <> [].
Proof. destruct l, e; cbn; done. Qed.

(** the request [l] and what a well-formed cache offers *)
Lemma request c nn : cwf c -> let l := (num_nodes nn 0).2 in
  (exists e, offers c (length l) e /\ length e = length l /\ find_clique_embedding c nn = Ok (zip l e)) \/
  ((forall e, ~ offers c (length l) e) /\ find_clique_embedding c nn = Ok []).
Proof.
  intros Hw. assert (Hn : (num_nodes nn 0).1 = length (num_nodes nn 0).2) by (destruct nn; cbn; [by rewrite seq_length|done]).
  unfold find_clique_embedding. destruct (num_nodes nn 0) as [num l]. cbn in Hn. subst num. cbn.
  destruct (cc_size c !! length l) as [k|] eqn:E.
  - left. destruct (wf_size _ Hw _ _ E) as (e & He & Hle). rewrite He. cbn [py_get rbind]. exists (take (length l) e).
    split; [by exists k, e|]. split; [rewrite take_length; lia|]. by rewrite <-zip_take.
  - right. split; [|done]. intros e (k & e' & Hk & _). congruence.
Qed.

Section graph.
  Context (nodes : list nat) (edges : list (nat * nat)).
  Notation G := (clique_embedding nodes edges).
  Let Gsub := clique_submseteq nodes edges.

  (** C50 *)
  Lemma history_answers c nn : reached G c -> exists r, find_clique_embedding c nn = Ok r /\ (r = [] \/ clique_answer nodes edges (num_nodes nn 0).2 r).
  Proof using.
    intros Hr. destruct (answer G Gsub c nn Hr) as (r & Hf & H). cbv zeta in H. exists r. split; [done|].
    destruct H as [[-> _]|(e & _ & HG & Hl & ->)]; [by left|]. right. split; [by apply labels_zip|]. by rewrite chains_zip.
  Qed.
  Lemma history_largest c : reached G c -> exists r, largest_clique c = Ok r /\ clique_answer nodes edges (seq 0 (length r)) r /\
    forall nn r', find_clique_embedding c nn = Ok r' -> length r' <= length r.
  Proof using.
    intros Hr. destruct (largest G Gsub c Hr) as (r & Hf & H). exists r. split; [done|].
    destruct (reached_wf G Gsub c Hr) as [Hw _]. destruct H as [[-> Hno]|(e & He & HG & -> & Hmax)].
    - split; [split; [done|]; split; [intros ch Hch; by apply elem_of_nil in Hch|done]|].
      intros nn r' Hr'. destruct (request c nn Hw) as [(e & (k & ? & Hk & _) & _)|[_ Hf']]; [by rewrite Hno in Hk|]. rewrite Hf' in Hr'. by injection Hr' as <-.
    - unfold enumerated. rewrite imap_length. split; [split|].
      + clear. change ((imap (fun i c => (i, c)) e).*1 = seq 0 (length e)). apply list_eq. intros i. rewrite list_lookup_fmap, list_lookup_imap.
        destruct (e !! i) as [x|] eqn:E; cbn.
        * symmetry. apply lookup_seq. split; [done|]. by eapply lookup_lt_Some.
        * symmetry. apply lookup_seq_ge. by apply lookup_ge_None.
      + unfold chains_of. assert ((imap (fun i c => (i, c)) e).*2 = e) as ->; [|done]. apply list_eq. intros i. rewrite list_lookup_fmap, list_lookup_imap. by destruct (e !! i).
      + intros nn r' Hr'. destruct (request c nn Hw) as [(e' & Ho & Hl & Hf')|[_ Hf']]; rewrite Hf' in Hr'; injection Hr' as <-; [|cbn; lia].
        rewrite zip_with_length. specialize (Hmax _ _ Ho). lia.
  Qed.

  (** C51 *)
  Lemma merged q own other nn : reached G own -> reached G other -> (num_nodes nn 0).2 <> [] ->
    exists c r r1 r0, merge_clique_cache q own other = Ok c /\ find_clique_embedding c nn = Ok r /\
      find_clique_embedding own nn = Ok r1 /\ find_clique_embedding other nn = Ok r0 /\
      (r = r1 \/ r = r0) /\ (r = [] <-> r1 = [] /\ r0 = []) /\
      let better a b := match q with None => longest a <= longest b | Some f => (f (chains_of b) <= f (chains_of a))%Z end in
      (r1 <> [] -> better r r1) /\ (r0 <> [] -> better r r0) /\ (r1 <> [] -> better r1 r -> r = r1).
  Proof using.
    intros [Hw1 _]%(reached_wf G Gsub) [Hw0 _]%(reached_wf G Gsub) Hl.
    destruct (merge_ok q own other Hw1 Hw0) as (c & Hc & Hw & M1 & M2 & M3 & M4 & _).
    set (l := (num_nodes nn 0).2) in *.
    assert (Hbet : forall e e', length e = length l -> length e' = length l -> (emb_quality q e' <= emb_quality q e)%Z <->
       match q with None => longest (zip l e) <= longest (zip l e') | Some f => (f (chains_of (zip l e')) <= f (chains_of (zip l e)))%Z end).
    { intros e e' H H'. rewrite !longest_zip, !chains_zip by done. assert (e <> []) by (intros ->; cbn in H; destruct l; done). assert (e' <> []) by (intros ->; cbn in H'; destruct l; done).
      unfold emb_quality. destruct e, e'; [done|done|done|]. destruct q; lia. }
    exists c. destruct (request c nn Hw) as [(e & Ho & Hle & Hf)|[Hno Hf]]; fold l in Hf.
    - exists (zip l e). destruct (request own nn Hw1) as [(e1 & Ho1 & Hl1 & Hf1)|[Hno1 Hf1]]; destruct (request other nn Hw0) as [(e0 & Ho0 & Hl0 & Hf0)|[Hno0 Hf0]]; fold l in Ho, Hle, Hf1, Hf0; 
        rewrite Hf, Hf1, Hf0; eexists _, _; (split; [done|]); (split; [done|]); (split; [done|]); (split; [done|]).
      + fold l in Ho1, Hl1, Ho0, Hl0.
        split. { destruct (M1 _ _ Ho) as [H|H]; [left|right]; f_equal; by eapply offers_fun. }
        split. { split; [by intros ?%zip_nonempty|]. intros [?%zip_nonempty _]; done. }
        split; [|split].
        * intros _. apply Hbet; [done|done|]. eapply M3; [done|by left].
        * intros _. apply Hbet; [done|done|]. eapply M3; [done|by right].
        * intros _ Hb. apply (Hbet e1 e) in Hb; [|done|done]. destruct (decide (e = e1)) as [->|Hne]; [done|]. specialize (M4 _ _ _ Ho Ho1 Hne). lia.
      + fold l in Ho1, Hl1, Hno0. destruct (M1 _ _ Ho) as [H|H]; [|by apply Hno0 in H].
        assert (e1 = e) as -> by (by eapply offers_fun). split; [by left|]. split; [split; [by intros ?%zip_nonempty|by intros [? _]]|]. split; [|split]; [intros _|done|done]. destruct q; lia.
      + fold l in Ho0, Hl0, Hno1. destruct (M1 _ _ Ho) as [H|H]; [by apply Hno1 in H|].
        assert (e0 = e) as -> by (by eapply offers_fun). split; [by right|]. split; [split; [by intros ?%zip_nonempty|by intros [_ ?]]|]. split; [|split]; [done|intros _|done]. destruct q; lia.
      + destruct (M1 _ _ Ho) as [H|H]; [by apply Hno1 in H|by apply Hno0 in H].
    - exists []. fold l in Hno. assert (Hn' : (forall e, ~ offers own (length l) e) /\ (forall e, ~ offers other (length l) e)).
      { assert (HH : ~ exists e, offers c (length l) e) by (intros [e He]; by eapply Hno). rewrite M2 in HH. split; intros e He; apply HH; [left|right]; by exists e. }
      destruct Hn' as [Hn1 Hn0]. destruct (request own nn Hw1) as [(e1 & Ho1 & _)|[_ Hf1]]; [by apply Hn1 in Ho1|]. destruct (request other nn Hw0) as [(e0 & Ho0 & _)|[_ Hf0]]; [by apply Hn0 in Ho0|].
      exists [], []. rewrite Hf, Hf1, Hf0. split_and!; try done. by left.
  Qed.

  Lemma inserted c e nn : reached G c -> (num_nodes nn 0).2 <> [] ->
    exists c' r r1, insert_merge None c e = Ok c' /\ find_clique_embedding c' nn = Ok r /\ find_clique_embedding c nn = Ok r1 /\
      (r = [] <-> r1 = [] /\ length e < length (num_nodes nn 0).2) /\
      (r1 <> [] -> longest r <= longest r1) /\
      (forall s, s ⊆+ e -> length s = length (num_nodes nn 0).2 -> longest r <= max_list (length <$> s)) /\
      (r1 <> [] -> longest r1 <= longest r -> r = r1).
  Proof using.
    intros [Hw _]%(reached_wf G Gsub) Hl. destruct (merge_ok None c (make_clique_cache (shorter_lists e)) Hw (shorter_wf e)) as (c' & Hc & Hw' & _).
    destruct (insert_merge_best c e c' Hw Hc) as (I1 & I2 & I3). set (l := (num_nodes nn 0).2) in *.
    exists c'. destruct (request c nn Hw) as [(e1 & Ho1 & Hl1 & Hf1)|[Hno1 Hf1]]; destruct (request c' nn Hw') as [(x & Ho & Hx & Hf)|[Hno Hf]]; rewrite Hf, Hf1; eexists _, _; (split; [done|]); (split; [done|]); (split; [done|]).
    - fold l in Ho1, Hl1, Ho, Hx |- *. destruct (I2 _ _ Ho) as [I2a I2b]. split; [split; [by intros ?%zip_nonempty|intros [?%zip_nonempty _]; done]|].
      rewrite !longest_zip by done. split; [intros _; by apply I2a|]. split; [intros s Hs Hsl; by apply I2b|]. intros _ Hle.
      destruct (decide (x = e1)) as [->|Hne]; [done|]. specialize (I3 _ _ _ Ho Ho1 Hne). lia.
    - exfalso. fold l in Hno, Ho1. assert (HH : exists x, offers c' (length l) x) by (apply I1; left; by exists e1). destruct HH as [x Hx]. by apply Hno in Hx.
    - fold l in Hno1, Ho, Hx |- *. destruct (I2 _ _ Ho) as [I2a I2b]. assert (HH : length l <= length e).
      { destruct (proj1 (I1 (length l)) (ex_intro _ x Ho)) as [[y Hy]|?]; [by apply Hno1 in Hy|done]. }
      split; [split; [by intros ?%zip_nonempty|intros [_ ?]; lia]|]. rewrite !longest_zip by done. split; [done|]. split; [intros s Hs Hsl; by apply I2b|done].
    - fold l in Hno, Hno1 |- *. assert (HH : ~ length l <= length e) by (intros Hle; destruct (proj2 (I1 (length l)) (or_intror Hle)) as [x Hx]; by apply Hno in Hx).
      split; [split; [intros _; split; [done|lia]|done]|]. split; [done|]. split; [|done]. intros s Hs Hsl. unfold longest. cbn. lia.
  Qed.

  (** C53 *)
  Lemma same_offers c c' nn : cwf c -> cwf c' -> (forall e, offers c' (length (num_nodes nn 0).2) e <-> offers c (length (num_nodes nn 0).2) e) -> find_clique_embedding c' nn = find_clique_embedding c nn.
  Proof using.
    intros Hw Hw' H. destruct (request c nn Hw) as [(e & Ho & _ & ->)|[Hno ->]]; destruct (request c' nn Hw') as [(e' & Ho' & _ & ->)|[Hno' ->]]; [|by apply H, Hno' in Ho|by apply H, Hno in Ho'|done].
    apply H in Ho'. by rewrite (offers_fun _ _ _ _ Ho Ho').
  Qed.
  Lemma sparse_same c : reached G c -> exists l c', export_sparse c = Ok l /\ import_embs cc_blank l.*2 = Ok c' /\ forall nn, find_clique_embedding c' nn = find_clique_embedding c nn.
  Proof using.
    intros [Hw _]%(reached_wf G Gsub). destruct (sparse_roundtrip c Hw) as (l & c' & Hl & Hc & Ho). exists l, c'. split; [done|]. split; [done|]. intros nn. apply same_offers; [done| |by intros e; apply Ho].
    destruct (import_spec l.*2 cc_blank blank_wf) as (c1 & Hc1 & Hw1 & _); [|congruence].
    destruct (export_sparse_spec c Hw) as (l' & Hl' & _ & Hin). assert (l' = l) as -> by congruence. intros e ([n e'] & -> & H)%elem_of_list_fmap. apply Hin in H. by destruct (offers_sorted _ _ _ Hw H).
  Qed.
  Lemma dense_loses c : reached G c -> forall r, largest_clique c = Ok r -> r <> [] ->
    exists l c' m, export_dense c = Ok l /\ import_embs cc_blank l = Ok c' /\
      (forall nn, length (num_nodes nn 0).2 < m -> find_clique_embedding c' nn = find_clique_embedding c nn) /\
      (forall nn, length (num_nodes nn 0).2 = m -> find_clique_embedding c' nn = Ok [] /\ exists r, find_clique_embedding c nn = Ok r /\ (1 <= m -> r <> [])) /\
      (forall nn r, m < length (num_nodes nn 0).2 -> find_clique_embedding c nn = Ok r -> r = []).
  Proof using.
    intros Hr r Hlr Hne. pose proof (reached_wf G Gsub c Hr) as [Hw _].
    unfold largest_clique in Hlr. destruct (map_to_list (cc_size c)) as [|x y] eqn:E; [congruence|].
    destruct (max_key (cc_size c)) as [m|] eqn:Em; [|done]. clear E x y Hlr. destruct (dense_roundtrip c m Hw Em) as (l & c' & Hl & Hc & D1 & D2).
    assert (Hw' : cwf c').
    { destruct (import_spec l cc_blank blank_wf) as (c1 & Hc1 & Hw1 & _); [|congruence].
      destruct (export_dense_spec c m Hw Em) as (l' & Hl' & _ & Hin). assert (l' = l) as -> by congruence. intros e [i Hi]%elem_of_list_lookup.
      destruct (Hin _ _ Hi) as [H|[_ ->]]; [by destruct (offers_sorted _ _ _ Hw H)|constructor]. }
    apply max_key_ok in Em as [[k Hk] Hmax].
    assert (Hempty : forall d nn, cwf d -> length (num_nodes nn 0).2 = 0 -> find_clique_embedding d nn = Ok []).
    { intros d nn Hd H0. destruct (request d nn Hd) as [(e & _ & _ & ->)|[_ ->]]; [|done]. by destruct ((num_nodes nn 0).2). }
    exists l, c', m. split; [done|]. split; [done|]. split_and!.
    - intros nn Hn. destruct (decide (length (num_nodes nn 0).2 = 0)) as [H0|H0]; [by rewrite !Hempty|]. apply same_offers; [done|done|]. intros e. apply D1; lia.
    - intros nn Hn. split.
      + destruct (decide (length (num_nodes nn 0).2 = 0)) as [H0|H0]; [by apply Hempty|].
        destruct (request c' nn Hw') as [(e & Ho & _)|[_ ->]]; [|done]. apply D2 in Ho; [done|lia|lia].
      + destruct (request c nn Hw) as [(e & Ho & Hle & ->)|[Hno _]].
        * eexists. split; [done|]. intros H1. apply zip_nonempty; [|done]. intros H0. rewrite H0 in Hn. cbn in Hn. lia.
        * exfalso. destruct (wf_size _ Hw _ _ Hk) as (e & He & Hme). apply (Hno (take m e)). rewrite Hn. by exists k, e.
    - intros nn r' Hn Hf. destruct (request c nn Hw) as [(e & (k' & ? & Hk' & _) & _)|[_ Hf']]; [|congruence]. specialize (Hmax (length (num_nodes nn 0).2) (ex_intro _ k' Hk')). lia.
  Qed.

  (** C52 *)
  Lemma by_chainlength c n r : reached G c -> largest_clique_by_chainlength c n = Ok r ->
    clique_answer nodes edges (seq 0 (length r)) r /\ longest r <= n.
  Proof using.
    intros Hr. pose proof (reached_wf G Gsub c Hr) as [Hw HG]. unfold largest_clique_by_chainlength.
    assert (Hempty : clique_answer nodes edges (seq 0 (length ([] : list (nat * pchain)))) [] /\ longest [] <= n).
    { split; [|cbn; lia]. split; [done|]. split; [intros ch Hch; by apply elem_of_nil in Hch|done]. }
    destruct (match map_to_list (cc_length c) with [] => Ok 0 | _ => max_key (cc_length c) end) as [m|]; cbn [rbind]; [|done].
    destruct ((0 <? n) && (n <=? m)); [|by intros [= <-]].
    destruct (cc_length c !! n) as [k|] eqn:Ek; cbn [py_get rbind]; [|done]. destruct (wf_len _ Hw _ _ Ek) as (e & He & Hch). rewrite He. cbn [py_get rbind]. intros [= <-].
    assert (H1 : (enumerated e).*1 = seq 0 (length e)).
    { unfold enumerated. apply list_eq. intros i. rewrite list_lookup_fmap, list_lookup_imap. destruct (e !! i) as [x|] eqn:E; cbn.
      - symmetry. apply lookup_seq. split; [done|]. by eapply lookup_lt_Some.
      - symmetry. apply lookup_seq_ge. by apply lookup_ge_None. }
    assert (H2 : (enumerated e).*2 = e) by (unfold enumerated; apply list_eq; intros i; rewrite list_lookup_fmap, list_lookup_imap; by destruct (e !! i)).
    split; [split|].
    - unfold enumerated at 2. rewrite imap_length. done.
    - unfold chains_of. rewrite H2. eapply HG, elem_of_list_lookup_2, He.
    - unfold longest, chains_of. rewrite H2. by apply maxlen_le.
  Qed.
End graph.

Lemma by_chainlength_fresh embs n e : 0 < n -> embs !! n = Some e -> largest_clique_by_chainlength (make_clique_cache embs) n = Ok (enumerated e).
Proof.
  intros Hn He. pose proof (make_made embs) as HM. fold (make_clique_cache embs) in HM. unfold largest_clique_by_chainlength.
  assert (HL : cc_length (make_clique_cache embs) !! n = Some n) by (apply (md_len _ _ HM); split; [done|]; by eapply lookup_lt_Some).
  destruct (map_to_list (cc_length (make_clique_cache embs))) as [|x y] eqn:E.
  { apply map_to_list_empty_iff in E. rewrite E in HL. by rewrite lookup_empty in HL. }
  destruct (max_key_some _ _ (ex_intro _ _ HL)) as [m Hm]. rewrite Hm. cbn [rbind]. apply max_key_ok in Hm as [_ Hm]. specialize (Hm _ (ex_intro _ _ HL)).
  rewrite (proj2 (Nat.ltb_lt 0 n) Hn), (proj2 (Nat.leb_le n m) Hm). cbn [andb]. rewrite HL. cbn [py_get rbind].
  assert (Hr : cc_raw (make_clique_cache embs) = embs) by (apply (md_raw _ _ HM)). rewrite Hr, He. done.
Qed.

(** C45 for the embeddings that the Chimera search collects *)
Lemma chimera_requests t nodes edges bound shuf coin :
  shore t <= 8 -> good_graph (nqubits (dim_y t) (dim_x t) (shore t)) nodes edges -> (forall p q, (p, q) ∈ edges -> p <> q) ->
  (forall i l, shuf i l ≡ₚ l) -> (1 <= bound)%N -> 1 <= dim_y t -> 1 <= dim_x t ->
  exists c, topo_init t nodes edges = Ok c /\ forall bad, bad ≡ₚ tc_bad c -> exists n, forall fuel, n <= fuel ->
  exists masks embs, mask_run fuel c bound shuf coin 0 (mkTS 0 bad ([], [])) = Ok masks /\
    best_cliques t masks (short_clique 2 nodes edges []) = Ok embs /\
    reached (clique_embedding nodes edges) (make_clique_cache embs) /\
    forall nn, let l := (num_nodes nn 0).2 in exists r, find_clique_embedding (make_clique_cache embs) nn = Ok r /\
      ((exists len, clique_answer nodes edges l r /\ (forall ch, ch ∈ chains_of r -> length ch = len) /\
          forall i emb, i < len -> embs !! i = Some emb -> length emb < length l) \/
       (r = [] /\ forall emb, emb ∈ embs -> length emb < length l)).
Proof.
  intros H1 H2 H3 H4 H5 H6 H7. destruct (cliques_valid t nodes edges bound shuf coin H1 H2 H3 H4 H5 H6 H7) as (c & Hc & H). exists c. split; [done|].
  intros bad Hbad. destruct (H bad Hbad) as (n & Hn). exists n. intros fuel Hfuel. destruct (Hn fuel Hfuel) as (masks & embs & Hm & He & Hlen & Hv).
  exists masks, embs. split; [done|]. split; [done|].
  assert (Hr : reached (clique_embedding nodes edges) (make_clique_cache embs)) by (constructor; exact Hv).
  split; [done|]. intros nn l. pose proof (reached_wf _ (clique_submseteq nodes edges) _ Hr) as [Hw HG].
  destruct (request _ nn Hw) as [(e & Ho & Hl & Hf)|[Hno Hf]]; fold l in Hf; rewrite Hf; eexists; (split; [done|]).
  - left. destruct Ho as (k & e' & Hk & Hr' & Hle & ->). fold l in Hk, Hle, Hl |- *. pose proof (size_index embs (length l)) as HI. rewrite Hk in HI.
    destruct HI as (e'' & He'' & _ & Hmin). unfold make_clique_cache in Hr'. rewrite (md_raw _ _ (make_made embs)) in Hr'. assert (e'' = e') as -> by congruence.
    destruct (Hv _ _ He'') as [Hce Hch]. exists k. unfold clique_answer. rewrite labels_zip, chains_zip by done. split_and!; [done| | |].
    + eapply clique_submseteq; [exact Hce|apply take_sub].
    + intros ch Hch'. apply Hch. eapply elem_of_submseteq; [exact Hch'|apply take_sub].
    + exact Hmin.
  - right. split; [done|]. fold l in Hno. pose proof (size_index embs (length l)) as HI. destruct (cc_size _ !! length l) as [k|] eqn:Ek; [|done].
    destruct (proj1 (offers_has _ _ Hw) (ex_intro _ k Ek)) as [e Hoe]. by apply Hno in Hoe.
Qed.

(** C46, C54 *)
Lemma answers_iff nodes edges N M r : answers_biclique nodes edges N M r <-> biclique_answer nodes edges N M r.
Proof. done. Qed.

(** any table of bicliques, in any order *)
Lemma biclique_requests (nodes : list nat) (edges : list (nat * nat)) (embs : gmap (nat * nat) pemb) :
  (forall s0 s1 e, embs !! (s0, s1) = Some e -> 1 <= s0 /\ 1 <= s1 /\ biclique_embedding nodes edges s0 s1 e) ->
  forall lst, lst ≡ₚ map_to_list embs ->
    match make_biclique_cache lst with
    | Err e => e = BadInit /\ embs = ∅
    | Ok bc =>
      (forall nn mm, let N := (num_nodes nn 0).2 in let M := (num_nodes mm (length N)).2 in 1 <= length N `max` length M ->
         exists r, find_biclique_embedding bc nn mm = Ok r /\
           ((biclique_answer nodes edges N M r /\ exists s0 s1, is_Some (embs !! (s0, s1)) /\ length N `max` length M <= s0 `min` s1) \/
            (r = [] /\ forall s0 s1, is_Some (embs !! (s0, s1)) -> s0 `min` s1 < length N `max` length M))) /\
      (exists r k, largest_balanced_biclique bc = Ok r /\ biclique_answer nodes edges (seq 0 k) (seq k k) r /\
         forall s0 s1, is_Some (embs !! (s0, s1)) -> s0 `min` s1 <= k)
    end.
Proof.
  intros Hv lst Hlst.
  assert (Hin : forall s0 s1 e, (s0, s1, e) ∈ lst <-> embs !! (s0, s1) = Some e).
  { intros s0 s1 e. rewrite Hlst. apply elem_of_map_to_list. }
  assert (Hne : forall s0 s1 e, (s0, s1, e) ∈ lst -> e <> [] /\ biclique_embedding nodes edges s0 s1 e).
  { intros s0 s1 e He'. apply Hin, Hv in He' as (Hs0 & Hs1 & Hb). split; [|done]. destruct Hb as [Hl _]. intros ->. cbn in Hl. lia. }
  assert (Hb : forall s0 s1 e, (s0, s1, e) ∈ lst -> e <> [] -> biclique_embedding nodes edges s0 s1 e) by (intros s0 s1 e He' _; by apply Hne).
  pose proof (make_biclique_ok lst) as HM. destruct (make_biclique_cache lst) as [bc|er] eqn:Eb.
  - destruct HM as [Hw _]. split.
    + intros nn mm N M Hnm. destruct (find_biclique_ok nodes edges lst bc nn mm Hw Hb Hnm) as (r & Hr & HH). exists r. split; [done|]. fold N M in HH.
      destruct HH as [[Ha (s0 & s1 & e & Hi & _ & Hle)]|[-> Hno]].
      * left. split; [done|]. exists s0, s1. split; [|done]. exists e. by apply Hin.
      * right. split; [done|]. intros s0 s1 [e He']. apply Hin in He'. eapply Hno; [exact He'|]. by eapply Hne.
    + destruct (largest_balanced_ok nodes edges lst bc Hw) as (r & Hr & A & B & k & -> & HA & HB & Hbi & Hmax); [intros x; by rewrite (make_raw _ _ Eb)|done|].
      exists (enumerated (A ++ B)), k. split; [done|]. split.
      * exists A, B. rewrite !seq_length. split; [done|]. split; [done|]. split; [|done]. unfold enumerated. rewrite imap_app. apply Permutation_refl'. f_equal.
        -- apply list_eq. intros i. rewrite list_lookup_imap, lookup_zip_with. destruct (A !! i) as [x|] eqn:E; cbn.
           ++ rewrite (proj2 (lookup_seq 0 k i i)); [done|]. apply lookup_lt_Some in E. lia.
           ++ by destruct (seq 0 k !! i).
        -- apply list_eq. intros i. rewrite list_lookup_imap, lookup_zip_with. destruct (B !! i) as [x|] eqn:E; cbn.
           ++ rewrite (proj2 (lookup_seq k k i (length A + i))); [done|]. apply lookup_lt_Some in E. lia.
           ++ by destruct (seq k k !! i).
      * intros s0 s1 [e He']. apply Hin in He'. eapply Hmax; [exact He'|]. by eapply Hne.
  - destruct HM as [-> Hall]. split; [done|]. apply map_eq. intros [s0 s1]. rewrite lookup_empty. destruct (embs !! (s0, s1)) as [e|] eqn:E; [|done].
    apply Hin in E. destruct (Hne _ _ _ E) as [Hx _]. by apply Hall in E.
Qed.

Lemma chimera_bicliques t nodes edges bound shuf coin :
  shore t <= 8 -> good_graph (nqubits (dim_y t) (dim_x t) (shore t)) nodes edges ->
  (forall i l, shuf i l ≡ₚ l) -> (1 <= bound)%N -> 1 <= dim_y t -> 1 <= dim_x t ->
  exists c, topo_init t nodes edges = Ok c /\ forall bad, bad ≡ₚ tc_bad c -> exists n, forall fuel, n <= fuel ->
  exists masks embs, mask_run fuel c bound shuf coin 0 (mkTS 0 bad ([], [])) = Ok masks /\
    best_bicliques t (chimera_line t) chimera_biclique_length masks = Ok embs /\ forall lst, lst ≡ₚ map_to_list embs ->
    match make_biclique_cache lst with
    | Err e => e = BadInit /\ embs = ∅
    | Ok bc =>
      (forall nn mm, let N := (num_nodes nn 0).2 in let M := (num_nodes mm (length N)).2 in 1 <= length N `max` length M ->
         exists r, find_biclique_embedding bc nn mm = Ok r /\
           ((biclique_answer nodes edges N M r /\ exists s0 s1, is_Some (embs !! (s0, s1)) /\ length N `max` length M <= s0 `min` s1) \/
            (r = [] /\ forall s0 s1, is_Some (embs !! (s0, s1)) -> s0 `min` s1 < length N `max` length M))) /\
      (exists r k, largest_balanced_biclique bc = Ok r /\ biclique_answer nodes edges (seq 0 k) (seq k k) r /\
         forall s0 s1, is_Some (embs !! (s0, s1)) -> s0 `min` s1 <= k)
    end.
Proof.
  intros H1 H2 H4 H5 H6 H7. destruct (bicliques_valid t nodes edges bound shuf coin H1 H2 H4 H5 H6 H7) as (c & Hc & H). exists c. split; [done|].
  intros bad Hbad. destruct (H bad Hbad) as (n & Hn). exists n. intros fuel Hfuel. destruct (Hn fuel Hfuel) as (masks & embs & Hm & He & Hv & _).
  exists masks, embs. split; [done|]. split; [done|]. exact (biclique_requests nodes edges embs Hv).
Qed.
