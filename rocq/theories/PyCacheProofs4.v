(** Proofs about the biclique cache. *)
From stdpp Require Import base list list_numbers numbers gmap sorting.
From Verif Require Import Base Wp SpecBus PyCacheModel PyCacheProofs1 PyCacheProofs2 PyCacheProofs3.

Section dicts.
  Context {A : Type}.
  Implicit Types (l : list (nat * nat * A)) (k : nat * nat) (v : A).
  Lemma dget_in l k v : dget l k = Some v -> (k, v) ∈ l.
  Proof.
    unfold dget. destruct (list_find _ l) as [[i [k' v']]|] eqn:E; [|done]. cbn. intros [= ->].
    apply list_find_Some in E as (Hi & Hk & _). cbn in Hk. subst k'. by eapply elem_of_list_lookup_2.
  Qed.
  Lemma dget_has l k v : (k, v) ∈ l -> exists v', dget l k = Some v'.
  Proof.
    intros H. unfold dget. destruct (list_find _ l) as [[i [k' v']]|] eqn:E; [by eexists|].
    apply list_find_None in E. rewrite Forall_forall in E. by apply E in H.
  Qed.
  Lemma dset_in l k v x : x ∈ dset l k v -> x ∈ l \/ x = (k, v).
  Proof.
    unfold dset. destruct (list_find _ l) as [[i y]|] eqn:E.
    - intros [j Hj]%elem_of_list_lookup. destruct (decide (i = j)) as [->|Hne].
      + apply list_find_Some in E as (Hi & _). rewrite list_lookup_insert in Hj by (by eapply lookup_lt_Some). right. congruence.
      + rewrite list_lookup_insert_ne in Hj by done. left. by eapply elem_of_list_lookup_2.
    - intros [?|Hx]%elem_of_app; [by left|]. apply elem_of_list_singleton in Hx. by right.
  Qed.
  Lemma dset_keys l k v k' : k' ∈ (dset l k v).*1 <-> k' = k \/ k' ∈ l.*1.
  Proof.
    unfold dset. destruct (list_find _ l) as [[i y]|] eqn:E.
    - apply list_find_Some in E as (Hi & <- & _). rewrite list_fmap_insert. cbn. rewrite list_insert_id by (by rewrite list_lookup_fmap, Hi).
      split; [by right|]. intros [->|?]; [|done]. apply elem_of_list_fmap. exists y. split; [done|]. by eapply elem_of_list_lookup_2.
    - rewrite fmap_app, elem_of_app. cbn. rewrite elem_of_list_singleton. tauto.
  Qed.
End dicts.

Definition raw_of (embs : list (nat * nat * pemb)) : list (nat * nat * pemb) :=
  foldl (fun raw x => match x.2 with [] => raw | _ => dset raw x.1 x.2 end) [] embs.
Lemma raw_of_spec embs : (forall x, x ∈ raw_of embs -> x ∈ embs /\ x.2 <> []) /\ (forall x, x ∈ embs -> x.2 <> [] -> x.1 ∈ (raw_of embs).*1).
Proof.
  induction embs as [|y embs [IH1 IH2]] using rev_ind.
  - split; intros x Hx; by apply elem_of_nil in Hx.
  - unfold raw_of in *. rewrite foldl_app. cbn. destruct (y.2) as [|a b] eqn:E.
    + split.
      * intros x Hx. destruct (IH1 _ Hx). split; [set_solver|done].
      * intros x [Hx|Hx]%elem_of_app Hne; [by apply IH2|]. apply elem_of_list_singleton in Hx as ->. done.
    + split.
      * intros x [Hx|Hx]%dset_in; [destruct (IH1 _ Hx); split; [set_solver|done]|]. rewrite <-E, <-surjective_pairing in Hx. subst x. rewrite E. split; [set_solver|done].
      * intros x [Hx|Hx]%elem_of_app Hne; apply dset_keys; [right; by apply IH2|]. apply elem_of_list_singleton in Hx as ->. by left.
Qed.

Record bcwf (embs : list (nat * nat * pemb)) (c : bicache) : Prop := {
  bw_raw : forall k e, dget (bc_raw c) k = Some e -> (k, e) ∈ embs /\ e <> [];
  bw_key : forall i row j key, bc_size c !! i = Some row -> row !! j = Some key ->
    i = key.1 `max` key.2 /\ j = key.1 `min` key.2 /\ exists e, dget (bc_raw c) key = Some e;
  bw_has : forall x, x ∈ embs -> x.2 <> [] -> exists row key, bc_size c !! (x.1.1 `max` x.1.2) = Some row /\ row !! (x.1.1 `min` x.1.2) = Some key;
  bw_max : (exists row, bc_size c !! bc_max c = Some row) /\ forall i row, bc_size c !! i = Some row -> i <= bc_max c;
  bw_side : forall i, match bc_size c !! i with
    | None => bc_side c !! i = None
    | Some row => exists m, bc_side c !! i = Some m /\ is_Some (row !! m) /\ forall j, is_Some (row !! j) -> j <= m end }.

Lemma make_biclique_ok embs : match make_biclique_cache embs with
  | Ok c => bcwf embs c /\ exists x, x ∈ embs /\ x.2 <> []
  | Err e => e = BadInit /\ forall x, x ∈ embs -> x.2 = []
  end.
Proof.
  unfold make_biclique_cache. fold (raw_of embs). destruct (raw_of_spec embs) as [HR1 HR2]. set (raw := raw_of embs) in *.
  destruct (foldM_inv (add_key raw) (fun dn bs =>
    (forall i row, bs !! i = Some row -> exists j, is_Some (row !! j)) /\
    (forall i row j key, bs !! i = Some row -> row !! j = Some key -> i = key.1 `max` key.2 /\ j = key.1 `min` key.2 /\ key ∈ raw.*1) /\
    (forall x, x ∈ dn -> exists row key, bs !! (x.1.1 `max` x.1.2) = Some row /\ row !! (x.1.1 `min` x.1.2) = Some key)) raw ∅) as (bs & Ebs & B0 & B1 & B2).
  - split; [intros i row; by rewrite lookup_empty|]. split; [intros i row j key; by rewrite lookup_empty|]. intros x Hx. by apply elem_of_nil in Hx.
  - intros dn [key e] rest bs Hl (B0 & B1 & B2). unfold add_key. cbn [fst snd].
    set (s0 := key.1 `max` key.2). set (s1 := key.1 `min` key.2). set (row := default ∅ (bs !! s0)). set (rk := default key (row !! s1)).
    assert (Hkey : key ∈ raw.*1) by (apply elem_of_list_fmap; exists (key, e); split; [done|]; rewrite Hl; set_solver).
    assert (Hrk : key.1 `max` key.2 = rk.1 `max` rk.2 /\ key.1 `min` key.2 = rk.1 `min` rk.2 /\ rk ∈ raw.*1).
    { unfold rk. destruct (row !! s1) as [k|] eqn:E; cbn; [|done]. unfold row in E. destruct (bs !! s0) as [r|] eqn:E0; cbn in E; [|by rewrite lookup_empty in E].
      by destruct (B1 _ _ _ _ E0 E) as (? & ? & ?). }
    assert (Hg : forall k, k ∈ raw.*1 -> exists e, dget raw k = Some e).
    { intros k ([k' x] & -> & Hx)%elem_of_list_fmap. by apply dget_has in Hx. }
    assert (Hkeep : exists b, keep_biclique_key raw rk key = Ok b).
    { unfold keep_biclique_key. case_bool_decide; [by eexists|]. destruct (Hg rk) as [e0 ->]; [tauto|]. destruct (Hg key) as [e1 ->]; [done|]. by eexists. }
    destruct Hkeep as [b ->]. cbn [rbind]. eexists. split; [done|].
    set (k' := if b then rk else key). assert (Hk' : key.1 `max` key.2 = k'.1 `max` k'.2 /\ key.1 `min` key.2 = k'.1 `min` k'.2 /\ k' ∈ raw.*1) by (by destruct b).
    split; [|split].
    + intros i r. destruct (decide (i = s0)) as [->|Hne]; [rewrite lookup_insert; intros [= <-]; exists s1; rewrite lookup_insert; by eexists|].
      rewrite lookup_insert_ne by done. apply B0.
    + intros i r j k. destruct (decide (i = s0)) as [->|Hne].
      * rewrite lookup_insert. intros [= <-]. destruct (decide (j = s1)) as [->|Hnj].
        -- rewrite lookup_insert. intros [= <-]. unfold s0, s1. tauto.
        -- rewrite lookup_insert_ne by done. unfold row. destruct (bs !! s0) as [r|] eqn:E0; cbn; [|by rewrite lookup_empty]. by apply B1.
      * rewrite lookup_insert_ne by done. apply B1.
    + intros x [Hx|Hx]%elem_of_app.
      * destruct (B2 _ Hx) as (r & k & Hr & Hk). destruct (decide (x.1.1 `max` x.1.2 = s0)) as [E|Hne].
        -- rewrite E. rewrite lookup_insert. eexists. destruct (decide (x.1.1 `min` x.1.2 = s1)) as [E'|Hnj].
           ++ exists k'. split; [done|]. by rewrite E', lookup_insert.
           ++ exists k. split; [done|]. rewrite lookup_insert_ne by done. unfold row. rewrite <-E, Hr. done.
        -- rewrite lookup_insert_ne by done. by exists r, k.
      * apply elem_of_list_singleton in Hx as ->. cbn. fold s0 s1. rewrite lookup_insert. eexists _, k'. split; [done|]. by rewrite lookup_insert.
  - rewrite Ebs. cbn [rbind]. destruct (max_key bs) as [mx|er] eqn:Em; cbn [rbind].
    2:{ split; [unfold max_key in Em; by destruct (map_to_list bs); [injection Em as <-|]|]. apply max_key_err in Em. intros x Hx. destruct (x.2) as [|a b] eqn:E; [done|]. exfalso.
        pose proof (HR2 x Hx ltac:(rewrite E; done)) as Hk. apply elem_of_list_fmap in Hk as (y & Hxy & Hy). destruct (B2 _ Hy) as (row & key & Hr & _). rewrite Em, lookup_empty in Hr. done. }
    apply max_key_ok in Em as [[mrow Hm] Hmax].
    destruct (foldM_inv (fun (m : gmap nat nat) (p : nat * gmap nat (nat * nat)) => let! k := max_key p.2 in Ok (<[p.1 := k]> m))
      (fun dn m => (forall i, i ∉ dn.*1 -> m !! i = None) /\ forall i row, (i, row) ∈ dn -> exists k, m !! i = Some k /\ is_Some (row !! k) /\ forall j, is_Some (row !! j) -> j <= k)
      (map_to_list bs) (∅ : gmap nat nat)) as (side & Eside & HS1 & HS2).
    + split; [intros; apply lookup_empty|]. intros i row H. by apply elem_of_nil in H.
    + intros dn [i row] rest m Hl [HS1 HS2]. assert (Hi : bs !! i = Some row) by (apply elem_of_map_to_list; rewrite Hl; set_solver).
      destruct (B0 _ _ Hi) as [j Hj]. destruct (max_key_some row j Hj) as [k Hk]. cbn [fst snd]. rewrite Hk. cbn [rbind]. apply max_key_ok in Hk.
      eexists. split; [done|]. split.
      * intros i'. rewrite fmap_app, elem_of_app. cbn. intros Hni. rewrite lookup_insert_ne by set_solver. apply HS1. tauto.
      * intros i' row' Hin. pose proof (NoDup_fst_map_to_list bs) as Hnd. rewrite Hl, fmap_app in Hnd. cbn in Hnd. apply NoDup_app in Hnd as (_ & Hnd & _).
        apply elem_of_app in Hin as [Hin|Hin].
        -- assert (i' <> i) as Hne. { intros ->. apply (Hnd i); [|by left]. apply elem_of_list_fmap. by exists (i, row'). }
           rewrite lookup_insert_ne by done. by apply HS2.
        -- apply elem_of_list_singleton in Hin. injection Hin as -> ->. exists k. by rewrite lookup_insert.
    + rewrite Eside. cbn [rbind]. split; [split; cbn|].
      * intros k e Hk. apply dget_in in Hk. apply HR1 in Hk. tauto.
      * intros i row j key Hi Hj. destruct (B1 _ _ _ _ Hi Hj) as (? & ? & ([k x] & Hkx & Hx)%elem_of_list_fmap). split; [done|]. split; [done|].
        cbn in Hkx. subst k. by eapply dget_has.
      * intros x Hx Hne. pose proof (HR2 x Hx Hne) as Hk. apply elem_of_list_fmap in Hk as (y & Hxy & Hy). rewrite Hxy. by apply B2.
      * split; [by exists mrow|]. intros i row Hi. apply Hmax. by exists row.
      * intros i. destruct (bs !! i) as [row|] eqn:E.
        -- apply HS2. by apply elem_of_map_to_list.
        -- apply HS1. rewrite elem_of_keys, E. by intros [? ?].
      * destruct (B0 _ _ Hm) as [j [k Hj]]. destruct (B1 _ _ _ _ Hm Hj) as (_ & _ & ([k' x] & Hkx & Hx)%elem_of_list_fmap). apply HR1 in Hx. by eexists.
Qed.

Lemma scan_row_ok embs c n m NM i row js : bcwf embs c -> bc_size c !! i = Some row ->
  exists o, scan_row c n m NM row js = Ok o /\
  match o with
  | None => forall j, j ∈ js -> row !! j = None
  | Some r => exists j key e, j ∈ js /\ row !! j = Some key /\ dget (bc_raw c) key = Some e /\ r = hand_out n m NM key e
  end.
Proof.
  intros Hw Hi. induction js as [|j js IH]; cbn [scan_row].
  - eexists. split; [done|]. intros j Hj. by apply elem_of_nil in Hj.
  - destruct (row !! j) as [key|] eqn:E.
    + destruct (bw_key _ _ Hw _ _ _ _ Hi E) as (_ & _ & e & He). rewrite He. cbn [py_get rbind]. eexists. split; [done|]. exists j, key, e. split; [by left|done].
    + destruct IH as ([r|] & -> & H); eexists; (split; [done|]).
      * destruct H as (j' & key & e & Hj & H). exists j', key, e. split; [by right|done].
      * intros j' [->|Hj]%elem_of_cons; [done|by apply H].
Qed.

Lemma scan_rows_ok embs c n m NM is : bcwf embs c -> 1 <= m ->
  exists r, scan_rows c n m NM is = Ok r /\
  ((exists i row j key e, i ∈ is /\ m <= j /\ bc_size c !! i = Some row /\ row !! j = Some key /\ dget (bc_raw c) key = Some e /\ r = hand_out n m NM key e) \/
   (r = [] /\ forall i row j, i ∈ is -> bc_size c !! i = Some row -> is_Some (row !! j) -> j < m)).
Proof.
  intros Hw Hm1. induction is as [|i is IH]; cbn [scan_rows].
  - eexists. split; [done|]. right. split; [done|]. intros i row j Hi. by apply elem_of_nil in Hi.
  - pose proof (bw_side _ _ Hw i) as Hs. destruct (bc_size c !! i) as [row|] eqn:E.
    + destruct Hs as (mx & -> & Hmx & Hmax). cbn [default from_option]. unfold id. destruct (Nat.ltb_spec mx m) as [Hlt|Hge].
      * destruct IH as (r & -> & H). eexists. split; [done|]. destruct H as [(i' & row' & j & key & e & Hi' & H)|[-> H]].
        -- left. exists i', row', j, key, e. split; [by right|done].
        -- right. split; [done|]. intros i' row' j [->|Hi']%elem_of_cons Hr Hj; [|by eapply H].
           assert (row' = row) as -> by congruence. specialize (Hmax _ Hj). lia.
      * destruct (scan_row_ok embs c n m NM i row (seq m (S mx - m)) Hw E) as (o & -> & Ho). cbn [rbind]. destruct o as [r|].
        -- eexists. split; [done|]. left. destruct Ho as (j & key & e & Hj & Hk & He & ->). apply elem_of_seq in Hj. exists i, row, j, key, e. split_and!; try done; [by left|lia].
        -- exfalso. assert (Hin : mx ∈ seq m (S mx - m)) by (apply elem_of_seq; lia). rewrite (Ho _ Hin) in Hmx. by destruct Hmx.
    + rewrite Hs. cbn [default from_option]. rewrite (proj2 (Nat.ltb_lt 0 m)) by lia. destruct IH as (r & -> & H). eexists. split; [done|].
      destruct H as [(i' & row' & j & key & e & Hi' & H)|[-> H]].
      * left. exists i', row', j, key, e. split; [by right|done].
      * right. split; [done|]. intros i' row' j [->|Hi']%elem_of_cons Hr Hj; [congruence|by eapply H].
Qed.

(** bicliques *)
Definition pdisj (l : pemb) : Prop := forall i j c d, i <> j -> l !! i = Some c -> l !! j = Some d -> c ## d.
Lemma pdisj_sub l l' : pdisj l -> l' ⊆+ l -> pdisj l'.
Proof.
  intros Hp Hs. apply submseteq_sublist_l in Hs as (w & Hw & HP).
  assert (Hpw : pdisj w).
  { apply Permutation_inj in HP as (_ & f & Hf & HH). intros i j c d Hij Hi Hj. eapply (Hp (f i) (f j)); [by intros ?%Hf|by rewrite <-HH|by rewrite <-HH]. }
  clear Hp HP. induction Hw as [|x l1 l2 Hs IH|x l1 l2 Hs IH]; intros i j c d Hij Hi Hj; [done| |].
  - assert (Hin : forall d, d ∈ l1 -> exists k, l2 !! k = Some d).
    { intros y Hy. apply elem_of_list_lookup. eapply elem_of_submseteq; [exact Hy|by apply sublist_submseteq]. }
    destruct i as [|i], j as [|j]; cbn in Hi, Hj; [done| | |].
    + destruct (Hin d) as [k Hk]; [by eapply elem_of_list_lookup_2|]. by eapply (Hpw 0 (S k)).
    + destruct (Hin c) as [k Hk]; [by eapply elem_of_list_lookup_2|]. by eapply (Hpw (S k) 0).
    + eapply (IH (fun i j c d Hij Hi Hj => Hpw (S i) (S j) c d ltac:(lia) Hi Hj) i j); [lia|done|done].
  - eapply (IH (fun i j c d Hij Hi Hj => Hpw (S i) (S j) c d ltac:(lia) Hi Hj) i j); [done|done|done].
Qed.
Lemma has_edge_comm edges p q : has_edge edges p q -> has_edge edges q p.
Proof. unfold has_edge. tauto. Qed.
Lemma coupled_comm edges c d : coupled edges c d -> coupled edges d c.
Proof. intros (p & q & Hp & Hq & He). exists q, p. split_and!; [done|done|by apply has_edge_comm]. Qed.

Definition bic (nodes : list nat) (edges : list (nat * nat)) (A B : pemb) : Prop :=
  (forall c, c ∈ A ++ B -> good_chain nodes edges c) /\ pdisj (A ++ B) /\ (forall c d, c ∈ A -> d ∈ B -> coupled edges c d).
Lemma bic_iff nodes edges A B : bic nodes edges A B <-> biclique_embedding nodes edges (length A) (length B) (A ++ B).
Proof.
  split.
  - intros (H1 & H2 & H3). split; [by rewrite app_length|]. split; [done|]. split; [done|]. intros i j c d Hi Hj Hc Hd.
    rewrite lookup_app_l in Hc by done. rewrite lookup_app_r in Hd by done. apply H3; by eapply elem_of_list_lookup_2.
  - intros (_ & H1 & H2 & H3). split; [done|]. split; [done|]. intros c d [i Hi]%elem_of_list_lookup [j Hj]%elem_of_list_lookup.
    pose proof (lookup_lt_Some _ _ _ Hi). eapply (H3 i (length A + j)); [done|lia|by rewrite lookup_app_l|].
    rewrite lookup_app_r by lia. by replace (length A + j - length A) with j by lia.
Qed.
Lemma bic_of nodes edges s0 s1 e : biclique_embedding nodes edges s0 s1 e -> bic nodes edges (take s0 e) (drop s0 e) /\ length (take s0 e) = s0 /\ length (drop s0 e) = s1.
Proof.
  intros H. pose proof H as (Hl & _). assert (H0 : length (take s0 e) = s0) by (rewrite take_length; lia). assert (H1 : length (drop s0 e) = s1) by (rewrite drop_length; lia).
  split; [|done]. apply bic_iff. rewrite H0, H1, take_drop. done.
Qed.
Lemma bic_sub nodes edges A B A' B' : bic nodes edges A B -> A' ⊆+ A -> B' ⊆+ B -> bic nodes edges A' B'.
Proof.
  intros (H1 & H2 & H3) HA HB. assert (HAB : A' ++ B' ⊆+ A ++ B) by (by apply submseteq_app). split; [|split].
  - intros c Hc. apply H1. by eapply elem_of_submseteq.
  - by eapply pdisj_sub.
  - intros c d Hc Hd. apply H3; by eapply elem_of_submseteq.
Qed.
Lemma bic_comm nodes edges A B : bic nodes edges A B -> bic nodes edges B A.
Proof.
  intros (H1 & H2 & H3). split; [|split].
  - intros c Hc. apply H1. set_solver.
  - eapply pdisj_sub; [exact H2|]. by rewrite (comm (++)).
  - intros c d Hc Hd. by apply coupled_comm, H3.
Qed.
Lemma zip_app_take {X Y} (N M : list X) (A B : list Y) : length A = length N -> zip (N ++ M) (A ++ B) = zip N A ++ zip M (take (length M) B).
Proof. intros H. rewrite zip_with_app by done. by rewrite (zip_take M B). Qed.
Lemma take_sub {X} n (l : list X) : take n l ⊆+ l.
Proof. apply sublist_submseteq, sublist_take. Qed.

(** what is handed out *)
Lemma hand_out_ok nodes edges N M key e : biclique_embedding nodes edges key.1 key.2 e ->
  length N <= length M -> length M <= key.1 -> length M <= key.2 ->
  exists A B, hand_out (length N) (length M) (N ++ M) key e = zip N A ++ zip M B /\ length A = length N /\ length B = length M /\ bic nodes edges A B.
Proof.
  intros H Hnm H0 H1. apply bic_of in H as (Hb & Hl0 & Hl1). unfold hand_out.
  destruct ((key.1 <=? length N) && (key.2 <=? length M)) eqn:E.
  - eexists _, _. rewrite zip_app_take by (rewrite take_length; lia). split; [done|]. split; [rewrite take_length; lia|]. split; [rewrite take_length; lia|].
    eapply bic_sub; [exact Hb|apply take_sub|apply take_sub].
  - eexists _, _. rewrite zip_app_take by (rewrite take_length; lia). split; [done|]. split; [rewrite take_length; lia|]. split; [rewrite take_length; lia|].
    eapply bic_sub; [apply bic_comm; exact Hb|apply take_sub|apply take_sub].
Qed.

Definition answers_biclique (nodes : list nat) (edges : list (nat * nat)) (N M : list nat) (r : list (nat * pchain)) : Prop :=
  exists A B, length A = length N /\ length B = length M /\ r ≡ₚ zip N A ++ zip M B /\ biclique_embedding nodes edges (length N) (length M) (A ++ B).

Lemma find_biclique_ok nodes edges embs c nn mm : bcwf embs c ->
  (forall s0 s1 e, (s0, s1, e) ∈ embs -> e <> [] -> biclique_embedding nodes edges s0 s1 e) ->
  let N := (num_nodes nn 0).2 in let M := (num_nodes mm (length N)).2 in
  1 <= length N `max` length M ->
  exists r, find_biclique_embedding c nn mm = Ok r /\
    ((answers_biclique nodes edges N M r /\ exists s0 s1 e, (s0, s1, e) ∈ embs /\ e <> [] /\ length N `max` length M <= s0 `min` s1) \/
     (r = [] /\ forall s0 s1 e, (s0, s1, e) ∈ embs -> e <> [] -> s0 `min` s1 < length N `max` length M)).
Proof.
  intros Hw Hb N M Hnm. unfold find_biclique_embedding.
  assert (HN : num_nodes nn 0 = (length N, N)) by (unfold N; destruct nn; cbn; [by rewrite seq_length|done]).
  assert (HM : num_nodes mm (length N) = (length M, M)) by (unfold M; destruct mm; cbn; [by rewrite seq_length|done]).
  rewrite HN, HM. clearbody N M. clear HN HM nn mm.
  assert (Hgen : forall N M, length N <= length M -> 1 <= length M -> exists r, scan_rows c (length N) (length M) (N ++ M) (seq (length N) (S (bc_max c) - length N)) = Ok r /\
     (((exists A B, r = zip N A ++ zip M B /\ length A = length N /\ length B = length M /\ bic nodes edges A B) /\ exists s0 s1 e, (s0, s1, e) ∈ embs /\ e <> [] /\ length M <= s0 `min` s1) \/
      (r = [] /\ forall s0 s1 e, (s0, s1, e) ∈ embs -> e <> [] -> s0 `min` s1 < length M))).
  { clear N M Hnm. intros N M Hle H1. destruct (scan_rows_ok embs c (length N) (length M) (N ++ M) (seq (length N) (S (bc_max c) - length N)) Hw H1) as (r & -> & Hr).
    exists r. split; [done|]. destruct Hr as [(i & row & j & key & e & Hi & Hj & Hrow & Hkey & He & ->)|[-> Hr]].
    - left. destruct (bw_key _ _ Hw _ _ _ _ Hrow Hkey) as (-> & -> & _). destruct (bw_raw _ _ Hw _ _ He) as [Hin Hne]. destruct key as [s0 s1]. cbn in *. split.
      + apply (hand_out_ok nodes edges N M (s0, s1) e); cbn; [by apply Hb|done|lia|lia].
      + by exists s0, s1, e.
    - right. split; [done|]. intros s0 s1 e Hin Hne. destruct (bw_has _ _ Hw _ Hin Hne) as (row & key & Hrow & Hkey). cbn in Hrow, Hkey.
      destruct (decide (s0 `max` s1 < length N)) as [?|Hge]; [lia|]. pose proof (proj2 (bw_max _ _ Hw) _ _ Hrow).
      eapply Hr; [|exact Hrow|by eexists]. apply elem_of_seq. lia. }
  destruct (Nat.ltb_spec (length M) (length N)) as [Hlt|Hge].
  - destruct (Nat.eqb_spec (length N) 0) as [E|_]; [lia|]. destruct (Hgen M N ltac:(lia) ltac:(lia)) as (r & -> & Hr). exists r. split; [done|].
    replace (length N `max` length M) with (length N) by lia. destruct Hr as [[(A & B & -> & HA & HB & Hbic) Hex]|Hr]; [left|by right].
    split; [|done]. exists B, A. split; [done|]. split; [done|]. split; [by rewrite (comm (++))|]. rewrite <-HA, <-HB. apply bic_iff. by apply bic_comm.
  - destruct (Nat.eqb_spec (length M) 0) as [E|_]; [lia|]. destruct (Hgen N M ltac:(lia) ltac:(lia)) as (r & -> & Hr). exists r. split; [done|].
    replace (length N `max` length M) with (length M) by lia. destruct Hr as [[(A & B & -> & HA & HB & Hbic) Hex]|Hr]; [left|by right].
    split; [|done]. exists A, B. split; [done|]. split; [done|]. split; [done|]. rewrite <-HA, <-HB. by apply bic_iff.
Qed.

(** the largest balanced one *)
Lemma largest_balanced_ok nodes edges embs c : bcwf embs c -> (forall x, x ∈ bc_raw c <-> x ∈ raw_of embs) ->
  (forall s0 s1 e, (s0, s1, e) ∈ embs -> e <> [] -> biclique_embedding nodes edges s0 s1 e) ->
  exists r, largest_balanced_biclique c = Ok r /\ exists A B k, r = enumerated (A ++ B) /\ length A = k /\ length B = k /\
    biclique_embedding nodes edges k k (A ++ B) /\ forall s0 s1 e, (s0, s1, e) ∈ embs -> e <> [] -> s0 `min` s1 <= k.
Proof.
  intros Hw Hraw Hb. unfold largest_balanced_biclique. destruct (raw_of_spec embs) as [HR1 HR2].
  destruct (bc_raw c) as [|x l] eqn:E.
  { exfalso. destruct (bw_max _ _ Hw) as [[row Hrow] _]. pose proof (bw_side _ _ Hw (bc_max c)) as Hs. rewrite Hrow in Hs. destruct Hs as (m & _ & [key Hk] & _).
    destruct (bw_key _ _ Hw _ _ _ _ Hrow Hk) as (_ & _ & e & He). rewrite E in He. done. }
  set (f := fun b y : nat * nat * pemb => if b.1.1 `min` b.1.2 <? y.1.1 `min` y.1.2 then y else b).
  assert (Hbest : forall l x, foldl f x l ∈ x :: l /\ forall y, y ∈ x :: l -> y.1.1 `min` y.1.2 <= (foldl f x l).1.1 `min` (foldl f x l).1.2).
  { clear. induction l as [|z l IH]; intros x; cbn [foldl].
    - split; [by left|]. intros y ->%elem_of_list_singleton. done.
    - destruct (IH (f x z)) as [H1 H2]. assert (Hf : (f x z = x \/ f x z = z) /\ x.1.1 `min` x.1.2 <= (f x z).1.1 `min` (f x z).1.2 /\ z.1.1 `min` z.1.2 <= (f x z).1.1 `min` (f x z).1.2).
      { unfold f. destruct (Nat.ltb_spec (x.1.1 `min` x.1.2) (z.1.1 `min` z.1.2)); split; auto with lia. }
      destruct Hf as (Hf & Hx & Hz). split.
      + apply elem_of_cons in H1 as [->|H1]; [destruct Hf as [-> | ->]; [by left|right; by left]|]. right. by right.
      + pose proof (H2 (f x z) ltac:(by left)) as H0. intros y [->|[->|Hy]%elem_of_cons]%elem_of_cons; [lia|lia|]. apply H2. by right. }
  destruct (Hbest l x) as [Hin Hmax]. fold f. destruct (foldl f x l) as [[s0 s1] e] eqn:Ef. cbn [fst snd] in Hmax. eexists. split; [done|].
  apply Hraw in Hin. destruct (HR1 _ Hin) as [Hin' Hne]. cbn in Hne. destruct (bic_of _ _ _ _ _ (Hb _ _ _ Hin' Hne)) as (Hbic & H0 & H1).
  exists (take (s0 `min` s1) (sort_len (take s0 e))), (take (s0 `min` s1) (sort_len (take s1 (drop s0 e)))), (s0 `min` s1). split; [done|].
  assert (HA : length (take (s0 `min` s1) (sort_len (take s0 e))) = s0 `min` s1) by (rewrite take_length, sort_len_perm; lia).
  assert (HB : length (take (s0 `min` s1) (sort_len (take s1 (drop s0 e)))) = s0 `min` s1) by (rewrite take_length, sort_len_perm, take_length; lia).
  split; [done|]. split; [done|]. split.
  - rewrite <-HA at 1. rewrite <-HB at 2. apply bic_iff. eapply bic_sub; [exact Hbic| |].
    + etrans; [apply take_sub|]. by rewrite sort_len_perm.
    + etrans; [apply take_sub|]. rewrite sort_len_perm. apply take_sub.
  - intros t0 t1 e' Hin2 Hne2. pose proof (HR2 _ Hin2 Hne2) as Hk. apply elem_of_list_fmap in Hk as (y & Hy & Hyin). cbn in Hy. apply Hraw in Hyin.
    specialize (Hmax _ Hyin). rewrite <-Hy in Hmax. done.
Qed.
Lemma make_raw embs c : make_biclique_cache embs = Ok c -> bc_raw c = raw_of embs.
Proof.
  unfold make_biclique_cache. fold (raw_of embs). destruct (foldM (add_key _) _ _); cbn [rbind]; [|done]. destruct (max_key _); cbn [rbind]; [|done].
  destruct (foldM _ _ _); cbn [rbind]; [|done]. by intros [= <-].
Qed.
