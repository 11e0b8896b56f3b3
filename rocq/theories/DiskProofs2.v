(** The file cache when calls do not overlap (DiskModel.v). *)
Require Import Lia.
From stdpp Require Import base list list_numbers numbers gmap option.
From Verif Require Import DiskModel SpecDisk DiskProofs.
From stdpp Require Import list.

Section seq.
Context (cap : nat) (Hcap : 1 <= cap).

Definition lruis (s : dstate) (L : list nat) : Prop :=
  match ds_dir s !! (0, false) with None => L = [] | Some i => ds_data s !! i = Some (pickle L) end.
Definition file (s : dstate) (x : nat) : Prop := is_Some (ds_dir s !! (S x, false)).
Definition temps (s : dstate) (T : list nat) : Prop := forall n, is_Some (ds_dir s !! (n, true)) <-> n ∈ T.
Definition good (L : list nat) : Prop := NoDup L /\ length L <= cap.

Definition Rest (s : dstate) (L T : list nat) : Prop :=
  good L /\ lruis s L /\ (forall x, file s x <-> x ∈ L) /\ temps s T.
Definition fok (c : nat) (L f : list nat) : Prop := f = [S c] \/ f = [] /\ c ∈ L.
Definition Last (s : dstate) (c : nat) (keep f T : list nat) (b : list nat) : Prop :=
  good keep /\ c ∈ keep /\ (forall x, x <> c -> file s x <-> x ∈ keep) /\ (f = [] -> file s c)
  /\ (f = [] \/ f = [S c]) /\ temps s T /\ exists i, ds_dir s !! (0, true) = Some i /\ ds_data s !! i = Some b.

Definition PInv (s : dstate) (q : pstate) : Prop :=
  match q with
  | Start c | Look (ForCache c) => exists L, Rest s L []
  | Read (ForCache c) i acc => exists L, Rest s L [] /\ c ∈ L
  | Decide c found => exists L, Rest s L [] /\ (found = true -> c ∈ L)
  | Write c f (S n) i rest => n = c /\ f = [] /\ exists L, Rest s L [S c]
  | Look (ForLru c f) => exists L, Rest s L f /\ fok c L f
  | Read (ForLru c f) i acc => exists L, Rest s L f /\ fok c L f /\ ds_dir s !! (0, false) = Some i
  | Evict c f keep ev =>
      good keep /\ c ∈ keep /\ NoDup ev /\ (forall x, x ∈ ev -> x ∉ keep)
      /\ (forall x, x <> c -> file s x <-> x ∈ keep \/ x ∈ ev)
      /\ (f = [] -> file s c) /\ (f = [] \/ f = [S c]) /\ temps s f
  | Write c f 0 i rest =>
      exists keep b, Last s c keep f (f ++ [0]) b /\ ds_dir s !! (0, true) = Some i /\ b ++ rest = pickle keep
  | Unlock f => exists c keep f', f = f' ++ [0] /\ Last s c keep f' f (pickle keep)
  | Rename [] => exists L, Rest s L []
  | Rename [0] => exists L, good L /\ (forall x, file s x <-> x ∈ L) /\ temps s [0]
      /\ exists i, ds_dir s !! (0, true) = Some i /\ ds_data s !! i = Some (pickle L)
  | Rename f => exists c keep f', f = f' ++ [0] /\ Last s c keep f' f (pickle keep) /\ f' = [S c]
  | Done => exists L, Rest s L []
  | Raised | Crashed => False
  end.

(** [PInv] looks only at the files *)
Lemma PInv_ext s (s' : dstate) q :
  ds_dir s' = ds_dir s -> ds_data s' = ds_data s -> PInv s q -> PInv s' q.
Proof.
  intros Ed Ea. destruct s as [d a n l p u r], s' as [d' a' n' l' p' u' r']. cbn in Ed, Ea. subst d' a'.
  exact (fun H => H).
Qed.

Lemma new_lru_spec c L : NoDup L -> NoDup (new_lru c L) /\ (forall x, x ∈ new_lru c L <-> x = c \/ x ∈ L)
  /\ length (new_lru c L) <= S (length L).
Proof.
  intros HL. unfold new_lru. split; [|split].
  - apply list.NoDup_cons. split; [|by apply NoDup_filter]. rewrite elem_of_list_filter. tauto.
  - intros x. rewrite elem_of_cons, elem_of_list_filter. destruct (decide (x = c)); tauto.
  - cbn. pose proof (filter_length (fun x => x <> c) L). lia.
Qed.

Lemma loaded_evict s c f L :
  Rest s L f -> fok c L f -> PInv s (loaded cap (ForLru c f) (Some L)).
Proof.
  intros ((Hnd & Hlen) & Hl & Hf & Ht) Hok. destruct (new_lru_spec c L Hnd) as (H1 & H2 & _).
  set (l := new_lru c L) in *. cbn.
  assert (Happ : l = take cap l ++ drop cap l) by (symmetry; apply take_drop).
  pose proof H1 as H1'. rewrite Happ in H1'. apply list.NoDup_app in H1' as (Ha & Hb & Hc).
  assert (Hin : forall x, x ∈ l <-> x ∈ take cap l \/ x ∈ drop cap l).
  { intros x. rewrite <- elem_of_app. by rewrite <- Happ. }
  assert (Hrev : forall x, x ∈ rev (drop cap l) <-> x ∈ drop cap l).
  { intros x. rewrite !elem_of_list_In. symmetry. apply in_rev. }
  change (PInv s (Evict c f (take cap l) (rev (drop cap l)))). unfold PInv. split_and!.
  - split; [done|]. rewrite take_length. lia.
  - unfold l, new_lru. destruct cap; [lia|]. left.
  - rewrite rev_alt. change (NoDup (reverse (drop cap l))). by rewrite reverse_Permutation.
  - intros x Hx%Hrev Hx'. by apply (Hb x).
  - intros x Hx. rewrite Hrev, <- Hin, H2, Hf. tauto.
  - intros ->. apply Hf. destruct Hok as [?|[_ ?]]; done.
  - destruct Hok as [?|[? _]]; auto.
  - done.
Qed.

Lemma begin_file s p c f n d x : file (begin_dump s p c f n d) x <-> file s x.
Proof. unfold file. destruct (begin_dump_spec s p c f n d) as (i & -> & _). cbn. by rewrite lookup_insert_ne. Qed.
Lemma begin_temps s p c f n d T : temps s T -> temps (begin_dump s p c f n d) (T ++ [n]).
Proof.
  intros H m. destruct (begin_dump_spec s p c f n d) as (i & -> & _). cbn. rewrite elem_of_app, elem_of_list_singleton.
  destruct (decide (n = m)) as [<-|Hne].
  - rewrite lookup_insert. split; [by right|by eexists].
  - rewrite lookup_insert_ne by congruence. rewrite (H m). split; [auto|]. intros [?|?]; congruence.
Qed.

(** the file read in full *)
Lemma PInv_act s a s' p q :
  LInv s -> FInv s -> ds_procs s !! p = Some q -> actor a = p -> (forall p, a <> Crash p) -> PInv s q ->
  act cap s a = Some s' -> exists q', ds_procs s' !! p = Some q' /\ PInv s' q'.
Proof.
  intros HL HF Hp Ha Hnc HP E. destruct a as [p0 c|p0|p0|p0 d|p0 k|p0|p0]; cbn in Ha; subst p0; cbn in E; rewrite Hp in E;
    try discriminate E.
  - destruct q; try discriminate E. destruct (ds_lock s); [done|]. injection E as <-.
    eexists. split; [apply lookup_insert|]. eapply PInv_ext; [..|apply HP]; done.
  - destruct q as [| | |c []| | | | | | |]; try discriminate E. injection E as <-.
    eexists. split; [apply lookup_insert|]. destruct HP as (L & HR & Hc). exists L. split; [done|]. right. auto.
  - destruct q as [| | |c b| | | | | | |]; try discriminate E. injection E as <-.
    destruct HP as (L & (Hg & Hl & Hf & Ht) & _).
    assert (HW : exists i, ds_procs (begin_dump s p c [] (S c) d) !! p = Some (Write c [] (S c) i (pickle d))).
    { destruct (begin_dump_spec s p c [] (S c) d) as (i & -> & _). exists i. apply lookup_insert. }
    destruct HW as (i & HW). eexists. split; [exact HW|]. split; [done|]. split; [done|]. exists L. split; [done|].
    split; [|split].
    + unfold lruis in *. destruct (begin_dump_spec s p c [] (S c) d) as (i' & -> & Hi'). cbn.
      rewrite lookup_insert_ne by done. destruct (ds_dir s !! (0, false)) as [j|] eqn:Ej; [|done].
      rewrite lookup_insert_ne; [done|]. intros ->.
      destruct (ds_dir s !! (S c, true)) as [j'|] eqn:Ej'.
      * subst j'. by pose proof (f_inj _ HF _ _ _ Ej Ej').
      * subst j. destruct (f_dir _ HF _ _ _ Ej). lia.
    + intros x. rewrite begin_file. apply Hf.
    + apply (begin_temps _ _ _ _ _ _ []). done.
  - destruct q as [| | | | |c f n i rest| | | | |]; try discriminate E. destruct rest as [|x rest]; [done|]. injection E as <-.
    eexists. split; [apply lookup_insert|].
    destruct (f_write _ HF _ _ _ _ _ _ Hp) as (_ & Hm & b & d & Hb & _). destruct n as [|n].
    + destruct HP as (keep & b' & HLast & Hd & Hbr). destruct HLast as (H1 & H2 & H3 & H4 & H5 & H6 & i' & H7 & H8).
      rewrite Hd in H7. injection H7 as <-. rewrite Hb in H8. injection H8 as <-.
      rewrite Hb. cbn [default from_option]. unfold id.
      exists keep, (b ++ take (S k) (x :: rest)). split; [|split].
      * split_and!; try done. exists i. split; [done|]. cbn -[take]. apply lookup_insert.
      * done.
      * rewrite <- app_assoc. change (b ++ take (S k) (x :: rest) ++ drop (S k) (x :: rest) = pickle keep).
        by rewrite take_drop.
    + destruct HP as (-> & -> & L & Hg & Hl & Hf & Ht). split; [done|]. split; [done|]. exists L.
      split; [done|]. split; [|done]. unfold lruis in *. cbn -[take].
      destruct (ds_dir s !! (0, false)) as [j|] eqn:Ej; [|done]. rewrite lookup_insert_ne; [done|].
      intros ->. by apply Hm in Ej.
  - destruct q as [c|ph|ph i acc|c found|c f keep ev|c f n i rest|f|f| | |]; try discriminate E.
    + destruct (ds_dir s !! _) as [i|] eqn:Ei; injection E as <-; (eexists; split; [apply lookup_insert|]);
        destruct ph as [c|c f]; cbn [read_name] in Ei.
      * destruct HP as (L & HR). exists L. split; [done|]. destruct HR as (_ & _ & Hf & _). apply Hf. by exists i.
      * destruct HP as (L & HR & Hok). by exists L.
      * destruct HP as (L & HR). by exists L.
      * destruct HP as (L & HR & Hok). assert (L = []) as ->.
        { destruct HR as (_ & Hl & _). unfold lruis in Hl. by rewrite Ei in Hl. }
        exact (loaded_evict s c f [] HR Hok).
    + destruct (f_read _ HF _ _ _ _ Hp) as (_ & d & Hd & _ & Hpre). rewrite Hd in E. cbn [default from_option] in E.
      unfold id in E. destruct (pickle d !! length acc) as [x|] eqn:Ex.
      { injection E as <-. eexists. split; [apply lookup_insert|]. destruct ph; exact HP. }
      assert (acc = pickle d) as ->.
      { apply lookup_ge_None_1 in Ex. destruct Hpre as [k Hk]. rewrite Hk in Ex. rewrite app_length in Ex.
        destruct k; [|cbn in Ex; lia]. by rewrite app_nil_r in Hk. }
      rewrite unpickle_pickle in E. injection E as <-. eexists. split; [apply lookup_insert|].
      destruct ph as [c|c f].
      * destruct HP as (L & HR & Hc). by exists L.
      * destruct HP as (L & HR & Hok & Hi).
        assert (d = L) as ->.
        { destruct HR as (_ & Hl & _). unfold lruis in Hl. rewrite Hi in Hl. rewrite Hd in Hl. injection Hl as Hl.
          apply (f_equal unpickle) in Hl. rewrite !unpickle_pickle in Hl. by injection Hl. }
        exact (loaded_evict s c f L HR Hok).
    + destruct HP as (H1 & H2 & H3 & H4 & H5 & H6 & H7 & H8). destruct ev as [|x ev].
      * injection E as <-.
        assert (HW : exists i, ds_procs (begin_dump s p c f 0 keep) !! p = Some (Write c f 0 i (pickle keep))
          /\ ds_dir (begin_dump s p c f 0 keep) !! (0, true) = Some i
          /\ ds_data (begin_dump s p c f 0 keep) !! i = Some []).
        { destruct (begin_dump_spec s p c f 0 keep) as (i & -> & _). exists i. cbn. rewrite !lookup_insert. done. }
        destruct HW as (i & HW & Hd & Hb). eexists. split; [exact HW|]. exists keep, []. split; [|done].
        split_and!; try done.
        -- intros x Hx. rewrite begin_file, (H5 x Hx). rewrite elem_of_nil. tauto.
        -- intros Hf. rewrite begin_file. auto.
        -- by apply begin_temps.
        -- by exists i.
      * assert (Hxc : x <> c) by (intros ->; by apply (H4 c); [left|]).
        assert (Hx : file s x) by (apply H5; [done|]; right; by left).
        destruct Hx as [i Hi]. rewrite Hi in E. injection E as <-. eexists. split; [apply lookup_insert|].
        apply list.NoDup_cons in H3 as [Hxe H3]. cbn. split_and!; try done; try (by apply H1).
        -- intros y Hy. apply H4. by right.
        -- intros y Hy. unfold file. cbn. destruct (decide (x = y)) as [<-|Hxy].
           ++ rewrite lookup_delete. split; [intros [? [=]]|]. intros [Hk|He]; [|done].
              exfalso. by apply (H4 x); [left|].
           ++ rewrite lookup_delete_ne by congruence. etransitivity; [apply (H5 y Hy)|].
              rewrite elem_of_cons. split; [intros [?|[?|?]]|intros [?|?]]; auto; congruence.
        -- intros Hf. unfold file. cbn. rewrite lookup_delete_ne by congruence. by apply H6.
        -- intros n. cbn. rewrite lookup_delete_ne by congruence. apply H8.
    + destruct rest; [|done]. injection E as <-. eexists. split; [apply lookup_insert|]. destruct n as [|n].
      * destruct HP as (keep & b & HLast & Hd & Hbr). rewrite app_nil_r in Hbr. subst b. exists c, keep, f. by split.
      * destruct HP as (-> & -> & L & HR). exists L. split; [done|]. by left.
    + injection E as <-. eexists. split; [apply lookup_insert|]. destruct HP as (c & keep & f' & -> & HLast).
      pose proof HLast as (H1 & H2 & H3 & H4 & H5 & H6 & H7). destruct H5 as [->| ->].
      * exists keep. split; [done|]. split; [|done]. intros x. destruct (decide (x = c)) as [->|Hx]; [|by apply H3].
        split; [done|]. intros _. by apply H4.
      * exists c, keep, [S c]. done.
    + destruct f as [|n f].
      { injection E as <-. eexists. split; [apply lookup_insert|]. exact HP. }
      destruct (ds_dir s !! _) as [i|] eqn:Ei; injection E as <-; (eexists; split; [apply lookup_insert|]).
      * destruct n as [|n].
        -- destruct f as [|? f].
           2: { exfalso. destruct HP as (c & keep & f' & He & _ & ->). cbn in He. congruence. }
           destruct HP as (L & H1 & H2 & H3 & i' & H4 & H5). rewrite Ei in H4. injection H4 as <-.
           exists L. split; [done|]. split; [|split].
           ++ unfold lruis. cbn. by rewrite lookup_insert.
           ++ intros x. unfold file. cbn. rewrite lookup_insert_ne by done. rewrite lookup_delete_ne by done. apply H2.
           ++ intros n. cbn. rewrite lookup_insert_ne by done. rewrite elem_of_nil.
              destruct (decide (0 = n)) as [<-|Hn]; [rewrite lookup_delete; split; [by intros [? [=]]|done]|].
              rewrite lookup_delete_ne by congruence. rewrite (H3 n). rewrite elem_of_list_singleton. split; [congruence|done].
        -- destruct HP as (c & keep & f' & He & HLast & ->). cbn in He. injection He as -> ->.
           destruct HLast as (H1 & H2 & H3 & H4 & H5 & H6 & j & H7 & H8).
           exists keep. split; [done|]. split; [|split].
           ++ intros x. unfold file. cbn. destruct (decide (x = c)) as [->|Hx].
              ** rewrite lookup_insert. split; [done|]. by eexists.
              ** rewrite lookup_insert_ne by congruence. rewrite lookup_delete_ne by congruence. by apply H3.
           ++ intros n. cbn. rewrite lookup_insert_ne by done.
              destruct (decide (S c = n)) as [<-|Hn].
              ** rewrite lookup_delete. rewrite elem_of_list_singleton. split; [by intros [? [=]]|done].
              ** rewrite lookup_delete_ne by congruence. rewrite (H6 n). rewrite elem_of_cons. split; [|auto].
                 intros [?|?]; [congruence|done].
           ++ exists j. cbn. rewrite lookup_insert_ne by done. rewrite lookup_delete_ne by congruence. done.
      * exfalso. destruct n as [|n].
        -- destruct f as [|? f].
           ++ destruct HP as (L & H1 & H2 & H3 & i' & H4 & H5). congruence.
           ++ destruct HP as (c & keep & f' & He & _ & ->). cbn in He. congruence.
        -- destruct HP as (c & keep & f' & He & HLast & ->). cbn in He. injection He as -> ->.
           destruct HLast as (H1 & H2 & H3 & H4 & H5 & H6 & _).
           assert (Hs : is_Some (ds_dir s !! (S c, true))) by (apply H6; left). rewrite Ei in Hs. by destruct Hs.
  - exfalso. by eapply Hnc.
Qed.

Definition SInv (s : dstate) : Prop :=
  (forall p q, ds_procs s !! p = Some q -> finished q = false -> PInv s q)
  /\ (forall p, ds_procs s !! p <> Some Raised /\ ds_procs s !! p <> Some Crashed)
  /\ (at_rest s -> exists L, Rest s L []).

Lemma SInv_init : SInv ds_init.
Proof.
  split; [|split].
  - intros p q H. cbn in H. by rewrite lookup_empty in H.
  - intros p. cbn. by rewrite lookup_empty.
  - intros _. exists []. split; [split; [apply NoDup_nil_2|cbn; lia]|]. split; [done|]. split.
    + intros x. unfold file. cbn. rewrite lookup_empty, elem_of_nil. split; [by intros [? [=]]|done].
    + intros n. cbn. rewrite lookup_empty, elem_of_nil. split; [by intros [? [=]]|done].
Qed.

(** an action changes the state of its own thread only *)
Lemma act_frame s a s' p : act cap s a = Some s' -> p <> actor a -> ds_procs s' !! p = ds_procs s !! p.
Proof.
  intros E Hne. destruct a as [p0 c|p0|p0|p0 d|p0 k|p0|p0]; cbn in Hne, E;
    destruct (ds_procs s !! p0) as [q|] eqn:Hp; try discriminate E.
  - injection E as <-. cbn. by rewrite lookup_insert_ne.
  - destruct q; try discriminate E. destruct (ds_lock s); [done|]. injection E as <-. cbn. by rewrite lookup_insert_ne.
  - destruct q as [| | |c []| | | | | | |]; try discriminate E. injection E as <-. cbn. by rewrite lookup_insert_ne.
  - destruct q; try discriminate E. injection E as <-.
    match goal with |- ds_procs (begin_dump ?s ?p ?c ?f ?n ?d) !! _ = _ =>
      destruct (begin_dump_spec s p c f n d) as (i & -> & _) end. cbn. by rewrite lookup_insert_ne.
  - destruct q; try discriminate E. destruct rest; [done|]. injection E as <-. cbn. by rewrite lookup_insert_ne.
  - destruct q as [c|ph|ph i acc|c found|c f keep ev|c f n i rest|f|f| | |]; try discriminate E.
    + destruct (ds_dir s !! _); injection E as <-; cbn; by rewrite lookup_insert_ne.
    + destruct (default [] _ !! _); [injection E as <-; cbn; by rewrite lookup_insert_ne|].
      destruct (unpickle acc); injection E as <-; cbn; by rewrite lookup_insert_ne.
    + destruct ev as [|x ev].
      * injection E as <-. destruct (begin_dump_spec s p0 c f 0 keep) as (i & -> & _). cbn. by rewrite lookup_insert_ne.
      * destruct (ds_dir s !! _); injection E as <-; cbn; by rewrite lookup_insert_ne.
    + destruct rest; [|done]. injection E as <-. cbn. by rewrite lookup_insert_ne.
    + injection E as <-. cbn. by rewrite lookup_insert_ne.
    + destruct f as [|n f]; [injection E as <-; cbn; by rewrite lookup_insert_ne|].
      destruct (ds_dir s !! _); injection E as <-; cbn; by rewrite lookup_insert_ne.
  - assert (E' : s' = goto (if decide (ds_lock s = Some p0) then with_lock s None else s) p0 Crashed).
    { destruct q; try discriminate E; by injection E as <-. }
    subst s'. cbn. rewrite lookup_insert_ne by done. by case_decide.
Qed.

Lemma finished_stuck s a s' q :
  act cap s a = Some s' -> ds_procs s !! actor a = Some q -> finished q = false.
Proof.
  intros E Hp. destruct a as [p0 c|p0|p0|p0 d|p0 k|p0|p0]; cbn in Hp, E; rewrite Hp in E; destruct q; done.
Qed.

Lemma SInv_act s a s' :
  LInv s -> FInv s -> SInv s -> (forall p, a <> Crash p) ->
  (forall p q, ds_procs s !! p = Some q -> p <> actor a -> finished q = true) ->
  act cap s a = Some s' -> SInv s'.
Proof.
  intros HL HF (H1 & H2 & H3) Hnc Hseq E.
  assert (HQ : exists q', ds_procs s' !! actor a = Some q' /\ PInv s' q').
  { destruct (ds_procs s !! actor a) as [q|] eqn:Hp.
    - eapply PInv_act; try done. eapply H1; [done|]. by eapply finished_stuck.
    - destruct a as [p0 c|p0|p0|p0 d|p0 k|p0|p0]; cbn in E, Hp; rewrite Hp in E; try discriminate E.
      injection E as <-. cbn. eexists. split; [apply lookup_insert|]. apply (PInv_ext s); [done..|].
      apply H3. intros p q Hq. destruct (decide (p = p0)) as [->|Hne]; [congruence|]. by eapply Hseq. }
  destruct HQ as (q' & Hq' & HP).
  assert (Hoth : forall p, p <> actor a -> ds_procs s' !! p = ds_procs s !! p) by (intros; by eapply act_frame).
  split; [|split].
  - intros p q Hp Hf. destruct (decide (p = actor a)) as [->|Hne].
    + rewrite Hq' in Hp. by injection Hp as <-.
    + rewrite Hoth in Hp by done. rewrite (Hseq _ _ Hp Hne) in Hf. done.
  - intros p. destruct (decide (p = actor a)) as [->|Hne].
    + rewrite Hq'. split; intros [= ->]; done.
    + rewrite Hoth by done. apply H2.
  - intros Hr. specialize (Hr _ _ Hq'). destruct q'; try discriminate Hr; done.
Qed.

Lemma seq_inv l s s' :
  LInv s -> FInv s -> SInv s -> one_at_a_time cap s l -> run cap s l = Some s' -> SInv s'.
Proof.
  revert s. induction l as [|a l IH]; intros s HL HF HS Hc E; cbn in E, Hc.
  - by injection E as <-.
  - destruct Hc as (Hc1 & Hc2 & Hc3). destruct (act cap s a) as [s1|] eqn:E1; [|done]. cbn in E.
    eapply IH; [..|done]; [by eapply LInv_act| |by eapply SInv_act|done].
    eapply FInv_act; try done. destruct a; try done. by destruct (Hc1 p).
Qed.
End seq.
