(** Proofs about the file cache (DiskModel.v). *)
From stdpp Require Import base list list_numbers numbers gmap option.
Require Import Lia.
From Verif Require Import DiskModel SpecDisk.

Lemma unpickle_pickle d : unpickle (pickle d) = Some d.
Proof. induction d as [|x d IH]; [done|]. cbn. unfold pickle in IH. by rewrite IH. Qed.
Lemma unpickle_prefix d b : b `prefix_of` pickle d -> b <> pickle d -> unpickle b = None.
Proof.
  revert b. induction d as [|x d IH]; intros b [k E] Hne.
  - destruct b as [|y b]; [done|]. cbn in E. destruct b; [|done]. cbn in E. destruct k; [|done].
    injection E as <-. done.
  - destruct b as [|y b]; [done|]. cbn in E. injection E as <- E. cbn.
    rewrite IH; [done|by exists k|]. intros ->. apply Hne. done.
Qed.

(** the states in which a thread holds the locks *)
Definition locked (q : pstate) : bool :=
  match q with Look _ | Read _ _ _ | Decide _ _ | Evict _ _ _ _ | Write _ _ _ _ _ | Unlock _ => true | _ => false end.
Definition writing (q : pstate) : bool := match q with Write _ _ _ _ _ => true | _ => false end.

Definition LInv (s : dstate) : Prop :=
  forall p, ds_lock s = Some p <-> exists q, ds_procs s !! p = Some q /\ locked q = true.

Lemma LInv_init : LInv ds_init.
Proof. intros p. split; [done|]. intros (q & H & _). cbn in H. by rewrite lookup_empty in H. Qed.

Lemma LInv_same s (s' : dstate) p q q' :
  ds_procs s' = <[p := q']> (ds_procs s) -> LInv s -> ds_procs s !! p = Some q -> locked q' = locked q ->
  ds_lock s' = ds_lock s -> LInv s'.
Proof.
  intros Ep H Hp Hq El p'. rewrite El, Ep, (H p'). destruct (decide (p = p')) as [<-|Hne].
  - rewrite lookup_insert. split; intros (x & Hx & Hl).
    + exists q'. split; [done|]. congruence.
    + exists q. split; [done|]. congruence.
  - by rewrite lookup_insert_ne.
Qed.
Lemma LInv_take s (s' : dstate) p q' :
  ds_procs s' = <[p := q']> (ds_procs s) -> LInv s -> ds_lock s = None -> locked q' = true ->
  ds_lock s' = Some p -> LInv s'.
Proof.
  intros Ep H Hn Hq El p'. rewrite El, Ep. destruct (decide (p = p')) as [<-|Hne].
  - rewrite lookup_insert. split; [intros _; by exists q'|done].
  - rewrite lookup_insert_ne by done. rewrite <- (H p'), Hn. split; congruence.
Qed.
Lemma LInv_release s (s' : dstate) p q q' :
  ds_procs s' = <[p := q']> (ds_procs s) -> LInv s -> ds_procs s !! p = Some q -> locked q = true -> locked q' = false ->
  ds_lock s' = None -> LInv s'.
Proof.
  intros Ep H Hp Hq Hq' El p'. rewrite El, Ep.
  assert (Hl : ds_lock s = Some p) by (apply H; eauto).
  destruct (decide (p = p')) as [<-|Hne].
  - rewrite lookup_insert. split; [done|]. intros (x & [= <-] & Hx). congruence.
  - rewrite lookup_insert_ne by done. rewrite <- (H p'), Hl. split; congruence.
Qed.
Lemma LInv_new s (s' : dstate) p q' :
  ds_procs s' = <[p := q']> (ds_procs s) -> LInv s -> ds_procs s !! p = None -> locked q' = false ->
  ds_lock s' = ds_lock s -> LInv s'.
Proof.
  intros Ep H Hp Hq' El p'. rewrite El, Ep, (H p').
  destruct (decide (p = p')) as [<-|Hne].
  - rewrite lookup_insert. split; intros (x & Hx & Hl); congruence.
  - by rewrite lookup_insert_ne.
Qed.

Lemma begin_dump_spec s p c f n d :
  exists i, begin_dump s p c f n d =
    mkDS (<[(n, true) := i]> (ds_dir s)) (<[i := []]> (ds_data s))
         (match ds_dir s !! (n, true) with Some _ => ds_next s | None => S (ds_next s) end)
         (ds_lock s) (<[p := Write c f n i (pickle d)]> (ds_procs s)) (ds_dumps s ++ [(n, d)]) (ds_loads s)
  /\ match ds_dir s !! (n, true) with Some j => i = j | None => i = ds_next s end.
Proof.
  unfold begin_dump, open_temp. destruct (ds_dir s !! (n, true)) as [i|] eqn:E.
  - exists i. split; [|done]. cbn. unfold goto, log_dump, with_data. cbn. by rewrite (insert_id _ _ _ E).
  - by exists (ds_next s).
Qed.

Lemma LInv_act cap s a s' : LInv s -> act cap s a = Some s' -> LInv s'.
Proof.
  intros H E. destruct a as [p c|p|p|p d|p k|p|p]; cbn in E;
    destruct (ds_procs s !! p) as [q|] eqn:Hp; try discriminate E.
  - injection E as <-. eapply (LInv_new s _ p); [reflexivity|done..].
  - destruct q; try discriminate E. destruct (ds_lock s) eqn:El; [done|]. injection E as <-.
    eapply (LInv_take s _ p); [reflexivity|done..].
  - destruct q as [| | |c []| | | | | | |]; try discriminate E. injection E as <-. eapply (LInv_same s _ p); [reflexivity|done..].
  - destruct q; try discriminate E. injection E as <-.
    destruct (begin_dump_spec s p c [] (S c) d) as (i & -> & _). eapply (LInv_same s _ p); [reflexivity|done..].
  - destruct q; try discriminate E. destruct rest; [done|]. injection E as <-. eapply (LInv_same s _ p); [reflexivity|done..].
  - destruct q as [c|ph|ph i acc|c found|c f keep ev|c f n i rest|f|f| | |]; try discriminate E.
    + destruct (ds_dir s !! _); injection E as <-; eapply (LInv_same s _ p); [reflexivity|try done..]; by destruct ph.
    + destruct (default [] _ !! _); [injection E as <-; eapply (LInv_same s _ p); [reflexivity|done..]|].
      destruct (unpickle acc); injection E as <-; [|eapply (LInv_release s _ p); [reflexivity|done..]].
      eapply (LInv_same s _ p); [reflexivity|try done..]. by destruct ph.
    + destruct ev as [|x ev].
      * injection E as <-. destruct (begin_dump_spec s p c f 0 keep) as (i & -> & _). eapply (LInv_same s _ p); [reflexivity|done..].
      * destruct (ds_dir s !! _); injection E as <-; [eapply (LInv_same s _ p); [reflexivity|done..]|eapply (LInv_release s _ p); [reflexivity|done..]].
    + destruct rest; [|done]. injection E as <-. eapply (LInv_same s _ p); [reflexivity|try done..]. by destruct n.
    + injection E as <-. eapply (LInv_release s _ p); [reflexivity|done..].
    + destruct f as [|n f]; [injection E as <-; eapply (LInv_same s _ p); [reflexivity|done..]|].
      destruct (ds_dir s !! _); injection E as <-; eapply (LInv_same s _ p); [reflexivity|done..].
  - assert (E' : s' = goto (if decide (ds_lock s = Some p) then with_lock s None else s) p Crashed).
    { destruct q; try discriminate E; by injection E as <-. }
    subst s'. case_decide as El.
    + apply H in El as (q' & Hq' & Hl). eapply (LInv_release s _ p q'); [reflexivity|done..].
    + eapply (LInv_same s _ p q); [reflexivity|try done..]. destruct (locked q) eqn:Hl; [|done].
      exfalso. apply El, H. eauto.
Qed.

(** * Files *)
Definition complete (s : dstate) (n i : nat) : Prop :=
  exists d, ds_data s !! i = Some (pickle d) /\ (n, d) ∈ ds_dumps s.
Definition in_writing (s : dstate) (n i : nat) : Prop :=
  exists p c f rest, ds_procs s !! p = Some (Write c f n i rest).

Record FInv (s : dstate) : Prop := {
  f_dir : forall n t i, ds_dir s !! (n, t) = Some i -> i < ds_next s /\ (complete s n i \/ in_writing s n i);
  f_inj : forall x y i, ds_dir s !! x = Some i -> ds_dir s !! y = Some i -> x = y;
  f_read : forall p ph i acc, ds_procs s !! p = Some (Read ph i acc) ->
     i < ds_next s /\ exists d, ds_data s !! i = Some (pickle d) /\ (read_name ph, d) ∈ ds_dumps s
       /\ acc `prefix_of` pickle d;
  f_write : forall p c f n i rest, ds_procs s !! p = Some (Write c f n i rest) ->
     i < ds_next s /\ (forall m t, ds_dir s !! (m, t) = Some i -> m = n)
     /\ exists b d, ds_data s !! i = Some b /\ b ++ rest = pickle d /\ (n, d) ∈ ds_dumps s;
  f_loads : forall n r, (n, r) ∈ ds_loads s -> exists d, r = Some d /\ (n, d) ∈ ds_dumps s }.

Lemma FInv_init : FInv ds_init.
Proof.
  split; cbn; intros.
  - by rewrite lookup_empty in H.
  - by rewrite lookup_empty in H.
  - by rewrite lookup_empty in H.
  - by rewrite lookup_empty in H.
  - by apply elem_of_nil in H.
Qed.

(** a step that leaves the files alone *)
Lemma FInv_quiet s (s' : dstate) p q' :
  FInv s -> ds_dir s' = ds_dir s -> ds_data s' = ds_data s -> ds_next s' = ds_next s ->
  ds_dumps s' = ds_dumps s -> ds_procs s' = <[p := q']> (ds_procs s) ->
  (forall c f n i rest, ds_procs s !! p = Some (Write c f n i rest) -> rest = []) ->
  writing q' = false ->
  (forall ph i acc, q' = Read ph i acc ->
     i < ds_next s /\ exists d, ds_data s !! i = Some (pickle d) /\ (read_name ph, d) ∈ ds_dumps s
       /\ acc `prefix_of` pickle d) ->
  (forall n r, (n, r) ∈ ds_loads s' -> exists d, r = Some d /\ (n, d) ∈ ds_dumps s) ->
  FInv s'.
Proof.
  intros H Ed Ea En Eu Ep Hold Hw Hr Hl. split.
  - intros n t i. rewrite Ed, En. intros Hi. destruct (f_dir _ H _ _ _ Hi) as [Hlt Hc]. split; [done|].
    destruct Hc as [(d & Hd & Hin)|(p' & c & f & rest & Hp')].
    + left. exists d. by rewrite Ea, Eu.
    + destruct (decide (p = p')) as [<-|Hne].
      * left. rewrite (Hold _ _ _ _ _ Hp') in Hp'.
        destruct (f_write _ H _ _ _ _ _ _ Hp') as (_ & _ & b & d & Hb & Hbd & Hin).
        rewrite app_nil_r in Hbd. subst b. exists d. by rewrite Ea, Eu.
      * right. exists p', c, f, rest. by rewrite Ep, lookup_insert_ne.
  - rewrite Ed. apply (f_inj _ H).
  - intros p' ph i acc. rewrite Ep, En, Ea, Eu. destruct (decide (p = p')) as [<-|Hne].
    + rewrite lookup_insert. intros [= Hq]. by apply Hr.
    + rewrite lookup_insert_ne by done. apply (f_read _ H).
  - intros p' c f n i rest. rewrite Ep, En, Ea, Eu, Ed. destruct (decide (p = p')) as [<-|Hne].
    + rewrite lookup_insert. intros [= Hq]. by subst q'.
    + rewrite lookup_insert_ne by done. apply (f_write _ H).
  - rewrite Eu. exact Hl.
Qed.

(** only one thread holds the locks *)
Lemma one_locked s p p' q q' :
  LInv s -> ds_procs s !! p = Some q -> locked q = true -> ds_procs s !! p' = Some q' -> locked q' = true -> p = p'.
Proof.
  intros H Hp Hl Hp' Hl'.
  assert (ds_lock s = Some p) by (apply H; eauto). assert (ds_lock s = Some p') by (apply H; eauto). congruence.
Qed.

Lemma FInv_begin s p q c f n d :
  LInv s -> FInv s -> ds_procs s !! p = Some q -> locked q = true -> writing q = false ->
  FInv (begin_dump s p c f n d).
Proof.
  intros HL H Hp Hlk Hw. destruct (begin_dump_spec s p c f n d) as (i & -> & Hi).
  assert (Hfresh : forall x, ds_dir s !! x = Some i -> x = (n, true)).
  { intros x Hx. destruct (ds_dir s !! (n, true)) as [j|] eqn:E.
    - subst j. by eapply (f_inj _ H).
    - destruct x as [m t]. destruct (f_dir _ H _ _ _ Hx). lia. }
  assert (Hlt : i < match ds_dir s !! (n, true) with Some _ => ds_next s | None => S (ds_next s) end).
  { destruct (ds_dir s !! (n, true)) as [j|] eqn:E; [|lia]. subst j. by destruct (f_dir _ H _ _ _ E). }
  assert (Hnx : ds_next s <= match ds_dir s !! (n, true) with Some _ => ds_next s | None => S (ds_next s) end).
  { destruct (ds_dir s !! (n, true)); lia. }
  assert (Hnr : forall p' q', p' <> p -> ds_procs s !! p' = Some q' -> locked q' = false).
  { intros p' q' Hne Hp'. destruct (locked q') eqn:E; [|done]. exfalso. apply Hne. symmetry.
    by eapply (one_locked s p p' q q'). }
  split; cbn.
  - intros m t j. destruct (decide ((n, true) = (m, t))) as [Heq|Hne].
    + injection Heq as <- <-. rewrite lookup_insert. intros [= <-]. split; [done|]. right.
      exists p, c, f, (pickle d). cbn. by rewrite lookup_insert.
    + rewrite lookup_insert_ne by done. intros Hj. destruct (f_dir _ H _ _ _ Hj) as [Hj1 Hj2].
      split; [lia|]. left.
      assert (Hij : j <> i) by (intros ->; apply Hfresh in Hj; congruence).
      destruct Hj2 as [(d' & Hd' & Hin)|(p' & c' & f' & rest & Hp')].
      * exists d'. cbn. rewrite lookup_insert_ne by done. split; [done|]. apply elem_of_app. by left.
      * destruct (decide (p' = p)) as [->|Hpp]; [rewrite Hp in Hp'; injection Hp' as ->; done|].
        by apply Hnr in Hp'.
  - intros x y j. destruct (decide (x = (n, true))) as [->|Hx], (decide (y = (n, true))) as [->|Hy];
      rewrite ?lookup_insert, ?lookup_insert_ne by done; try done.
    + intros [= <-] Hy'. apply Hfresh in Hy'. congruence.
    + intros Hx' [= <-]. apply Hfresh in Hx'. congruence.
    + apply (f_inj _ H).
  - intros p' ph j acc. destruct (decide (p = p')) as [<-|Hne]; [by rewrite lookup_insert|].
    rewrite lookup_insert_ne by done. intros Hp'. by apply Hnr in Hp'.
  - intros p' c' f' m j rest. destruct (decide (p = p')) as [<-|Hne].
    + rewrite lookup_insert. intros [= <- <- <- <- <-]. split; [done|]. split.
      * intros m t. destruct (decide ((n, true) = (m, t))) as [Heq|Hne'].
        -- injection Heq as <- <-. done.
        -- rewrite lookup_insert_ne by done. intros Hx. apply Hfresh in Hx. congruence.
      * exists [], d. rewrite lookup_insert. split; [done|]. split; [done|]. apply elem_of_app. right. by left.
    + rewrite lookup_insert_ne by done. intros Hp'. by apply Hnr in Hp'.
  - intros m r Hr. destruct (f_loads _ H _ _ Hr) as (d' & Hd & Hin). exists d'. split; [done|].
    apply elem_of_app. by left.
Qed.

Lemma loaded_quiet cap ph d : writing (loaded cap ph d) = false /\ forall ph' i acc, loaded cap ph d <> Read ph' i acc.
Proof. by destruct ph. Qed.

Lemma FInv_act cap s a s' : LInv s -> FInv s -> clean s a -> act cap s a = Some s' -> FInv s'.
Proof.
  intros HL H Hc E.
  assert (Hnw : forall p q, ds_procs s !! p = Some q -> writing q = false ->
    forall c f n i rest, ds_procs s !! p = Some (Write c f n i rest) -> rest = []).
  { intros p q Hp Hw c f n i rest Hp'. rewrite Hp in Hp'. injection Hp' as ->. done. }
  destruct a as [p c|p|p|p d|p k|p|p]; cbn in E;
    destruct (ds_procs s !! p) as [q|] eqn:Hp; try discriminate E.
  - injection E as <-. eapply (FInv_quiet s _ p); [..|reflexivity|idtac|idtac|idtac|idtac]; try done; [|apply (f_loads _ H)].
    intros. cbn in *. congruence.
  - destruct q; try discriminate E. destruct (ds_lock s) eqn:El; [done|]. injection E as <-.
    eapply (FInv_quiet s _ p); [..|reflexivity|idtac|idtac|idtac|idtac]; try done; [by eapply Hnw|apply (f_loads _ H)].
  - destruct q as [| | |c []| | | | | | |]; try discriminate E. injection E as <-.
    eapply (FInv_quiet s _ p); [..|reflexivity|idtac|idtac|idtac|idtac]; try done; [by eapply Hnw|apply (f_loads _ H)].
  - destruct q; try discriminate E. injection E as <-. by eapply FInv_begin.
  - destruct q as [| | | | |c f n i rest| | | | |]; try discriminate E. destruct rest as [|x rest]; [done|]. injection E as <-.
    destruct (f_write _ H _ _ _ _ _ _ Hp) as (Hlt & Hm & b & d & Hb & Hbd & Hin).
    rewrite Hb. cbn [default from_option]. unfold id.
    assert (Hnr : forall p' q', p' <> p -> ds_procs s !! p' = Some q' -> locked q' = false).
    { intros p' q' Hne Hp'. destruct (locked q') eqn:El; [|done]. exfalso. apply Hne. symmetry.
      by eapply (one_locked s p p' _ q'). }
    split; cbn -[take drop].
    + intros m t j Hj. destruct (f_dir _ H _ _ _ Hj) as [Hj1 Hj2]. split; [done|].
      destruct (decide (j = i)) as [->|Hne].
      * right. rewrite (Hm _ _ Hj). exists p, c, f, (drop (S k) (x :: rest)). cbn -[drop]. by rewrite lookup_insert.
      * destruct Hj2 as [(d' & Hd' & Hin')|(p' & c' & f' & rest' & Hp')].
        -- left. exists d'. cbn. by rewrite lookup_insert_ne.
        -- destruct (decide (p' = p)) as [->|Hpp]; [congruence|]. by apply Hnr in Hp'.
    + apply (f_inj _ H).
    + intros p' ph j acc. destruct (decide (p = p')) as [<-|Hne]; [by rewrite lookup_insert|].
      rewrite lookup_insert_ne by done. intros Hp'. by apply Hnr in Hp'.
    + intros p' c' f' m j rest'. destruct (decide (p = p')) as [<-|Hne].
      * rewrite lookup_insert. intros [= <- <- <- <- <-]. split; [done|]. split; [done|].
        exists (b ++ take (S k) (x :: rest)), d. rewrite lookup_insert. split; [done|]. split; [|done].
        rewrite <- app_assoc. change (b ++ take (S k) (x :: rest) ++ drop (S k) (x :: rest) = pickle d).
        by rewrite take_drop.
      * rewrite lookup_insert_ne by done. intros Hp'. by apply Hnr in Hp'.
    + apply (f_loads _ H).
  - destruct q as [c|ph|ph i acc|c found|c f keep ev|c f n i rest|f|f| | |]; try discriminate E.
    + destruct (ds_dir s !! _) as [i|] eqn:Ei; injection E as <-.
      * eapply (FInv_quiet s _ p); [..|reflexivity|idtac|idtac|idtac|idtac]; try done; [by eapply Hnw| |apply (f_loads _ H)].
        intros ph' i' acc [= <- <- <-]. destruct (f_dir _ H _ _ _ Ei) as [Hi [(d & Hd & Hin)|(p' & c & f & rest & Hp')]].
        -- split; [done|]. exists d. split; [done|]. split; [done|]. apply prefix_nil.
        -- assert (p = p') as <- by (eapply one_locked; done). congruence.
      * eapply (FInv_quiet s _ p); [..|reflexivity|idtac|idtac|idtac|idtac]; try done; [by eapply Hnw|by destruct ph|by destruct ph|apply (f_loads _ H)].
    + destruct (f_read _ H _ _ _ _ Hp) as (Hi & d & Hd & Hin & Hpre). rewrite Hd in E. cbn [default from_option] in E.
      unfold id in E. destruct (pickle d !! length acc) as [x|] eqn:Ex.
      * injection E as <-. eapply (FInv_quiet s _ p); [..|reflexivity|idtac|idtac|idtac|idtac]; try done; [by eapply Hnw| |apply (f_loads _ H)].
        intros ph' i' acc' [= <- <- <-]. split; [done|]. exists d. split; [done|]. split; [done|].
        destruct Hpre as [k Hk]. rewrite Hk in Ex. rewrite lookup_app_r, Nat.sub_diag in Ex by lia.
        destruct k as [|y k]; [done|]. cbn in Ex. injection Ex as ->. exists k. rewrite Hk.
        by rewrite <- app_assoc.
      * assert (acc = pickle d) as ->.
        { apply lookup_ge_None_1 in Ex. destruct Hpre as [k Hk]. rewrite Hk in Ex. rewrite app_length in Ex.
          destruct k; [|cbn in Ex; lia]. by rewrite app_nil_r in Hk. }
        rewrite unpickle_pickle in E. injection E as <-.
        eapply (FInv_quiet s _ p); [..|reflexivity|idtac|idtac|idtac|idtac]; try done; [by eapply Hnw|by destruct ph|by destruct ph|].
        cbn. intros n r [Hr|Hr%elem_of_list_singleton]%elem_of_app; [by apply (f_loads _ H)|].
        injection Hr as -> ->. eauto.
    + destruct ev as [|x ev].
      * injection E as <-. by eapply FInv_begin.
      * destruct (ds_dir s !! _) as [i|] eqn:Ei; injection E as <-.
        -- assert (H1 : FInv (with_dir s (delete (S x, false) (ds_dir s)))).
           { split; cbn.
             - intros m t j [_ Hj]%lookup_delete_Some. destruct (f_dir _ H _ _ _ Hj) as [? [?|?]]; (split; [done|]); [by left|by right].
             - intros a b j [_ Ha]%lookup_delete_Some [_ Hb]%lookup_delete_Some. by eapply (f_inj _ H).
             - apply (f_read _ H).
             - intros p' c' f' m j rest Hp'. destruct (f_write _ H _ _ _ _ _ _ Hp') as (? & Hm & ?). split; [done|].
               split; [|done]. intros m' t [_ Hj]%lookup_delete_Some. by eapply Hm.
             - apply (f_loads _ H). }
           eapply (FInv_quiet (with_dir s _) _ p); try done; [by eapply Hnw|apply (f_loads _ H)].
        -- eapply (FInv_quiet s _ p); [..|reflexivity|idtac|idtac|idtac|idtac]; try done; [by eapply Hnw|apply (f_loads _ H)].
    + destruct rest; [|done]. injection E as <-.
      eapply (FInv_quiet s _ p); [..|reflexivity|idtac|idtac|idtac|idtac]; try done; [intros; cbn in *; congruence|by destruct n|by destruct n|apply (f_loads _ H)].
    + injection E as <-. eapply (FInv_quiet s _ p); [..|reflexivity|idtac|idtac|idtac|idtac]; try done; [by eapply Hnw|apply (f_loads _ H)].
    + destruct f as [|n f].
      { injection E as <-. eapply (FInv_quiet s _ p); [..|reflexivity|idtac|idtac|idtac|idtac]; try done; [by eapply Hnw|apply (f_loads _ H)]. }
      destruct (ds_dir s !! _) as [i|] eqn:Ei; injection E as <-;
        [|eapply (FInv_quiet s _ p); [..|reflexivity|idtac|idtac|idtac|idtac]; try done; [by eapply Hnw|apply (f_loads _ H)]].
      assert (H1 : FInv (with_dir s (<[(n, false):=i]> (delete (n, true) (ds_dir s))))).
      { split; cbn.
        - intros m t j. destruct (decide ((n, false) = (m, t))) as [Heq|Hne].
          + injection Heq as <- <-. rewrite lookup_insert. intros [= <-].
            destruct (f_dir _ H _ _ _ Ei) as [? [?|?]]; (split; [done|]); [by left|by right].
          + rewrite lookup_insert_ne by done. intros [_ Hj]%lookup_delete_Some.
            destruct (f_dir _ H _ _ _ Hj) as [? [?|?]]; (split; [done|]); [by left|by right].
        - intros a b j. destruct (decide (a = (n, false))) as [->|Ha], (decide (b = (n, false))) as [->|Hb];
            rewrite ?lookup_insert, ?lookup_insert_ne by done; try done.
          + intros [= <-] [Hb1 Hb2]%lookup_delete_Some. destruct Hb1. by eapply (f_inj _ H).
          + intros [Hb1 Hb2]%lookup_delete_Some [= <-]. destruct Hb1. by eapply (f_inj _ H).
          + intros [_ Ha']%lookup_delete_Some [_ Hb']%lookup_delete_Some. by eapply (f_inj _ H).
        - apply (f_read _ H).
        - intros p' c' f' m j rest Hp'. destruct (f_write _ H _ _ _ _ _ _ Hp') as (? & Hm & ?). split; [done|].
          split; [|done]. intros m' t. destruct (decide ((n, false) = (m', t))) as [Heq|Hne].
          + injection Heq as <- <-. rewrite lookup_insert. intros [= <-]. by eapply Hm.
          + rewrite lookup_insert_ne by done. intros [_ Hj]%lookup_delete_Some. by eapply Hm.
        - apply (f_loads _ H). }
      eapply (FInv_quiet (with_dir s _) _ p); try done; [by eapply Hnw|apply (f_loads _ H)].
  - assert (E' : s' = goto (if decide (ds_lock s = Some p) then with_lock s None else s) p Crashed).
    { destruct q; try discriminate E; by injection E as <-. }
    subst s'. cbn in Hc. rewrite Hp in Hc.
    eapply (FInv_quiet s _ p Crashed); try done; try (by case_decide).
    + intros. rewrite Hp in H0. injection H0 as ->. done.
    + cbn. case_decide; apply (f_loads _ H).
Qed.

Lemma run_inv cap l s s' :
  LInv s -> FInv s -> run_clean cap s l -> run cap s l = Some s' -> LInv s' /\ FInv s'.
Proof.
  revert s. induction l as [|a l IH]; intros s HL HF Hc E; cbn in E, Hc.
  - by injection E as <-.
  - destruct Hc as [Hc1 Hc2]. destruct (act cap s a) as [s1|] eqn:E1; [|done]. cbn in E.
    eapply IH; [| | |done]; [by eapply LInv_act|by eapply FInv_act|done].
Qed.
