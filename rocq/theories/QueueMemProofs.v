(** The memory-level pairing queue refines the tree-level one. *)
From stdpp Require Import base list numbers gmap sorting.
From Verif Require Import Base QueueModel QueueProofs QueueMem SpecQueue.

(** trees labelled with the addresses of their nodes *)
Inductive atree := ANode (a : nat) (x : pnode) (d : list atree).
Definition aaddr (t : atree) : nat := match t with ANode a _ _ => a end.
Definition adesc (t : atree) : list atree := match t with ANode _ _ d => d end.
Definition aval (t : atree) : pnode := match t with ANode _ x _ => x end.
Definition ahead (l : list atree) : option nat := match l with [] => None | t :: _ => Some (aaddr t) end.
Fixpoint erase (t : atree) : ptree := match t with ANode _ x d => PNode x (map erase d) end.

(** the cells of a linked list of trees *)
Fixpoint tcells (nx : option nat) (t : atree) : list (nat * mnode) :=
  match t with ANode a x d => (a, mkM x nx (ahead d)) ::
    (fix go l := match l with [] => [] | t :: l => tcells (ahead l) t ++ go l end) d end.
Fixpoint fcells (l : list atree) : list (nat * mnode) :=
  match l with [] => [] | t :: l => tcells (ahead l) t ++ fcells l end.
Lemma tcells_eq nx a x d : tcells nx (ANode a x d) = (a, mkM x nx (ahead d)) :: fcells d.
Proof. reflexivity. Qed.
Global Opaque tcells.
Lemma fcells_cons t l : fcells (t :: l) = tcells (ahead l) t ++ fcells l.
Proof. done. Qed.

Definition holds (m : mmem) (l : list (nat * mnode)) : Prop := forall a n, (a, n) ∈ l -> m !! a = Some (Some n).

Lemma tcells_fst nx nx' t : (tcells nx t).*1 = (tcells nx' t).*1.
Proof. destruct t. by rewrite !tcells_eq. Qed.

Lemma holds_app m l1 l2 : holds m (l1 ++ l2) <-> holds m l1 /\ holds m l2.
Proof. unfold holds. setoid_rewrite elem_of_app. naive_solver. Qed.
Lemma holds_cons m a n l : holds m ((a, n) :: l) <-> m !! a = Some (Some n) /\ holds m l.
Proof.
  unfold holds. split.
  - intros H. split; [apply H; left|]. intros b k Hb. apply H. by right.
  - intros [H1 H2] b k Hb. apply elem_of_cons in Hb as [[= -> ->]|Hb]; [done|]. by apply H2.
Qed.
Lemma holds_frame m l a c : holds m l -> a ∉ l.*1 -> holds (<[a:=c]> m) l.
Proof.
  intros H N b n Hb. rewrite list_lookup_insert_ne; [by apply H|]. intros ->. apply N, elem_of_list_fmap. by exists (b, n).
Qed.
Lemma mread_ok m a n : m !! a = Some (Some n) -> mread m a = Ok n.
Proof. intros H. unfold mread. by rewrite (vget_ok _ _ _ H). Qed.
Lemma set_next_ok m a n x : m !! a = Some (Some n) -> set_next m a x = Ok (<[a:=Some (mkM (m_val n) x (m_desc n))]> m).
Proof. intros H. unfold set_next. rewrite (mread_ok _ _ _ H). cbn [rbind]. apply vset_ok. by eapply lookup_lt_Some. Qed.
Lemma set_desc_ok m a n x : m !! a = Some (Some n) -> set_desc m a x = Ok (<[a:=Some (mkM (m_val n) (m_next n) x)]> m).
Proof. intros H. unfold set_desc. rewrite (mread_ok _ _ _ H). cbn [rbind]. apply vset_ok. by eapply lookup_lt_Some. Qed.

(** everything outside [l] is unchanged *)
Definition keeps (l : list nat) (m m' : mmem) : Prop := length m' = length m /\ forall a, a ∉ l -> m' !! a = m !! a.
Lemma keeps_refl l m : keeps l m m.
Proof. done. Qed.
Lemma keeps_trans l m1 m2 m3 : keeps l m1 m2 -> keeps l m2 m3 -> keeps l m1 m3.
Proof. intros [L1 H1] [L2 H2]. split; [congruence|]. intros a Ha. by rewrite H2, H1. Qed.
Lemma keeps_mono l l' m m' : keeps l m m' -> (forall a, a ∈ l -> a ∈ l') -> keeps l' m m'.
Proof. intros [L H] S. split; [done|]. intros a Ha. apply H. naive_solver. Qed.
Lemma keeps_holds l m m' f : keeps l m m' -> holds m f -> (forall a, a ∈ f.*1 -> a ∉ l) -> holds m' f.
Proof.
  intros [_ K] H D a n Ha. rewrite K; [by apply H|]. apply D, elem_of_list_fmap. by exists (a, n).
Qed.
Lemma keeps_insert l m a c : a ∈ l -> keeps l m (<[a:=c]> m).
Proof. intros H. split; [by rewrite insert_length|]. intros b Hb. rewrite list_lookup_insert_ne; [done|]. by intros ->. Qed.

Definition amerge (t o : atree) : atree :=
  if node_lt (aval o) (aval t) then ANode (aaddr t) (aval t) (o :: adesc t) else ANode (aaddr o) (aval o) (t :: adesc o).
Lemma erase_root t : proot (erase t) = aval t.
Proof. by destruct t. Qed.
Lemma erase_merge t o : erase (amerge t o) = merge_roots (erase t) (erase o).
Proof.
  unfold amerge, merge_roots. rewrite !erase_root. destruct (node_lt _ _); by destruct t, o.
Qed.
Lemma amerge_addrs t o nx n1 n2 : (tcells nx (amerge t o)).*1 ≡ₚ (tcells n1 t).*1 ++ (tcells n2 o).*1.
Proof.
  destruct t as [a x d], o as [b y f]. unfold amerge. cbn [aval aaddr adesc].
  destruct (node_lt y x); rewrite !tcells_eq, !fmap_cons; cbn [fcells fst]; rewrite tcells_eq, fmap_app, fmap_cons; cbn [fst].
  - simpl. solve_Permutation.
  - simpl. solve_Permutation.
Qed.

(** the next pointer of the winner is kept *)
Definition wnext (t o : atree) (nt no : option nat) : option nat := if node_lt (aval o) (aval t) then nt else no.

Lemma unchecked_spec m a x d na b y f nb :
  holds m (tcells na (ANode a x d)) -> holds m (tcells nb (ANode b y f)) ->
  NoDup ((tcells na (ANode a x d)).*1 ++ (tcells nb (ANode b y f)).*1) ->
  exists m', mm_unchecked m a b = Ok (m', a) /\ holds m' (tcells na (ANode a x (ANode b y f :: d))) /\
    keeps [a; b] m m'.
Proof.
  rewrite !tcells_eq, !fmap_cons. cbn [fst]. intros Ha Hb ND. apply holds_cons in Ha as [Ha Hd], Hb as [Hb Hf].
  apply NoDup_cons in ND as [Na ND]. apply NoDup_app in ND as (NDd & Ndb & NDb). apply NoDup_cons in NDb as [Nb NDf].
  apply not_elem_of_app in Na as [Na1 Na2]. apply not_elem_of_cons in Na2 as [Nab Na2].
  unfold mm_unchecked. rewrite (mread_ok _ _ _ Ha). cbn [rbind]. rewrite (set_next_ok _ _ _ _ Hb). cbn [rbind m_val m_desc].
  rewrite (set_desc_ok _ a (mkM x na (ahead d))) by (by rewrite list_lookup_insert_ne). cbn [rbind m_val m_next].
  eexists. split; [done|]. split.
  - apply holds_cons. split; [simpl; apply list_lookup_insert; rewrite insert_length; by eapply lookup_lt_Some|].
    rewrite fcells_cons, tcells_eq. simpl. apply holds_cons. split.
    + rewrite list_lookup_insert_ne by done. apply list_lookup_insert. by eapply lookup_lt_Some.
    + apply holds_app. split; repeat (apply holds_frame; [|done]); try done.
      apply holds_frame; [done|]. intros Hx. apply (Ndb b Hx). left.
  - apply keeps_trans with (<[b:=Some (mkM y (ahead d) (ahead f))]> m); apply keeps_insert; set_solver.
Qed.

Lemma unsafe_spec m t nt o no : holds m (tcells nt t) -> holds m (tcells no o) ->
  NoDup ((tcells nt t).*1 ++ (tcells no o).*1) ->
  exists m', mm_unsafe m (aaddr t) (aaddr o) = Ok (m', aaddr (amerge t o)) /\
    holds m' (tcells (wnext t o nt no) (amerge t o)) /\ keeps [aaddr t; aaddr o] m m'.
Proof.
  destruct t as [a x d], o as [b y f]. intros Ht Ho ND. unfold mm_unsafe. simpl.
  pose proof Ht as Ht'. pose proof Ho as Ho'. rewrite tcells_eq in Ht', Ho'.
  apply holds_cons in Ht' as [Ha _], Ho' as [Hb _]. rewrite (mread_ok _ _ _ Ha), (mread_ok _ _ _ Hb). cbn [rbind m_val].
  unfold amerge, wnext. simpl. destruct (node_lt y x).
  - by apply unchecked_spec with (nb := no).
  - rewrite Permutation_app_comm in ND. destruct (unchecked_spec m b y f no a x d nt Ho Ht ND) as (m' & E & H & K).
    exists m'. split; [done|]. split; [done|]. eapply keeps_mono; [exact K|]. set_solver.
Qed.

Lemma tcells_in nx t : aaddr t ∈ (tcells nx t).*1.
Proof. destruct t. rewrite tcells_eq. simpl. left. Qed.
Lemma set_next_spec m t nx x : holds m (tcells nx t) -> NoDup (tcells nx t).*1 ->
  exists m', set_next m (aaddr t) x = Ok m' /\ holds m' (tcells x t) /\ keeps [aaddr t] m m'.
Proof.
  destruct t as [a y d]. rewrite !tcells_eq. simpl. intros [Ha Hd]%holds_cons [Na ND]%NoDup_cons.
  rewrite (set_next_ok _ _ _ _ Ha). eexists. split; [done|]. split; [|apply keeps_insert; left].
  apply holds_cons. split; [apply list_lookup_insert; by eapply lookup_lt_Some|]. by apply holds_frame.
Qed.
Lemma unsafe_spec' m t nt o no : holds m (tcells nt t) -> holds m (tcells no o) ->
  NoDup ((tcells nt t).*1 ++ (tcells no o).*1) ->
  exists m', mm_unsafe m (aaddr t) (aaddr o) = Ok (m', aaddr (amerge t o)) /\
    holds m' (tcells (wnext t o nt no) (amerge t o)) /\ NoDup (tcells (wnext t o nt no) (amerge t o)).*1 /\
    keeps ((tcells nt t).*1 ++ (tcells no o).*1) m m'.
Proof.
  intros H1 H2 ND. destruct (unsafe_spec _ _ _ _ _ H1 H2 ND) as (m' & E & H & K). exists m'. split; [done|]. split; [done|].
  split; [by rewrite (amerge_addrs t o _ nt no)|]. eapply keeps_mono; [exact K|]. intros a.
  rewrite !elem_of_cons, elem_of_nil, elem_of_app. intros [->|[->|[]]]; [left|right]; apply tcells_in.
Qed.
Lemma set_next_spec' m t nx x : holds m (tcells nx t) -> NoDup (tcells nx t).*1 ->
  exists m', set_next m (aaddr t) x = Ok m' /\ holds m' (tcells x t) /\ NoDup (tcells x t).*1 /\ keeps (tcells nx t).*1 m m'.
Proof.
  intros H ND. destruct (set_next_spec _ _ _ x H ND) as (m' & E & H' & K). exists m'. split; [done|]. split; [done|].
  split; [by rewrite (tcells_fst _ nx)|]. eapply keeps_mono; [exact K|]. intros a ->%elem_of_list_singleton. apply tcells_in.
Qed.
Lemma hold_next m t nx : holds m (tcells nx t) -> mread m (aaddr t) = Ok (mkM (aval t) nx (ahead (adesc t))).
Proof. destruct t. rewrite tcells_eq. intros [H _]%holds_cons. by apply mread_ok. Qed.

Fixpoint amerge_loop (l : list atree) (r : atree) : atree :=
  match l with
  | [] => r
  | [a] => amerge a r
  | a :: b :: c => amerge_loop c (amerge (amerge a b) r)
  end.
Lemma erase_loop n : forall l r, length l <= n -> erase (amerge_loop l r) = merge_loop (map erase l) (erase r).
Proof.
  induction n as [|n IH]; intros l r L; destruct l as [|a [|b c]]; simpl in *; try done; try lia.
  - by rewrite erase_merge.
  - rewrite IH by lia. by rewrite !erase_merge.
Qed.

Lemma loop_spec n : forall fuel m l r, length l <= n -> length l <= fuel ->
  holds m (fcells l) -> holds m (tcells None r) -> NoDup ((fcells l).*1 ++ (tcells None r).*1) ->
  exists m', mm_loop fuel m (ahead l) (aaddr r) = Ok (m', aaddr (amerge_loop l r)) /\
    holds m' (tcells None (amerge_loop l r)) /\ (tcells None (amerge_loop l r)).*1 ≡ₚ (fcells l).*1 ++ (tcells None r).*1 /\
    keeps ((fcells l).*1 ++ (tcells None r).*1) m m'.
Proof.
  induction n as [|n IH]; intros fuel m l r Ln Lf Hl Hr ND.
  { destruct l; [|simpl in Ln; lia]. simpl. exists m. destruct fuel; done. }
  destruct l as [|a l]; [exists m; destruct fuel; done|]. destruct fuel as [|fuel]; [simpl in Lf; lia|].
  simpl. rewrite fcells_cons in Hl. apply holds_app in Hl as [Ha Hl].
  rewrite (hold_next _ _ _ Ha). cbn [rbind m_next]. destruct l as [|b c]; simpl.
  - simpl in ND. rewrite app_nil_r in ND.
    destruct (unsafe_spec' _ _ _ _ _ Ha Hr ND) as (m' & -> & H & N & K). exists m'. split; [done|].
    assert (W : wnext a r None None = None) by (unfold wnext; by destruct (node_lt _ _)). simpl in H, N. rewrite W in H.
    split; [done|]. rewrite app_nil_r. split; [apply amerge_addrs|done].
  - rewrite fcells_cons in Hl. apply holds_app in Hl as [Hb Hc].
    rewrite (hold_next _ _ _ Hb). cbn [rbind].
    rewrite !fcells_cons, !fmap_app in ND. simpl in ND.
    apply NoDup_app in ND as (ND1 & D1 & NDr). rewrite app_assoc in ND1. apply NoDup_app in ND1 as (NDab & Dc & NDc).
    assert (Dab : forall z, z ∈ (tcells (Some (aaddr b)) a).*1 ++ (tcells (ahead c) b).*1 -> z ∉ (fcells c).*1 ++ (tcells None r).*1).
    { intros z Hz. rewrite not_elem_of_app. split; [by apply Dc|]. apply D1. rewrite app_assoc. apply elem_of_app. by left. }
    destruct (unsafe_spec' _ _ _ _ _ Ha Hb NDab) as (m1 & -> & H1 & N1 & K1). cbn [rbind].
    assert (Hc1 : holds m1 (fcells c)). { eapply keeps_holds; eauto. intros z Hz Hz'. apply (Dab z Hz'). apply elem_of_app. by left. }
    assert (Hr1 : holds m1 (tcells None r)). { eapply keeps_holds; eauto. intros z Hz Hz'. apply (Dab z Hz'). apply elem_of_app. by right. }
    destruct (set_next_spec' _ _ _ None H1 N1) as (m2 & -> & H2 & N2 & K2). cbn [rbind].
    assert (Pab : (tcells None (amerge a b)).*1 ≡ₚ (tcells (Some (aaddr b)) a).*1 ++ (tcells (ahead c) b).*1) by apply amerge_addrs.
    assert (K2' : keeps ((tcells (Some (aaddr b)) a).*1 ++ (tcells (ahead c) b).*1) m1 m2).
    { eapply keeps_mono; [exact K2|]. intros z. rewrite (tcells_fst _ None). by rewrite Pab. }
    assert (Hc2 : holds m2 (fcells c)). { eapply keeps_holds; eauto. intros z Hz Hz'. apply (Dab z Hz'). apply elem_of_app. by left. }
    assert (Hr2 : holds m2 (tcells None r)). { eapply keeps_holds; eauto. intros z Hz Hz'. apply (Dab z Hz'). apply elem_of_app. by right. }
    assert (NDR : NoDup ((tcells None (amerge a b)).*1 ++ (tcells None r).*1)).
    { apply NoDup_app. split; [done|]. split; [|done]. intros z Hz Hr'. rewrite Pab in Hz. apply (Dab z Hz), elem_of_app. by right. }
    destruct (unsafe_spec' _ _ _ _ _ H2 Hr2 NDR) as (m3 & -> & H3 & N3 & K3). cbn [rbind].
    assert (W : wnext (amerge a b) r None None = None) by (unfold wnext; by destruct (node_lt _ _)). rewrite W in H3, N3.
    assert (Prr : (tcells None (amerge (amerge a b) r)).*1 ≡ₚ (tcells None (amerge a b)).*1 ++ (tcells None r).*1) by apply amerge_addrs.
    assert (Hc3 : holds m3 (fcells c)).
    { eapply keeps_holds; eauto. intros z Hz Hz'. apply elem_of_app in Hz' as [Hz'|Hz'].
      - rewrite Pab in Hz'. apply (Dab z Hz'). apply elem_of_app. by left.
      - apply (D1 z); [|done]. rewrite app_assoc. apply elem_of_app. by right. }
    cbn [m_next]. destruct (IH fuel m3 c (amerge (amerge a b) r)) as (m4 & -> & H4 & P4 & K4).
    { simpl in Ln. lia. }
    { simpl in Lf. lia. }
    { done. } { done. }
    { apply NoDup_app. split; [done|]. split; [|done]. intros z Hz Hz'. rewrite Prr, Pab in Hz'.
      apply elem_of_app in Hz' as [Hz'|Hz'].
      - apply (Dab z Hz'). apply elem_of_app. by left.
      - apply (D1 z); [|done]. rewrite app_assoc. apply elem_of_app. by right. }
    exists m4. split; [done|]. split; [done|].
    assert (Pall : (fcells c).*1 ++ (tcells None (amerge (amerge a b) r)).*1 ≡ₚ
       (tcells (Some (aaddr b)) a ++ tcells (ahead c) b ++ fcells c).*1 ++ (tcells None r).*1).
    { rewrite Prr, Pab, !fmap_app. solve_Permutation. }
    split; [by rewrite P4|].
    apply keeps_trans with m1; [|apply keeps_trans with m2; [|apply keeps_trans with m3]].
    + eapply keeps_mono; [exact K1|]. intros z. rewrite !fmap_app, !elem_of_app. tauto.
    + eapply keeps_mono; [exact K2'|]. intros z. rewrite !fmap_app, !elem_of_app. tauto.
    + eapply keeps_mono; [exact K3|]. intros z. rewrite Pab. rewrite !fmap_app, !elem_of_app. tauto.
    + eapply keeps_mono; [exact K4|]. intros z. by rewrite Pall.
Qed.

Definition amerge_pairs (a : atree) (l : list atree) : atree :=
  match l with [] => a | r :: c => amerge_loop c (amerge a r) end.
Lemma erase_pairs a l : erase (amerge_pairs a l) = merge_pairs (erase a) (map erase l).
Proof. destruct l as [|r c]; [done|]. simpl. rewrite (erase_loop (length c)) by done. by rewrite erase_merge. Qed.

Lemma pairs_spec fuel m a l : length l <= fuel -> holds m (fcells (a :: l)) -> NoDup (fcells (a :: l)).*1 ->
  exists m', mm_pairs fuel m (aaddr a) = Ok (m', aaddr (amerge_pairs a l)) /\
    holds m' (tcells None (amerge_pairs a l)) /\ (tcells None (amerge_pairs a l)).*1 ≡ₚ (fcells (a :: l)).*1 /\
    length m' = length m.
Proof.
  intros Lf H ND. unfold mm_pairs. rewrite fcells_cons in H, ND. apply holds_app in H as [Ha Hl].
  rewrite (hold_next _ _ _ Ha). cbn [rbind m_next]. destruct l as [|r c]; simpl.
  { simpl in Ha. exists m. rewrite app_nil_r. done. }
  rewrite fcells_cons in Hl. apply holds_app in Hl as [Hr Hc]. rewrite (hold_next _ _ _ Hr). cbn [rbind m_next].
  simpl in ND. rewrite !fmap_app in ND. rewrite app_assoc in ND. apply NoDup_app in ND as (NDar & Dc & NDc).
  pose proof NDar as NDar0. apply NoDup_app in NDar0 as (NDa & Dar & NDr).
  destruct (set_next_spec' _ _ _ None Hr NDr) as (m1 & -> & H1 & N1 & K1). cbn [rbind].
  assert (Ha1 : holds m1 (tcells (Some (aaddr r)) a)) by (eapply keeps_holds; eauto).
  assert (Hc1 : holds m1 (fcells c)). { eapply keeps_holds; eauto. intros z Hz Hz'. apply (Dc z); [|done]. apply elem_of_app. by right. }
  rewrite (tcells_fst (ahead c) None) in NDar, Dc, Dar.
  destruct (unsafe_spec' _ _ _ _ _ Ha1 H1 NDar) as (m2 & -> & H2 & N2 & K2). cbn [rbind].
  assert (Hc2 : holds m2 (fcells c)). { eapply keeps_holds; eauto. intros z Hz Hz'. by apply (Dc z). }
  destruct (set_next_spec' _ _ _ None H2 N2) as (m3 & -> & H3 & N3 & K3). cbn [rbind].
  assert (Par : (tcells None (amerge a r)).*1 ≡ₚ (tcells (Some (aaddr r)) a).*1 ++ (tcells None r).*1) by apply amerge_addrs.
  assert (Hc3 : holds m3 (fcells c)).
  { eapply keeps_holds; eauto. intros z Hz Hz'. rewrite (tcells_fst _ None), Par in Hz'. by apply (Dc z). }
  destruct (loop_spec (length c) fuel m3 c (amerge a r)) as (m4 & -> & H4 & P4 & K4); auto.
  { simpl in Lf. lia. }
  { apply NoDup_app. split; [done|]. split; [|done]. intros z Hz Hz'. rewrite Par in Hz'. by apply (Dc z). }
  exists m4. split; [done|]. split; [done|]. split.
  - rewrite P4, Par, !fmap_app. rewrite (tcells_fst (ahead c) None). solve_Permutation.
  - destruct K1 as [<- _], K2 as [<- _], K3 as [<- _], K4 as [<- _]. done.
Qed.

(** the two queues agree *)
Definition rel (mq : mqueue) (q : pqueue) : Prop :=
  mq_count mq = qcount q /\ mq_size mq = qsize q /\ length (mq_mem mq) = mq_size mq /\ mq_count mq <= mq_size mq /\
  match mq_root mq, qroot q with
  | None, None => True
  | Some r, Some t => exists at_, aaddr at_ = r /\ erase at_ = t /\ holds (mq_mem mq) (tcells None at_) /\
      NoDup (tcells None at_).*1 /\ forall a, a ∈ (tcells None at_).*1 -> a < mq_count mq
  | _, _ => False
  end.

Lemma rel_new n : rel (mq_new n) (q_new n).
Proof. unfold rel. simpl. rewrite replicate_length. repeat split; try done. lia. Qed.
Lemma rel_empty mq q : rel mq q -> mq_empty mq = q_empty q.
Proof. intros (_ & _ & _ & _ & H). unfold mq_empty, q_empty. destruct (mq_root mq), (qroot q); done. Qed.
Lemma rel_top mq q : rel mq q -> mq_top mq = q_top q.
Proof.
  intros (_ & _ & _ & _ & H). unfold mq_top, q_top. destruct (mq_root mq) as [r|], (qroot q) as [t|]; try done.
  destruct H as (t' & <- & <- & H & _). rewrite (hold_next _ _ _ H). simpl. by rewrite erase_root.
Qed.
Lemma rel_emplace mq q x : rel mq q ->
  match q_emplace q x with
  | Ok q' => exists mq', mq_emplace mq x = Ok mq' /\ rel mq' q'
  | Err er => mq_emplace mq x = Err er
  end.
Proof.
  intros (Ec & Es & Lm & Lc & H). unfold q_emplace, mq_emplace. case_decide as Hd.
  - rewrite vset_ok by lia. cbn [rbind]. set (m0 := <[_:=_]> _).
    set (nt := ANode (mq_count mq) x []).
    assert (Hn : holds m0 (tcells None nt)).
    { unfold nt. rewrite tcells_eq. simpl. apply holds_cons. split; [apply list_lookup_insert; lia|]. intros ? ? Hx. by apply elem_of_nil in Hx. }
    assert (Lm0 : length m0 = mq_size mq) by (unfold m0; by rewrite insert_length).
    destruct (mq_root mq) as [r|], (qroot q) as [t|]; try done.
    + destruct H as (t' & <- & <- & H & ND & Hlt).
      assert (H0 : holds m0 (tcells None t')). { apply holds_frame; [done|]. intros Hx%Hlt. lia. }
      assert (NDD : NoDup ((tcells None nt).*1 ++ (tcells None t').*1)).
      { unfold nt. rewrite tcells_eq. simpl. constructor; [|done]. intros Hx%Hlt. lia. }
      unfold mm_roots. destruct (unsafe_spec' _ _ _ _ _ Hn H0 NDD) as (m1 & E1 & H1 & N1 & K1).
      simpl in E1. rewrite E1. cbn [rbind].
      destruct (set_next_spec' _ _ _ None H1 N1) as (m2 & -> & H2 & N2 & K2). cbn [rbind].
      eexists. split; [done|]. split; simpl; [lia|]. split; [done|]. split; [destruct K1, K2; congruence|]. split; [lia|].
      exists (amerge nt t'). split; [done|]. split; [by rewrite erase_merge|]. split; [done|]. split; [done|].
      intros a. rewrite (amerge_addrs nt t' _ None None). rewrite elem_of_app. intros [Ha|Ha%Hlt]; [|lia].
      unfold nt in Ha. rewrite tcells_eq in Ha. simpl in Ha. apply elem_of_list_singleton in Ha. lia.
    + simpl. eexists. split; [done|]. split; simpl; [lia|]. split; [done|]. split; [done|]. split; [lia|].
      exists nt. split; [done|]. split; [done|]. split; [done|]. unfold nt. rewrite tcells_eq. simpl.
      split; [apply NoDup_singleton|]. intros a ->%elem_of_list_singleton. lia.
  - unfold vset. rewrite lookup_ge_None_2 by lia. done.
Qed.
Lemma atree_ind' (P : atree -> Prop) : (forall a x d, (forall t, t ∈ d -> P t) -> P (ANode a x d)) -> forall t, P t.
Proof.
  intros H. fix IH 1. intros [a x d]. apply H. induction d as [|t d IHd]; intros t'.
  - intros Hx. exfalso. by apply elem_of_nil in Hx.
  - rewrite elem_of_cons. intros [->|Hx]; [apply IH|by apply IHd].
Qed.
Lemma fcells_len l : length l <= length (fcells l).
Proof.
  induction l as [|t l IH]; [done|]. rewrite fcells_cons, app_length. destruct t. rewrite tcells_eq. simpl. lia.
Qed.
Lemma rel_pop mq q : rel mq q ->
  match q_pop q with
  | Ok q' => exists mq', mq_pop mq = Ok mq' /\ rel mq' q'
  | Err er => mq_pop mq = Err er
  end.
Proof.
  intros (Ec & Es & Lm & Lc & H). unfold q_pop, mq_pop. destruct (mq_root mq) as [r|], (qroot q) as [t|]; try done.
  destruct H as (t' & <- & <- & H & ND & Hlt). rewrite (hold_next _ _ _ H). cbn [rbind m_desc].
  destruct t' as [a x d]. simpl. rewrite tcells_eq in H, ND, Hlt. apply holds_cons in H as [_ H].
  simpl in ND. apply NoDup_cons in ND as [_ ND]. destruct d as [|b l]; simpl.
  - eexists. split; [done|]. repeat (split; [done|]). done.
  - destruct (pairs_spec (mq_count mq) (mq_mem mq) b l) as (m' & -> & H' & P & L'); [|done|done|].
    { pose proof (fcells_len (b :: l)) as L1. simpl in L1.
      assert (length (fcells (b :: l)).*1 <= mq_count mq); [|rewrite fmap_length in *; simpl in *; lia].
      rewrite <- (seq_length (mq_count mq) 0). apply submseteq_length, NoDup_submseteq; [done|].
      intros z Hz. apply elem_of_seq. split; [lia|]. apply Hlt. simpl. by right. }
    cbn [rbind]. eexists. split; [done|]. split; [done|]. split; [done|]. simpl. split; [congruence|]. split; [done|].
    exists (amerge_pairs b l). split; [done|]. split; [apply erase_pairs|]. split; [done|]. split; [by rewrite P|].
    intros z Hz. rewrite P in Hz. apply Hlt. simpl. by right.
Qed.

(** ** sequences of operations *)
Lemma node_before a b : node_le a b <-> before a b.
Proof. done. Qed.

Lemma step_push mq q x out : rel mq q -> qheap q -> qcount q < qsize q ->
  exists mq' q', mq_step (mq, out) (QPush x) = Ok (mq', out) /\ rel mq' q' /\ qheap q' /\ qelems q' ≡ₚ x :: qelems q /\
    qcount q' = S (qcount q) /\ qsize q' = qsize q.
Proof.
  intros R H L. destruct (q_emplace_ok q x L) as (q' & E & P & C & S & Hp). pose proof (rel_emplace _ _ x R) as G.
  rewrite E in G. destruct G as (mq' & E' & R'). exists mq', q'. simpl. rewrite E'. simpl. auto 10.
Qed.
Lemma step_pop mq q out : rel mq q -> qheap q -> qelems q <> [] ->
  exists z mq' q', mq_step (mq, out) QPop = Ok (mq', out ++ [z]) /\ rel mq' q' /\ qheap q' /\ qelems q ≡ₚ z :: qelems q' /\
    (forall y, y ∈ qelems q -> before z y) /\ qcount q' = qcount q /\ qsize q' = qsize q.
Proof.
  intros R H L. destruct (q_top_pop_ok q) as (z & q' & E1 & E2 & P & Hp & C & S & M); [|done|].
  { destruct (q_empty q) eqn:E; [|done]. by apply q_empty_elems in E. }
  pose proof (rel_pop _ _ R) as G. rewrite E2 in G. destruct G as (mq' & E' & R'). exists z, mq', q'.
  simpl. rewrite (rel_top _ _ R), E1. cbn [rbind]. rewrite E'. simpl. auto 10.
Qed.

Lemma behaves_perm ops b out b' c : behaves ops b out b' -> b ≡ₚ c -> exists c', behaves ops c out c' /\ b' ≡ₚ c'.
Proof.
  intros H. revert c. induction H as [b|x ops b out b' H IH|z ops b b1 out b' P M H IH]; intros c Pc.
  - exists c. split; [constructor|done].
  - destruct (IH (x :: c)) as (c' & H' & P'); [by rewrite Pc|]. exists c'. split; [by constructor|done].
  - exists b'. split; [|done]. econstructor; [by rewrite <- Pc|intros y; rewrite <- Pc; apply M|done].
Qed.

Lemma run_spec ops : forall mq q out k, rel mq q -> qheap q -> length (qelems q) = k ->
  qcount q + pushes ops <= qsize q -> pops_ok k ops ->
  exists mq' q' out', foldM mq_step ops (mq, out) = Ok (mq', out ++ out') /\ rel mq' q' /\ qheap q' /\
    qsize q' = qsize q /\ qcount q' = qcount q + pushes ops /\
    exists bag, behaves ops (qelems q) out' bag /\ bag ≡ₚ qelems q'.
Proof.
  induction ops as [|[x|] ops IH]; intros mq q out k R H Lk Lc Po.
  - exists mq, q, []. simpl. rewrite app_nil_r. repeat (split; [done|]).  exists (qelems q). split; [constructor|done].
  - cbn [pushes pops_ok] in Lc, Po. destruct (step_push mq q x out R H) as (m1 & q1 & E1 & R1 & H1 & P1 & C1 & S1); [lia|].
    cbn [foldM]. rewrite E1. cbn [rbind].
    destruct (IH m1 q1 out (S k) R1 H1) as (m2 & q2 & out' & E2 & R2 & H2 & S2 & C2 & bag & B & Pb); [|lia|done|].
    { by rewrite P1, <- Lk. }
    exists m2, q2, out'. split; [done|]. split; [done|]. split; [done|]. split; [congruence|]. split; [simpl; lia|].
    destruct (behaves_perm _ _ _ _ (x :: qelems q) B P1) as (bag' & B' & Pb'). exists bag'. split; [by constructor|].
    by rewrite <- Pb'.
  - cbn [pushes pops_ok] in Lc, Po. destruct k as [|k]; [done|].
    destruct (step_pop mq q out R H) as (z & m1 & q1 & E1 & R1 & H1 & P1 & M1 & C1 & S1); [intros Z; by rewrite Z in Lk|].
    cbn [foldM]. rewrite E1. cbn [rbind].
    destruct (IH m1 q1 (out ++ [z]) k R1 H1) as (m2 & q2 & out' & E2 & R2 & H2 & S2 & C2 & bag & B & Pb); [|lia|done|].
    { rewrite P1 in Lk. simpl in Lk. lia. }
    exists m2, q2, (z :: out'). rewrite E2, <- app_assoc. split; [done|]. split; [done|]. split; [done|]. split; [congruence|].
    split; [simpl; lia|]. exists bag. split; [|done]. by econstructor.
Qed.

Lemma queue_behaves n ops : pushes ops <= n -> pops_ok 0 ops ->
  exists q out bag, mq_run n ops = Ok (q, out) /\ behaves ops [] out bag /\ (mq_empty q = true <-> bag = []).
Proof.
  intros L P. destruct (run_spec ops (mq_new n) (q_new n) [] 0) as (m & q & out & E & R & H & _ & _ & bag & B & Pb); auto.
  { apply rel_new. } { done. }
  exists m, out, bag. split; [done|]. split; [done|]. rewrite (rel_empty _ _ R), q_empty_elems.
  split; intros Z; rewrite Z in Pb; [by apply Permutation_nil_r in Pb|]. by apply Permutation_nil_r.
Qed.

Lemma queue_overfull n ops x : pushes ops = n -> pops_ok 0 ops -> mq_run n (ops ++ [QPush x]) = Err UB.
Proof.
  intros L P. destruct (run_spec ops (mq_new n) (q_new n) [] 0) as (m & q & out & E & R & H & Sq & Cq & _); auto.
  { apply rel_new. } { done. } { simpl. lia. }
  unfold mq_run. rewrite foldM_app, E. simpl. pose proof (rel_emplace _ _ x R) as G. unfold q_emplace in G.
  rewrite decide_False in G by (simpl in *; lia). by rewrite G.
Qed.

Lemma before_trans a b c : before a b -> before b c -> before a c.
Proof. apply node_le_trans. Qed.
Lemma drain_behaves k : forall b out b', behaves (replicate k QPop) b out b' -> length b = k ->
  out ≡ₚ b /\ Sorted before out /\ b' = [].
Proof.
  induction k as [|k IH]; intros b out b' B L.
  - inversion B; subst. apply length_zero_iff_nil in L as ->. repeat split; constructor.
  - inversion B as [| |z ops b0 b1 out0 b0' H1 H2 H4]; subst. destruct (IH _ _ _ H4) as (P & S & ->).
    { apply Permutation_length in H1. simpl in H1. lia. }
    split; [by rewrite P|]. split; [|done]. constructor; [done|].
    destruct out0 as [|y out]; [constructor|]. constructor. apply H2. rewrite H1. right. rewrite <- P. left.
Qed.
Lemma push_behaves l : forall ops b out b', behaves (map QPush l ++ ops) b out b' -> exists c, c ≡ₚ l ++ b /\ behaves ops c out b'.
Proof.
  induction l as [|x l IH]; intros ops b out b' B; [by exists b|]. inversion B as [|? ? ? ? ? H3|]; subst.
  destruct (IH _ _ _ _ H3) as (c & P & C). exists c. split; [|done]. rewrite P. simpl. symmetry. apply Permutation_middle.
Qed.
Lemma pushes_map l ops : pushes (map QPush l ++ ops) = length l + pushes ops.
Proof. induction l; simpl; lia. Qed.
Lemma pushes_pops k : pushes (replicate k QPop) = 0.
Proof. induction k; simpl; done. Qed.
Lemma pops_ok_map l : forall k ops, pops_ok (k + length l) ops -> pops_ok k (map QPush l ++ ops).
Proof. induction l as [|x l IH]; intros k ops H; simpl; [by rewrite Nat.add_0_r in H|]. apply IH. simpl in H. by rewrite Nat.add_succ_r in H. Qed.
Lemma pops_ok_pops k : pops_ok k (replicate k QPop).
Proof. induction k; simpl; done. Qed.
Lemma queue_drain n l : length l <= n -> exists q out,
  mq_run n (map QPush l ++ replicate (length l) QPop) = Ok (q, out) /\ out ≡ₚ l /\ Sorted before out /\ mq_empty q = true.
Proof.
  intros L. destruct (queue_behaves n (map QPush l ++ replicate (length l) QPop)) as (q & out & bag & E & B & Em).
  - rewrite pushes_map, pushes_pops. lia.
  - apply pops_ok_map, pops_ok_pops.
  - apply push_behaves in B as (c & P & B). rewrite app_nil_r in P.
    apply drain_behaves in B as (P2 & S & ->); [|by rewrite P].
    exists q, out. split; [done|]. split; [by rewrite P2|]. split; [done|]. by apply Em.
Qed.
