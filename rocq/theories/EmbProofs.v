(** The embedding invariant and its preservation by the operations of EmbModel.v. *)
From stdpp Require Import base list numbers gmap fin_maps.
From Verif Require Import Base ChainModel ChainProofs ChainProofs2 EmbModel.
From Verif Require Export SpecEmb.
Local Open Scope Z_scope.
Global Arguments steal : simpl never.
Global Arguments link_path : simpl never.

Lemma adjq_sym pb x y : adjq pb x y -> adjq pb y x.
Proof. unfold adjq. tauto. Qed.

Definition sumind (cs : list chain) (q : nat) : Z := foldr (fun c a => ind c q + a) 0 cs.

Lemma sumind_insert cs v c c' q : cs !! v = Some c ->
  sumind (<[v:=c']> cs) q = sumind cs q - ind c q + ind c' q.
Proof.
  revert v. induction cs as [|d cs IH]; intros [|v]; simpl; try done.
  - intros [= ->]. lia.
  - intros H. rewrite IH by done. lia.
Qed.
Lemma ind_range c q : 0 <= ind c q <= 1.
Proof. unfold ind. destruct (ccount c q); lia. Qed.
Lemma sumind_nonneg cs q : 0 <= sumind cs q.
Proof. induction cs as [|c cs IH]; simpl; [lia|]. pose proof (ind_range c q). lia. Qed.
Lemma sumind_le cs q : sumind cs q <= Z.of_nat (length cs).
Proof. induction cs as [|c cs IH]; simpl; [lia|]. pose proof (ind_range c q). lia. Qed.
Lemma sumind_one cs v c q : cs !! v = Some c -> ind c q <= sumind cs q.
Proof.
  revert v. induction cs as [|d cs IH]; intros [|v]; simpl; try done.
  - intros [= ->]. pose proof (sumind_nonneg cs q). lia.
  - intros H. pose proof (ind_range d q). specialize (IH v H). lia.
Qed.
Lemma sumind_two cs u v c d q : cs !! u = Some c -> cs !! v = Some d -> u <> v ->
  ind c q + ind d q <= sumind cs q.
Proof.
  revert u v. induction cs as [|x cs IH]; intros [|u] [|v]; simpl; try done.
  - intros [= ->] H _. pose proof (sumind_one _ _ _ q H). lia.
  - intros H [= ->] _. pose proof (sumind_one _ _ _ q H). lia.
  - intros Hu Hv N. pose proof (ind_range x q). specialize (IH u v Hu Hv ltac:(congruence)). lia.
Qed.

Lemma foldM_ext {A S} (f g : S -> A -> res S) l s : (forall s x, f s x = g s x) -> foldM f l s = foldM g l s.
Proof. intros H. revert s. induction l as [|x l IH]; intros s; simpl; [done|]. rewrite H. destruct (g s x); simpl; auto. Qed.

(** a chain with exact counts is determined by its parents and links *)
Lemma chain_ext adj adj' c c' : cwf ex0 adj c -> cwf ex0 adj' c' -> pm c = pm c' -> clinks c = clinks c' -> c = c'.
Proof.
  intros W W' P K. destruct c as [d l], c' as [d' l']. simpl in K. subst l'. f_equal.
  apply map_eq. intros q.
  pose proof (f_equal (fun m => m !! q) P) as Q. unfold pm in Q. simpl in Q. rewrite !lookup_fmap in Q.
  destruct (d !! q) as [[p r]|] eqn:D, (d' !! q) as [[p' r']|] eqn:D'; simpl in Q; try done.
  injection Q as <-. f_equal. f_equal.
  rewrite (cwf_refs _ _ _ W _ _ _ D), (cwf_refs _ _ _ W' _ _ _ D'). simpl. by rewrite P.
Qed.

Lemma pm_empty : pm empty_chain = ∅.
Proof. unfold pm, empty_chain. simpl. apply fmap_empty. Qed.
Lemma cwf_empty adj : cwf ex0 adj empty_chain.
Proof.
  split.
  - intros q p r H. simpl in H. by rewrite lookup_empty in H.
  - intros x q H. simpl in H. by rewrite lookup_empty in H.
  - intros q. rewrite pm_empty, lookup_empty. by intros [? ?].
  - intros q p H. by rewrite pm_empty, lookup_empty in H.
Qed.
Lemma ind_empty q : ind empty_chain q = 0.
Proof. done. Qed.

Lemma csize_0 c : csize c = 0%nat <-> pm c = ∅.
Proof. rewrite <- size_pm. apply map_size_empty_iff. Qed.
Lemma csize_0_links adj c : cwf ex0 adj c -> csize c = 0%nat -> clinks c = ∅.
Proof.
  intros W H. apply csize_0 in H. apply map_empty. intros x.
  destruct (clinks c !! x) eqn:E; [|done].
  destruct (cwf_links _ _ _ W _ _ E) as [? X]. rewrite H in X. by rewrite lookup_empty in X.
Qed.
Lemma csize_pos c : csize c <> 0%nat <-> exists q, qin c q.
Proof.
  split.
  - intros H. destruct (map_choose (pm c)) as (q & p & E).
    { intros Z. apply H. by apply csize_0. }
    exists q. apply pm_is_Some. by eexists.
  - intros [q H]. by eapply qin_size.
Qed.

(** lists of weights with the same values are equal *)
Lemma wt_eq w w' : length w = length w' -> (forall q, wt w q = wt w' q) -> w = w'.
Proof.
  intros L H. apply list_eq. intros i. specialize (H i). unfold wt in H.
  destruct (w !! i) eqn:A, (w' !! i) eqn:B; simpl in *; try congruence.
  - apply lookup_lt_Some in A. apply lookup_ge_None in B. lia.
  - apply lookup_lt_Some in B. apply lookup_ge_None in A. lia.
Qed.

Lemma wadd_all_spec d l : forall w, (forall q, q ∈ l -> (q < length w)%nat) -> NoDup l ->
  exists w', wadd_all d l w = Ok w' /\ length w' = length w /\
    forall x, wt w' x = wt w x + if decide (x ∈ l) then d else 0.
Proof.
  induction l as [|q l IH]; intros w Hl ND.
  - exists w. split; [done|]. split; [done|]. intros x. rewrite decide_False; [lia|]. by apply not_elem_of_nil.
  - apply NoDup_cons in ND as [Nq ND].
    destruct (vadd_ok w q d) as (w1 & E1 & L1 & H1); [apply Hl; left|].
    destruct (IH w1) as (w2 & E2 & L2 & H2).
    { intros x Hx. rewrite L1. apply Hl. by right. } { done. }
    exists w2. split. { unfold wadd_all in *. simpl. rewrite E1. simpl. done. }
    split; [congruence|]. intros x. rewrite H2, H1.
    destruct (decide (x = q)) as [->|N].
    + rewrite (decide_False (P := q ∈ l)) by done. rewrite decide_True; [lia|left].
    + destruct (decide (x ∈ l)) as [Hx|Hx].
      * rewrite decide_True; [lia|by right].
      * rewrite decide_False; [lia|]. rewrite elem_of_cons. tauto.
Qed.

Lemma cqubits_in c q : q ∈ cqubits c <-> qin c q.
Proof.
  unfold cqubits, qin. rewrite elem_of_list_fmap. split.
  - intros ([x y] & -> & H). apply elem_of_map_to_list in H. by eexists.
  - intros [y H]. exists (q, y). split; [done|]. by apply elem_of_map_to_list.
Qed.
Lemma cqubits_nodup c : NoDup (cqubits c).
Proof. apply NoDup_fst_map_to_list. Qed.

Lemma wadd_chain_spec d c w : below c (length w) ->
  exists w', wadd_all d (cqubits c) w = Ok w' /\ length w' = length w /\
    forall x, wt w' x = wt w x + d * ind c x.
Proof.
  intros H. destruct (wadd_all_spec d (cqubits c) w) as (w' & E' & L & H').
  { intros q Hq. apply H. apply pm_is_Some. by apply cqubits_in. } { apply cqubits_nodup. }
  exists w'. split; [done|]. split; [done|]. intros x. rewrite H'.
  destruct (decide (x ∈ cqubits c)) as [Hx|Hx].
  - apply cqubits_in in Hx. rewrite (ind_in c x Hx). lia.
  - rewrite ind_out; [lia|]. destruct (cdata c !! x) eqn:D; [|done].
    exfalso. apply Hx, cqubits_in. by eexists.
Qed.

Lemma foldl_emplace_lookup {V} (l : list (nat * V)) : forall m k, NoDup l.*1 ->
  foldl (fun m '(v, q) => emplace v q m) m l !! k =
  match m !! k with Some x => Some x | None => (list_to_map l : gmap nat V) !! k end.
Proof.
  induction l as [|[v q] l IH]; intros m k ND; simpl.
  - by destruct (m !! k).
  - simpl in ND. apply NoDup_cons in ND as [Nv ND]. rewrite IH by done. unfold emplace.
    destruct (m !! v) eqn:Hv.
    + destruct (m !! k) eqn:Hk; [done|]. rewrite lookup_insert_ne; [done|congruence].
    + destruct (decide (k = v)) as [->|N].
      * by rewrite Hv, !lookup_insert.
      * by rewrite !lookup_insert_ne by done.
Qed.

Lemma sumind_ext cs cs' q : length cs = length cs' ->
  (forall v c c', cs !! v = Some c -> cs' !! v = Some c' -> ind c q = ind c' q) -> sumind cs q = sumind cs' q.
Proof.
  revert cs'. induction cs as [|c cs IH]; intros [|c' cs'] L H; simpl in *; try done.
  rewrite (H 0%nat c c') by done. rewrite (IH cs'); [done|lia|].
  intros v d d' Hd Hd'. by apply (H (S v)).
Qed.

(** The parents of the fixed chains, and a domain for each free variable *)
Record fixdom := mkFD { fd_map :> nat -> gmap nat nat; fd_dom : nat -> nat -> Prop }.
Definition anywhere (f : nat -> gmap nat nat) : fixdom := mkFD f (fun _ _ => True).

Section emb.
Context (pb : problem) (E : nat -> nat -> Prop) (F : fixdom).
Notation adj := (adjq pb).

(** a qubit that is no reserved one and lies in the domain of [v] *)
Definition home (v q : nat) : Prop := (q < nq pb)%nat /\ fd_dom F v q.
(** where searches and exchanges may extend a chain of [v] *)
Definition reachable (v q : nat) : Prop := may_use pb v q \/ exists w, E v w /\ may_use pb w q.

Record einv (e : emb) : Prop := {
  ei_len : length (chains e) = (nv pb + nf pb)%nat;
  ei_wlen : length (eweight e) = (nq pb + nr pb)%nat;
  ei_cwf : forall v c, chains e !! v = Some c -> cwf ex0 adj c;
  ei_home : forall v c q, chains e !! v = Some c -> qin c q -> (v < nv pb)%nat -> home v q;
  ei_below : forall v c, chains e !! v = Some c -> below c (nq pb + nr pb);
  ei_link : forall u v cu q, chains e !! u = Some cu -> u <> v -> clinks cu !! v = Some q ->
     (E u v \/ E v u) /\
     exists cv p, chains e !! v = Some cv /\ clinks cv !! u = Some p /\ (q = p \/ adj q p);
  ei_root : forall u cu r, chains e !! u = Some cu -> clinks cu !! u = Some r -> rooted_at cu r;
  ei_fix : forall v c, chains e !! v = Some c -> (nv pb <= v)%nat -> pm c = F v;
  ei_area : forall v q, (v < nv pb)%nat -> (q < nq pb)%nat -> reachable v q -> fd_dom F v q
}.
Lemma ei_bound e : einv e -> forall v c q, chains e !! v = Some c -> qin c q -> (v < nv pb)%nat -> (q < nq pb)%nat.
Proof. intros I v c q Hc Hq Hv. by destruct (ei_home e I v c q Hc Hq Hv). Qed.

Definition wexact (e : emb) : Prop := forall q, wt (eweight e) q = sumind (chains e) q.

Definition nonempty (e : emb) (v : nat) : Prop := exists c, chains e !! v = Some c /\ csize c <> 0%nat.
Definition linkedto (e : emb) (u v : nat) : Prop := exists c, chains e !! u = Some c /\ is_Some (clinks c !! v).

Lemma ei_get e v : einv e -> (v < nv pb + nf pb)%nat -> exists c, chains e !! v = Some c.
Proof. intros I H. apply lookup_lt_is_Some_2. by rewrite ei_len. Qed.
Lemma ei_lt e v c : einv e -> chains e !! v = Some c -> (v < nv pb + nf pb)%nat.
Proof. intros I H. rewrite <- (ei_len e I). by eapply lookup_lt_Some. Qed.

Lemma linkedto_nonempty e u v : einv e -> linkedto e u v -> nonempty e u.
Proof.
  intros I (c & Hc & q & Hq). exists c. split; [done|]. apply (qin_size c q). apply pm_is_Some.
  by eapply cwf_links; [eapply ei_cwf|].
Qed.
Lemma linkedto_sym e u v : einv e -> u <> v -> linkedto e u v -> linkedto e v u.
Proof.
  intros I N (c & Hc & q & Hq). destruct (ei_link _ I _ _ _ _ Hc N Hq) as (_ & cv & p & Hv & Hp & _).
  exists cv. split; [done|by eexists].
Qed.

Lemma ei_below_w e v c : einv e -> chains e !! v = Some c -> below c (length (eweight e)).
Proof. intros I H. rewrite (ei_wlen e I). by eapply ei_below. Qed.

(** the state after the chain of [u] and all links to it are removed *)
Definition torn (e : emb) (u : nat) (e' : emb) : Prop :=
  length (chains e') = length (chains e) /\ length (eweight e') = length (eweight e) /\
  chains e' !! u = Some empty_chain /\
  (forall v c, v <> u -> chains e !! v = Some c -> exists c', chains e' !! v = Some c' /\
     cwf ex0 adj c' /\ pm c' = pm c /\ clinks c' = delete u (clinks c)) /\
  (forall c, chains e !! u = Some c -> forall x, wt (eweight e') x = wt (eweight e) x - ind c x).

Lemma torn_inv_lookup e u e' v c' : torn e u e' -> v <> u -> chains e' !! v = Some c' ->
  exists c, chains e !! v = Some c /\ cwf ex0 adj c' /\ pm c' = pm c /\ clinks c' = delete u (clinks c).
Proof.
  intros (L & _ & _ & H & _) N Hv.
  destruct (lookup_lt_is_Some_2 (chains e) v) as [c Hc].
  { rewrite <- L. by eapply lookup_lt_Some. }
  exists c. split; [done|]. destruct (H v c N Hc) as (c2 & Hc2 & ?). congruence.
Qed.

Lemma torn_einv e u e' : einv e -> (u < nv pb)%nat -> torn e u e' -> einv e'.
Proof.
  intros I Hu T. pose proof T as (L & LW & HU & HV & HW). split.
  - by rewrite L, (ei_len _ I).
  - by rewrite LW, (ei_wlen _ I).
  - intros v c Hc. destruct (decide (v = u)) as [->|N].
    + rewrite HU in Hc. injection Hc as <-. apply cwf_empty.
    + by destruct (torn_inv_lookup _ _ _ _ _ T N Hc) as (? & _ & ? & _).
  - intros v c q Hc Hq Hv. destruct (decide (v = u)) as [->|N].
    + rewrite HU in Hc. injection Hc as <-. by destruct Hq.
    + destruct (torn_inv_lookup _ _ _ _ _ T N Hc) as (c0 & H0 & _ & P & _).
      eapply (ei_home _ I v c0); [done| |done]. apply pm_is_Some. rewrite <- P. by apply pm_is_Some.
  - intros v c Hc. destruct (decide (v = u)) as [->|N].
    + rewrite HU in Hc. injection Hc as <-. intros q. rewrite pm_empty, lookup_empty. by intros [? ?].
    + destruct (torn_inv_lookup _ _ _ _ _ T N Hc) as (c0 & H0 & _ & P & _).
      intros q. rewrite P. by apply (ei_below _ I v c0).
  - intros a b ca q Ha Nab Hl. destruct (decide (a = u)) as [->|Na].
    { rewrite HU in Ha. injection Ha as <-. done. }
    destruct (torn_inv_lookup _ _ _ _ _ T Na Ha) as (c0 & H0 & _ & P & K).
    rewrite K in Hl. apply lookup_delete_Some in Hl as [Nb Hl].
    destruct (ei_link _ I _ _ _ _ H0 Nab Hl) as (EE & cv & p & Hv & Hp & HA).
    split; [done|]. destruct (HV b cv (not_eq_sym Nb) Hv) as (cv' & Hv' & _ & _ & K').
    exists cv', p. split; [done|]. split; [|done]. rewrite K', lookup_delete_ne by done. done.
  - intros a ca r Ha Hr. destruct (decide (a = u)) as [->|Na].
    { rewrite HU in Ha. injection Ha as <-. done. }
    destruct (torn_inv_lookup _ _ _ _ _ T Na Ha) as (c0 & H0 & _ & P & K).
    rewrite K in Hr. apply lookup_delete_Some in Hr as [_ Hr].
    unfold rooted_at. rewrite P. by apply (ei_root _ I _ _ _ H0).
  - intros v c Hc Hv. assert (v <> u) as N by lia.
    destruct (torn_inv_lookup _ _ _ _ _ T N Hc) as (c0 & H0 & _ & P & _).
    rewrite P. by apply (ei_fix _ I v c0).
  - apply I.
Qed.


Lemma torn_wexact e u e' : wexact e -> torn e u e' -> is_Some (chains e !! u) -> wexact e'.
Proof.
  intros X T [c Hc] q. pose proof T as (L & LW & HU & HV & HW).
  rewrite (HW c Hc), (X q).
  rewrite (sumind_ext (chains e') (<[u:=empty_chain]> (chains e))).
  - rewrite (sumind_insert _ _ _ _ _ Hc), ind_empty. lia.
  - by rewrite insert_length.
  - intros v d d' Hd Hd'. destruct (decide (v = u)) as [->|N].
    + rewrite list_lookup_insert in Hd' by (by eapply lookup_lt_Some). congruence.
    + rewrite list_lookup_insert_ne in Hd' by done.
      destruct (HV v d' N Hd') as (c' & Hc' & _ & P & _). assert (c' = d) as -> by congruence.
      by apply ind_pm.
Qed.

(** two tear-outs of [u] from embeddings that agree outside [u] agree *)
Lemma torn_unique e1 e2 u e1' e2' :
  length (chains e1) = length (chains e2) ->
  (forall v c1 c2, v <> u -> chains e1 !! v = Some c1 -> chains e2 !! v = Some c2 ->
     pm c1 = pm c2 /\ delete u (clinks c1) = delete u (clinks c2)) ->
  torn e1 u e1' -> torn e2 u e2' -> chains e1' = chains e2'.
Proof.
  intros L H T1 T2. apply list_eq. intros v.
  destruct (decide (v = u)) as [->|N].
  { destruct T1 as (_ & _ & -> & _), T2 as (_ & _ & -> & _). done. }
  destruct (chains e1 !! v) as [c1|] eqn:H1.
  - destruct (lookup_lt_is_Some_2 (chains e2) v) as [c2 H2].
    { rewrite <- L. by eapply lookup_lt_Some. }
    destruct T1 as (_ & _ & _ & T1 & _), T2 as (_ & _ & _ & T2 & _).
    destruct (T1 _ _ N H1) as (c1' & -> & W1 & P1 & K1).
    destruct (T2 _ _ N H2) as (c2' & -> & W2 & P2 & K2).
    destruct (H _ _ _ N H1 H2) as [HP HK]. f_equal.
    eapply chain_ext; eauto; congruence.
  - destruct T1 as (L1 & _), T2 as (L2 & _). apply lookup_ge_None in H1.
    rewrite !lookup_ge_None_2; [done|lia|lia].
Qed.

Lemma wexact_det e1 e2 : wexact e1 -> wexact e2 -> length (eweight e1) = length (eweight e2) ->
  chains e1 = chains e2 -> eweight e1 = eweight e2.
Proof. intros X1 X2 L C. apply wt_eq; [done|]. intros q. by rewrite X1, X2, C. Qed.

(** ** tear_out *)
Lemma tear_out_spec vn e u l : einv e -> (u < nv pb)%nat -> vn !! u = Some l ->
  (forall v, v ∈ l -> v <> u /\ (v < nv pb + nf pb)%nat) ->
  (forall v, E u v \/ E v u -> v <> u -> v ∈ l) -> NoDup l ->
  exists e', tear_out vn e u = Ok e' /\ torn e u e' /\ efrozen e' = efrozen e.
Proof.
  intros I Hu Hl Hr HE ND. unfold tear_out, on_chain.
  destruct (ei_get e u I) as [c Hc]; [lia|].
  rewrite (vget_ok _ _ _ Hc). simpl. unfold clear.
  destruct (wadd_chain_spec (-1) c (eweight e)) as (w' & -> & Lw & Hw); [by eapply ei_below_w|].
  simpl. rewrite vset_ok by (by eapply lookup_lt_Some). simpl.
  rewrite (vget_ok _ _ _ Hl). simpl.
  set (e1 := mkEmb (<[u:=empty_chain]> (chains e)) w' (efrozen e)).
  destruct (foldM_inv (fun e v => on_links e v (fun c => let! (_, c) := drop_link c u in Ok c))
    (fun done e' => length (chains e') = length (chains e) /\ eweight e' = w' /\ efrozen e' = efrozen e /\
       chains e' !! u = Some empty_chain /\
       (forall v, v <> u -> v ∉ done -> chains e' !! v = chains e !! v) /\
       (forall v c, v <> u -> v ∈ done -> chains e !! v = Some c -> exists c', chains e' !! v = Some c' /\
          cwf ex0 adj c' /\ pm c' = pm c /\ clinks c' = delete u (clinks c))) l e1)
    as (e2 & E2 & L2 & W2 & F2 & U2 & N2 & V2).
  - split; [by apply insert_length|]. split; [done|]. split; [done|].
    split; [by apply list_lookup_insert; eapply lookup_lt_Some|].
    split; [|intros v ? _ Hv; by apply elem_of_nil in Hv].
    intros v N _. by apply list_lookup_insert_ne.
  - intros dn v rest e' -> (L2 & W2 & F2 & U2 & N2 & V2).
    assert (Hv : v ∈ dn ++ v :: rest) by (apply elem_of_app; right; left).
    destruct (Hr v Hv) as [Nvu Hvr].
    assert (Hvd : v ∉ dn).
    { apply NoDup_app in ND as (_ & ND & _). intros Hd. apply (ND v Hd). left. }
    unfold on_links. destruct (ei_get e v I Hvr) as [cv Hcv].
    rewrite (vget_ok _ _ cv); [|by rewrite N2]. simpl.
    destruct (drop_link_spec ex0 adj cv u (ei_cwf _ I _ _ Hcv)) as (cv' & -> & Wv & Pv & Kv). simpl.
    rewrite vset_ok; [|rewrite L2; by eapply lookup_lt_Some]. simpl. eexists; split; [done|].
    simpl. split; [by rewrite insert_length|]. split; [done|]. split; [done|].
    split; [by rewrite list_lookup_insert_ne|]. split.
    + intros v' Nv Hd. assert (v' <> v). { intros ->. apply Hd, elem_of_app. right; left. }
      rewrite list_lookup_insert_ne by done. apply N2; [done|]. intros ?. apply Hd, elem_of_app. by left.
    + intros v' c' Nv Hd Hc'. destruct (decide (v' = v)) as [->|N'].
      * exists cv'. assert (c' = cv) as -> by congruence. split; [|done].
        apply list_lookup_insert. rewrite L2. by eapply lookup_lt_Some.
      * rewrite list_lookup_insert_ne by done. apply V2; [done| |done].
        apply elem_of_app in Hd as [?|Hd]; [done|]. by apply elem_of_list_singleton in Hd.
  - exists e2. split; [done|]. split; [|done]. split; [done|]. split; [by rewrite W2|].
    split; [done|]. split.
    + intros v cv N Hcv. destruct (decide (v ∈ l)) as [Hvl|Hvl]; [by apply V2|].
      exists cv. split; [by rewrite N2|]. split; [by eapply ei_cwf|]. split; [done|].
      symmetry. apply delete_notin. destruct (clinks cv !! u) eqn:K; [|done].
      exfalso. apply Hvl. destruct (ei_link _ I v u cv n Hcv N K) as [EE _]. apply HE; [tauto|done].
    + intros c0 Hc0 x. rewrite W2, Hw. assert (c0 = c) as -> by congruence. lia.
Qed.

(** ** freeze and thaw *)
Definition frozen_of (e : emb) (u : nat) (k : frozen_chain) : Prop :=
  exists c, chains e !! u = Some c /\ fdata k = cdata c /\ flinks k = clinks c /\
    forall v oq, fback k !! v = Some oq <->
      v <> u /\ is_Some (clinks c !! v) /\
      exists cv p, chains e !! v = Some cv /\ clinks cv !! u = Some p /\ oq = Some p.

Lemma freeze_out_spec e u : einv e -> (u < nv pb)%nat ->
  exists n e', freeze_out e u = Ok (n, e') /\ torn e u e' /\ frozen_of e u (efrozen e') /\ chainsize e u = Ok n.
Proof.
  intros I Hu. unfold freeze_out, freeze, chainsize.
  destruct (ei_get e u I) as [c Hc]; [lia|].
  rewrite (vget_ok _ _ _ Hc). simpl.
  set (step := fun '(cs, back) '(v, _) => _).
  destruct (foldM_inv step
    (fun dn '(cs, back) => length cs = length (chains e) /\ cs !! u = Some c /\
       (forall v, v <> u -> v ∉ dn.*1 -> cs !! v = chains e !! v /\ (back : gmap nat (option nat)) !! v = None) /\
       back !! u = None /\
       (forall v, v <> u -> v ∈ dn.*1 -> exists cv cv' p, chains e !! v = Some cv /\ cs !! v = Some cv' /\
          clinks cv !! u = Some p /\ back !! v = Some (Some p) /\
          cwf ex0 adj cv' /\ pm cv' = pm cv /\ clinks cv' = delete u (clinks cv)))
    (map_to_list (clinks c)) (chains e, ∅)) as ([cs back] & -> & L2 & U2 & N2 & BU & V2).
  - split; [done|]. split; [done|]. split; [intros; split; [done|apply lookup_empty]|].
    split; [apply lookup_empty|]. intros v _ Hv. by apply elem_of_nil in Hv.
  - intros dn [v lq] rest [cs back] Hl (L2 & U2 & N2 & BU & V2). subst step. simpl.
    assert (Hlk : clinks c !! v = Some lq).
    { apply elem_of_map_to_list. rewrite Hl. apply elem_of_app. right; left. }
    assert (Hvd : v ∉ dn.*1).
    { pose proof (NoDup_fst_map_to_list (clinks c)) as ND. rewrite Hl, fmap_app in ND. simpl in ND.
      apply NoDup_app in ND as (_ & ND & _). intros Hd. apply (ND v Hd). left. }
    case_decide as Hvu.
    { subst v. eexists; split; [done|]. simpl. split; [done|]. split; [done|].
      rewrite fmap_app; simpl. split.
      { intros v N Hv. apply N2; [done|]. intros ?. apply Hv, elem_of_app. by left. }
      split; [done|]. intros v N Hv. apply V2; [done|].
      apply elem_of_app in Hv as [?|Hv]; [done|]. by apply elem_of_list_singleton in Hv. }
    destruct (ei_link _ I u v c lq Hc (not_eq_sym Hvu) Hlk) as (_ & cv & p & Hcv & Hp & _).
    destruct (N2 v Hvu Hvd) as [Hcs Hbk]. rewrite (vget_ok _ _ cv) by (by rewrite Hcs). simpl.
    destruct (drop_link_some ex0 adj cv u p (ei_cwf _ I _ _ Hcv) Hp) as (cv' & -> & Wv & Pv & Kv). simpl.
    rewrite vset_ok; [|rewrite L2; by eapply lookup_lt_Some]. simpl.
    eexists; split; [done|]. simpl. split; [by rewrite insert_length|].
    split; [by rewrite list_lookup_insert_ne|]. rewrite fmap_app; simpl.
    assert (Eb : emplace v (Some p) back = <[v:=Some p]> back). { unfold emplace. by rewrite Hbk. }
    rewrite Eb. split.
    + intros v' N' Hv'. assert (v' <> v). { intros ->. apply Hv', elem_of_app. right; left. }
      rewrite list_lookup_insert_ne, lookup_insert_ne by done. apply N2; [done|].
      intros ?. apply Hv', elem_of_app. by left.
    + split; [by rewrite lookup_insert_ne|]. intros v' N' Hv'.
      destruct (decide (v' = v)) as [->|N].
      * exists cv, cv', p. split; [done|]. split; [apply list_lookup_insert; rewrite L2; by eapply lookup_lt_Some|].
        rewrite lookup_insert. done.
      * apply elem_of_app in Hv' as [Hv'|Hv']; [|by apply elem_of_list_singleton in Hv'].
        destruct (V2 v' N' Hv') as (a & b & q & ?). exists a, b, q.
        rewrite list_lookup_insert_ne, lookup_insert_ne by done. done.
  - simpl. destruct (wadd_chain_spec (-1) c (eweight e)) as (w' & -> & Lw & Hw); [by eapply ei_below_w|]. simpl.
    rewrite vset_ok; [|rewrite L2; by eapply lookup_lt_Some]. simpl.
    assert (Hdom : forall v, v ∈ (map_to_list (clinks c)).*1 <-> is_Some (clinks c !! v)).
    { intros v. rewrite elem_of_list_fmap. split.
      - intros ([x y] & -> & H). apply elem_of_map_to_list in H. by eexists.
      - intros [y H]. exists (v, y). split; [done|]. by apply elem_of_map_to_list. }
    eexists _, _. split; [done|]. split; [|split; [|done]].
    + split; [by simpl; rewrite insert_length|]. split; [done|].
      split; [simpl; apply list_lookup_insert; rewrite L2; by eapply lookup_lt_Some|]. simpl. split.
      * intros v cv N Hcv. rewrite list_lookup_insert_ne by done.
        destruct (decide (v ∈ (map_to_list (clinks c)).*1)) as [Hv|Hv].
        -- destruct (V2 v N Hv) as (a & b & q & Ha & Hb & _ & _ & ?). exists b.
           assert (a = cv) as -> by congruence. done.
        -- destruct (N2 v N Hv) as [Hcs _]. exists cv. split; [by rewrite Hcs|]. split; [by eapply ei_cwf|].
           split; [done|]. symmetry. apply delete_notin. destruct (clinks cv !! u) eqn:K; [|done].
           exfalso. apply Hv, Hdom. destruct (ei_link _ I v u cv n Hcv N K) as (_ & c2 & p & Hc2 & Hp & _).
           assert (c2 = c) as -> by congruence. by eexists.
      * intros c0 Hc0 x. rewrite Hw. assert (c0 = c) as -> by congruence. lia.
    + exists c. split; [done|]. simpl. split; [done|]. split; [done|]. intros v oq. split.
      * intros Hb. assert (v <> u) as N by congruence.
        destruct (decide (v ∈ (map_to_list (clinks c)).*1)) as [Hv|Hv].
        -- split; [done|]. split; [by apply Hdom|].
           destruct (V2 v N Hv) as (a & b & q & Ha & _ & Hq & Hbk & _). exists a, q. split; [done|]. split; [done|]. congruence.
        -- destruct (N2 v N Hv) as [_ Hbk]. congruence.
      * intros (N & Hl & cv & p & Hcv & Hp & ->). apply Hdom in Hl.
        destruct (V2 v N Hl) as (a & b & q & Ha & _ & Hq & Hbk & _). assert (a = cv) as -> by congruence. congruence.
Qed.

Lemma thaw_back_spec e0 e u : einv e0 -> (u < nv pb)%nat -> torn e0 u e -> frozen_of e0 u (efrozen e) ->
  exists e', thaw_back e u = Ok e' /\ chains e' = chains e0 /\ eweight e' = eweight e0.
Proof.
  intros I Hu T (c & Hc & Hd & Hk & Hb). pose proof T as (L & LW & HU & HV & HW).
  unfold thaw_back. rewrite (vget_ok _ _ _ HU). simpl. unfold thaw. rewrite (vget_ok _ _ _ HU). simpl.
  rewrite Hd. destruct (wadd_chain_spec 1 c (eweight e)) as (w' & Ew & Lw & Hw).
  { rewrite LW. by eapply ei_below_w. }
  unfold cqubits in Ew. rewrite Ew. simpl.
  rewrite vset_ok by (by eapply lookup_lt_Some). simpl. rewrite Hk.
  assert (Efl : foldl (fun m '(v, q) => emplace v q m) ∅ (map_to_list (clinks c)) = clinks c).
  { apply map_eq. intros k. rewrite foldl_emplace_lookup by apply NoDup_fst_map_to_list.
    by rewrite lookup_empty, list_to_map_to_list. }
  rewrite Efl.
  assert (Ec : mkChain (cdata c) (clinks c) = c) by (by destruct c). rewrite Ec.
  set (step := fun cs '(v, oq) => _).
  destruct (foldM_inv step
    (fun dn cs => length cs = length (chains e) /\ cs !! u = Some c /\
       (forall v, v <> u -> v ∉ dn.*1 -> cs !! v = chains e !! v) /\
       (forall v, v <> u -> v ∈ dn.*1 -> cs !! v = chains e0 !! v))
    (map_to_list (fback (efrozen e))) (<[u:=c]> (chains e))) as (cs & -> & L2 & U2 & N2 & V2).
  - split; [by rewrite insert_length|]. split; [apply list_lookup_insert; by eapply lookup_lt_Some|].
    split; [intros; by apply list_lookup_insert_ne|]. intros v _ Hv. by apply elem_of_nil in Hv.
  - intros dn [v oq] rest cs Hl (L2 & U2 & N2 & V2). subst step. simpl.
    assert (Hlk : fback (efrozen e) !! v = Some oq).
    { apply elem_of_map_to_list. rewrite Hl. apply elem_of_app. right; left. }
    assert (Hvd : v ∉ dn.*1).
    { pose proof (NoDup_fst_map_to_list (fback (efrozen e))) as ND. rewrite Hl, fmap_app in ND. simpl in ND.
      apply NoDup_app in ND as (_ & ND & _). intros Hd'. apply (ND v Hd'). left. }
    apply Hb in Hlk as (N & _ & cv & p & Hcv & Hp & ->).
    destruct (HV v cv N Hcv) as (cv' & Hcv' & Wv & Pv & Kv).
    rewrite (vget_ok _ _ cv') by (by rewrite N2). simpl.
    destruct (set_link_spec ex0 adj cv' u p Wv) as (cv2 & -> & W2 & P2 & K2).
    { by rewrite Kv, lookup_delete. }
    { rewrite Pv. eapply cwf_links; [|exact Hp]. by eapply ei_cwf. }
    simpl. assert (cv2 = cv) as ->.
    { eapply chain_ext; [exact W2|eapply ei_cwf; eauto|congruence|].
      rewrite K2, Kv. by rewrite insert_delete. }
    rewrite vset_ok; [|rewrite L2; by eapply lookup_lt_Some].
    eexists; split; [done|]. split; [by rewrite insert_length|].
    split; [by rewrite list_lookup_insert_ne|]. rewrite fmap_app; simpl. split.
    + intros v' N' Hv'. assert (v' <> v). { intros ->. apply Hv', elem_of_app. right; left. }
      rewrite list_lookup_insert_ne by done. apply N2; [done|]. intros ?. apply Hv', elem_of_app. by left.
    + intros v' N' Hv'. destruct (decide (v' = v)) as [->|N''].
      * rewrite Hcv. apply list_lookup_insert. rewrite L2. by eapply lookup_lt_Some.
      * rewrite list_lookup_insert_ne by done. apply V2; [done|].
        apply elem_of_app in Hv' as [Hv'|Hv']; [done|]. by apply elem_of_list_singleton in Hv'.
  - simpl. eexists. split; [done|]. simpl. split.
    + apply list_eq. intros v. destruct (decide (v = u)) as [->|N]; [congruence|].
      destruct (decide (v ∈ (map_to_list (fback (efrozen e))).*1)) as [Hv|Hv]; [by apply V2|].
      rewrite N2 by done. destruct (chains e0 !! v) as [cv|] eqn:Hcv.
      * destruct (HV v cv N Hcv) as (cv' & Hcv' & Wv & Pv & Kv). rewrite Hcv'. f_equal.
        eapply chain_ext; [exact Wv|eapply ei_cwf; eauto|done|].
        rewrite Kv. apply delete_notin. destruct (clinks cv !! u) as [p|] eqn:K; [|done].
        exfalso. apply Hv. apply elem_of_list_fmap. exists (v, Some p). split; [done|].
        apply elem_of_map_to_list, Hb. split; [done|]. split; [|eauto].
        destruct (ei_link _ I v u cv p Hcv N K) as (_ & c2 & p2 & Hc2 & Hp2 & _).
        assert (c2 = c) as -> by congruence. by eexists.
      * apply lookup_ge_None in Hcv. apply lookup_ge_None. lia.
    + apply wt_eq; [congruence|]. intros q. rewrite Hw, (HW c Hc). lia.
Qed.

(** ** replacing two linked chains *)
Definition set2 (cs : list chain) (u v : nat) (cu cv : chain) : list chain := <[v:=cv]> (<[u:=cu]> cs).
Lemma set2_v cs u v cu cv : (v < length cs)%nat -> set2 cs u v cu cv !! v = Some cv.
Proof. intros. unfold set2. apply list_lookup_insert. by rewrite insert_length. Qed.
Lemma set2_u cs u v cu cv : u <> v -> (u < length cs)%nat -> set2 cs u v cu cv !! u = Some cu.
Proof. intros. unfold set2. rewrite list_lookup_insert_ne by done. by apply list_lookup_insert. Qed.
Lemma set2_ne cs u v cu cv a : a <> u -> a <> v -> set2 cs u v cu cv !! a = cs !! a.
Proof. intros. unfold set2. by rewrite !list_lookup_insert_ne. Qed.

Record upd2 (u v : nat) (cu cv cu' cv' : chain) (q p : nat) : Prop := {
  u2_cwfu : cwf ex0 adj cu';
  u2_cwfv : cwf ex0 adj cv';
  u2_bu : forall x, qin cu' x -> (x < nq pb + nr pb)%nat /\ ((u < nv pb)%nat -> home u x);
  u2_bv : forall x, qin cv' x -> (x < nq pb + nr pb)%nat /\ ((v < nv pb)%nat -> home v x);
  u2_lu : clinks cu' = <[v:=q]> (clinks cu);
  u2_lv : clinks cv' = <[u:=p]> (clinks cv);
  u2_qp : q = p \/ adj q p;
  u2_E : E u v \/ E v u;
  u2_ru : forall r, rooted_at cu r -> rooted_at cu' r;
  u2_rv : forall r, rooted_at cv r -> rooted_at cv' r;
  u2_fu : (nv pb <= u)%nat -> pm cu' = pm cu;
  u2_fv : (nv pb <= v)%nat -> pm cv' = pm cv
}.

Lemma einv_two e u v cu cv cu' cv' q p w' fr : einv e -> u <> v ->
  chains e !! u = Some cu -> chains e !! v = Some cv -> upd2 u v cu cv cu' cv' q p ->
  length w' = length (eweight e) -> einv (mkEmb (set2 (chains e) u v cu' cv') w' fr).
Proof.
  intros I N Hu Hv [A1 A2 B1 B2 L1 L2 QP EE R1 R2 F1 F2] LW.
  assert (Lu : (u < length (chains e))%nat) by (by eapply lookup_lt_Some).
  assert (Lv : (v < length (chains e))%nat) by (by eapply lookup_lt_Some).
  set (cs := set2 (chains e) u v cu' cv').
  assert (Gu : cs !! u = Some cu') by (by apply set2_u).
  assert (Gv : cs !! v = Some cv') by (by apply set2_v).
  assert (Gn : forall a, a <> u -> a <> v -> cs !! a = chains e !! a) by (intros; by apply set2_ne).
  assert (cases : forall a c, cs !! a = Some c ->
     (a = u /\ c = cu') \/ (a = v /\ c = cv') \/ (a <> u /\ a <> v /\ chains e !! a = Some c)).
  { intros a c Ha. destruct (decide (a = u)) as [->|]; [left; split; congruence|].
    destruct (decide (a = v)) as [->|]; [right; left; split; congruence|].
    right; right. split; [done|]. split; [done|]. by rewrite <- Gn. }
  split; simpl.
  - unfold cs, set2. rewrite !insert_length. apply I.
  - rewrite LW. apply I.
  - intros a c Ha. destruct (cases a c Ha) as [[-> ->]|[[-> ->]|(_ & _ & H)]]; auto. by eapply ei_cwf.
  - intros a c x Ha Hx Hlt. destruct (cases a c Ha) as [[-> ->]|[[-> ->]|(_ & _ & H)]].
    + by apply B1. + by apply B2. + by eapply ei_home.
  - intros a c Ha. destruct (cases a c Ha) as [[-> ->]|[[-> ->]|(_ & _ & H)]].
    + intros x Hx. apply B1. by apply pm_is_Some. + intros x Hx. apply B2. by apply pm_is_Some. + by eapply ei_below.
  - intros a b ca x Ha Nab Hl. destruct (cases a ca Ha) as [[-> ->]|[[-> ->]|(Na & Na' & H)]].
    + rewrite L1 in Hl. destruct (decide (b = v)) as [->|Nb].
      * rewrite lookup_insert in Hl. injection Hl as <-. split; [done|].
        exists cv', p. split; [done|]. split; [by rewrite L2, lookup_insert|done].
      * rewrite lookup_insert_ne in Hl by done. destruct (ei_link _ I _ _ _ _ Hu Nab Hl) as (Eab & cb & y & Hb & Hy & HA).
        split; [done|]. exists cb, y. rewrite Gn by done. done.
    + rewrite L2 in Hl. destruct (decide (b = u)) as [->|Nb].
      * rewrite lookup_insert in Hl. injection Hl as <-. split; [tauto|].
        exists cu', q. split; [done|]. split; [by rewrite L1, lookup_insert|].
        destruct QP as [->|QP]; [by left|right; by apply adjq_sym].
      * rewrite lookup_insert_ne in Hl by done. destruct (ei_link _ I _ _ _ _ Hv Nab Hl) as (Eab & cb & y & Hb & Hy & HA).
        split; [done|]. exists cb, y. rewrite Gn by done. done.
    + destruct (ei_link _ I _ _ _ _ H Nab Hl) as (Eab & cb & y & Hb & Hy & HA). split; [done|].
      destruct (decide (b = u)) as [->|Nb]; [|destruct (decide (b = v)) as [->|Nb']].
      * exists cu', y. split; [done|]. split; [|done]. rewrite L1, lookup_insert_ne by done.
        assert (cb = cu) as -> by congruence. done.
      * exists cv', y. split; [done|]. split; [|done]. rewrite L2, lookup_insert_ne by done.
        assert (cb = cv) as -> by congruence. done.
      * exists cb, y. rewrite Gn by done. done.
  - intros a ca r Ha Hr. destruct (cases a ca Ha) as [[-> ->]|[[-> ->]|(Na & Na' & H)]].
    + rewrite L1, lookup_insert_ne in Hr by done. apply R1. by eapply ei_root.
    + rewrite L2, lookup_insert_ne in Hr by done. apply R2. by eapply ei_root.
    + by eapply ei_root.
  - intros a ca Ha Hf. destruct (cases a ca Ha) as [[-> ->]|[[-> ->]|(Na & Na' & H)]].
    + rewrite F1 by done. by eapply ei_fix.
    + rewrite F2 by done. by eapply ei_fix.
    + by eapply ei_fix.
  - apply I.
Qed.

Lemma wexact_two e u v cu cv cu' cv' w' fr : wexact e -> u <> v ->
  chains e !! u = Some cu -> chains e !! v = Some cv ->
  (forall x, wt w' x = wt (eweight e) x + ind cu' x - ind cu x + ind cv' x - ind cv x) ->
  wexact (mkEmb (set2 (chains e) u v cu' cv') w' fr).
Proof.
  intros X N Hu Hv H q. simpl. rewrite H. unfold set2.
  rewrite (sumind_insert _ v cv). 2: by rewrite list_lookup_insert_ne.
  rewrite (sumind_insert _ u cu) by done. rewrite X. lia.
Qed.

Lemma on_two_ok e u v cu cv f cu' cv' w' : u <> v -> chains e !! u = Some cu -> chains e !! v = Some cv ->
  f cu cv (eweight e) = Ok (cu', cv', w') ->
  on_two e u v f = Ok (mkEmb (set2 (chains e) u v cu' cv') w' (efrozen e)).
Proof.
  intros N Hu Hv Hf. unfold on_two. rewrite (vget_ok _ _ _ Hu), (vget_ok _ _ _ Hv). simpl. rewrite Hf. simpl.
  rewrite vset_ok by (by eapply lookup_lt_Some). simpl.
  rewrite vset_ok; [done|]. rewrite insert_length. by eapply lookup_lt_Some.
Qed.
End emb.
