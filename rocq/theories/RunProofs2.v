(** The search for a shorter chain (find_short_chain) keeps the embedding well formed. *)
From stdpp Require Import base list numbers gmap.

From Verif Require Import Base ChainModel ChainProofs ChainProofs2 EmbModel Spec SpecEmb EmbProofs EmbProofs2
  EmbProofs3 EmbProofs4 EmbOps EmbProofs7 QueueModel PathModel QueueProofs Wp SpecPath DijkProofs PrepProofs RunProofs1.
Local Open Scope Z_scope.

(** number of lists containing [q] *)
Definition occ (pops : list (list nat)) (q : nat) : nat := length (filter (fun l => q ∈ l) pops).

Lemma occ_insert pops vi pl q q' : pops !! vi = Some pl -> q ∉ pl ->
  occ (<[vi:=pl ++ [q]]> pops) q' = (occ pops q' + if decide (q' = q) then 1 else 0)%nat.
Proof.
  unfold occ. revert vi. induction pops as [|a pops IH]; intros [|vi] H N; simpl in *; try done.
  - injection H as ->. rewrite !filter_cons. destruct (decide (q' = q)) as [->|Ne].
    + rewrite decide_True by (apply elem_of_app; right; left). rewrite decide_False by done. simpl. lia.
    + destruct (decide (q' ∈ pl)) as [Hi|Hi].
      * rewrite decide_True by (apply elem_of_app; by left). simpl. lia.
      * rewrite decide_False; [lia|]. intros [?|Hx]%elem_of_app; [done|]. by apply elem_of_list_singleton in Hx.
  - rewrite !filter_cons. destruct (decide (q' ∈ a)); simpl; rewrite (IH vi) by done; lia.
Qed.
Lemma occ_full pops q : occ pops q = length pops -> forall pl, pl ∈ pops -> q ∈ pl.
Proof.
  unfold occ. induction pops as [|a pops IH]; intros H pl Hp; [by apply elem_of_nil in Hp|].
  rewrite filter_cons in H. destruct (decide (q ∈ a)) as [Ha|Ha]; simpl in H.
  - apply elem_of_cons in Hp as [->|Hp]; [done|]. apply IH; [lia|done].
  - exfalso. pose proof (filter_length (fun l => q ∈ l) pops). lia.
Qed.
Lemma occ_nil n q : occ (replicate n []) q = 0%nat.
Proof. unfold occ. induction n; [done|]. simpl. rewrite filter_cons, decide_False; [done|]. apply not_elem_of_nil. Qed.

Section short.
Context (sf : bool) (e : env) (E : nat -> nat -> Prop) (F : fixdom).
Notation P := (pb e).
Context (PW : pb_wf P) (MN : even_areas P E) (Hq0 : (0 < nq P)%nat) (Hqm : Z.of_nat (nq P) <= max_distance).
Context (Hfix : forall v q, (nv P <= v < nv P + nf P)%nat -> is_Some (F v !! q) -> (nq P <= q < nq P + nr P)%nat).
Notation einv := (einv P E F).
Notation placed := (placed e E F).

Lemma placed_chains T T' u lim em : chains T' = chains T -> placed T' u lim em -> placed T u lim em.
Proof.
  clear PW MN Hq0 Hqm Hfix.
  intros C []. unfold nonempty, linkedto in *. rewrite C in *. split; auto.
Qed.
Lemma placed_same T u lim em em' : placed T u lim em -> chains em' = chains em -> eweight em' = eweight em -> placed T u lim em'.
Proof.
  clear PW MN Hq0 Hqm Hfix.
  intros [] C W. split.
  - eapply einv_chains; eauto. by rewrite W.
  - by eapply wexact_chains.
  - unfold linkedto in *. by rewrite C.
  - unfold linkedto in *. by rewrite C.
  - unfold nonempty in *. by rewrite C.
  - unfold linkedto in *. by rewrite C.
  - by rewrite C.
Qed.
Lemma torn_same em u T T' : torn P em u T -> chains T' = chains T -> eweight T' = eweight T -> torn P em u T'.
Proof. unfold torn. intros H C W. by rewrite C, W. Qed.

(** tearing [u] out of a good embedding *)
Lemma torn_placed em u T (lim : nat -> Prop) : einv em -> wexact em -> (u < nv P)%nat -> torn P em u T -> linkedto em u u ->
  (forall v, E u v -> nonempty em v -> linkedto em u v) -> (forall v, E u v -> v <> u) ->
  (forall c x, chains em !! u = Some c -> qin c x -> lim x) -> placed T u lim em.
Proof.
  clear PW MN Hq0 Hqm Hfix.
  intros I W Hu Te Ls Lk Nl Hlim. destruct (ei_get _ _ _ _ u I) as [cu Hcu]; [lia|].
  assert (Ne : forall v, v <> u -> nonempty em v <-> nonempty T v).
  { intros v N. unfold nonempty. split.
    - intros (c & Hc & Hs). pose proof Te as (_ & _ & _ & H & _). destruct (H v c N Hc) as (c' & Hc' & _ & Pm & _).
      exists c'. split; [done|]. by rewrite <- size_pm, Pm, size_pm.
    - intros (c' & Hc' & Hs). destruct (torn_inv_lookup _ _ _ _ _ _ Te N Hc') as (c & Hc & _ & Pm & _).
      exists c. split; [done|]. by rewrite <- size_pm, <- Pm, size_pm. }
  split; auto.
  - intros v Ev N. apply Lk; [done|]. apply Ne; auto.
  - intros a b Na Nb. unfold linkedto. split.
    + intros (c & Hc & Hs). pose proof Te as (_ & _ & _ & H & _). destruct (H a c Na Hc) as (c' & Hc' & _ & _ & K).
      exists c'. split; [done|]. rewrite K, lookup_delete_ne by done. done.
    + intros (c' & Hc' & Hs). destruct (torn_inv_lookup _ _ _ _ _ _ Te Na Hc') as (c & Hc & _ & _ & K).
      exists c. split; [done|]. rewrite K, lookup_delete_ne in Hs by done. done.
  - intros x. pose proof (torn_wexact _ _ _ _ W Te (mk_is_Some _ _ Hcu)) as WT. pose proof (W x) as Wx.
    pose proof Te as (_ & _ & _ & _ & HW). pose proof (HW cu Hcu x) as Hx. rewrite (WT x), Wx in Hx.
    destruct (decide (qin cu x)) as [Hi|Hi].
    + right. rewrite (ind_in cu x Hi) in Hx. split; [lia|]. split; [|by eapply Hlim].
      eapply (ei_bound _ _ _ _ I); eauto.
    + left. rewrite (ind_out cu x) in Hx by (by apply eq_None_not_Some). lia.
Qed.

Context (T : emb) (u : nat) (IT : einv T) (WT : wexact T) (AT : absent T u) (Hu : (u < nv P)%nat).
Context (l : list nat) (HE : forall v, v ∈ l <-> E u v) (ND : NoDup l) (Hr : forall v, v ∈ l -> v <> u /\ (v < nv P + nf P)%nat).
Context (vns : list (list nat)) (Vok : vn_ok P E vns) (Hvl : vns !! u = Some l).
Context (lim : nat -> Prop) (qw0 : list Z) (pm0 : list (list nat)).
Definition okq (x : nat) : Prop := (x < nq P)%nat /\ wt (eweight T) x = 0 /\ inarea e E u x.
Context (Hlim : forall x, okq x -> lim x).
Notation ginv := (fun v ch => ginv P v ch okq (fun _ => 1)).

Lemma okq_notin v c x : chains T !! v = Some c -> okq x -> ~ qin c x.
Proof.
  intros Hc (_ & Hx & _) Hq. rewrite (WT x) in Hx. pose proof (sumind_one (chains T) v c x Hc) as H. rewrite (ind_in c x Hq) in H. lia.
Qed.

(** marks of the search from [v] *)
Definition visok (v : nat) (vv : list Z) (ds : list (nat * Z)) : Prop :=
  forall x s, vv !! x = Some s -> (s = 0 /\ search_area P u v x) \/
    (s <> 0 /\ (x ∈ ds.*1 \/ wt (eweight T) x <> 0 \/ ~ search_area P u v x)).

(** search state of one neighbour *)
Definition nbinv (pv : list (option nat)) (vv : list Z) (pq : pqueue) (v : nat) (pl : list nat) : Prop :=
  exists ch ds pop, chains T !! v = Some ch /\ ginv v ch (mkW pv vv pq) ds pop /\ pl = pop.*1 /\ visok v vv ds.

Record shbase (h : short) (pops : list (list nat)) : Prop := {
  sv_ch : chains (sh_em h) = chains T;
  sv_w : eweight (sh_em h) = eweight T;
  sv_fr : exists em', placed T u lim em' /\ torn P em' u T /\ frozen_of em' u (efrozen (sh_em h));
  sv_swf : swf P (mkSr (sh_par h) (sh_vis h) (sh_dist h) (sh_counts h) qw0 pm0);
  sv_pq : length (sh_pq h) = length l;
  sv_pops : length pops = length l;
  sv_nb : forall vi v, l !! vi = Some v -> exists pv vv pq pl, sh_par h !! v = Some pv /\ sh_vis h !! v = Some vv /\
     sh_pq h !! vi = Some pq /\ pops !! vi = Some pl /\ nbinv pv vv pq v pl
}.
Definition cnts (counts : list Z) (pops : list (list nat)) : Prop :=
  forall q, (q < nq P)%nat -> counts !! q = Some (if decide (wt (eweight T) q = 0) then Z.of_nat (occ pops q) else 0).

(** replacing the counts *)
Lemma swf_counts pr vs d t t' : swf P (mkSr pr vs d t qw0 pm0) -> length t' = length t -> swf P (mkSr pr vs d t' qw0 pm0).
Proof. intros [] L. split; simpl in *; auto. by rewrite L. Qed.

Lemma nb_start h pops q v : shbase h pops -> occ pops q = length l -> v ∈ l ->
  search_ok P okq (sh_em h) q v (sh_par h) (sh_dist h) (sh_vis h).
Proof.
  intros B Ho Hv. apply elem_of_list_lookup in Hv as [vi Hvi].
  destruct (sv_nb _ _ B vi v Hvi) as (pv & vv & pq & pl & Hpv & Hvv & Hpq & Hpl & ch & ds & pop & Hch & G & -> & Hvs).
  assert (Hqin : q ∈ pop.*1).
  { apply (occ_full pops q); [by rewrite (sv_pops _ _ B)|]. by eapply elem_of_list_lookup_2. }
  pose proof (sv_swf _ _ B) as S. destruct (Hr v) as [_ Lv]; [by eapply elem_of_list_lookup_2|].
  destruct (lookup_lt_is_Some_2 (sh_dist h) v) as [dv Hdv]; [pose proof (bo_dist _ _ S) as Q; cbn [dist] in Q; lia|].
  destruct (bo_distr _ _ S v dv Hdv) as [Ld Hd].
  exists ch, pv, dv, vv. split; [by rewrite (sv_ch _ _ B)|]. split; [done|]. split; [done|]. split; [done|].
  split; [by apply (bo_visr _ _ S v)|]. split; [done|]. split; [done|].
  pose proof (g_dsc _ _ _ _ _ _ _ _ G) as D. split.
  - apply in_fst in Hqin as [c Hc]. eapply dsc_start; [exact D|]. rewrite (g_perm _ _ _ _ _ _ _ _ G). apply elem_of_app. left. exact Hc.
  - intros p d s (_ & Hp & Ha) Hs Ns _ _.
    destruct (Hvs p s Hs) as [[? _]|[_ [Hx|[?|Na]]]]; [done| |done|by destruct Na; apply Ha, HE; eapply elem_of_list_lookup_2]. apply in_fst in Hx as [c Hx]. by eapply dsc_start.
Qed.

(** one attempt at a root *)
Lemma short_try_spec stopcheck vi pl q h pops : shbase h (<[vi:=pl ++ [q]]> pops) -> cnts (sh_counts h) pops ->
  (vi < length l)%nat -> pops !! vi = Some pl -> q ∉ pl -> (q < nq P)%nat ->
  wpo (runerr sf (interactive e)) (short_try vns u (length l) stopcheck q h) (fun '(fin, h') =>
    sh_par h' = sh_par h /\ sh_dist h' = sh_dist h /\ sh_vis h' = sh_vis h /\ sh_pq h' = sh_pq h /\
    swf P (mkSr (sh_par h') (sh_vis h') (sh_dist h') (sh_counts h') qw0 pm0) /\
    if (fin : bool) then placed T u lim (sh_em h')
    else shbase h' (<[vi:=pl ++ [q]]> pops) /\ cnts (sh_counts h') (<[vi:=pl ++ [q]]> pops)).
Proof.
  intros B C Hvi Hpl Nq Lq. unfold short_try.
  pose proof (sv_swf _ _ B) as S. pose proof (bo_total _ _ S) as Lt. cbn [total] in Lt.
  destruct (lookup_lt_is_Some_2 (eweight T) q) as [w Hw]; [rewrite (ei_wlen _ _ _ _ IT); lia|].
  rewrite (sv_w _ _ B). eapply wpr_vget; [done|].
  assert (Ew : wt (eweight T) q = w) by (unfold wt; by rewrite Hw).
  eapply wpr_step with (P := fun counts => length counts = length (sh_counts h) /\ cnts counts (<[vi:=pl ++ [q]]> pops)).
  { match goal with |- wpo _ (if decide ?X then _ else _) _ => destruct (decide X) as [Hd|Hd] end.
    - pose proof (C q Lq) as Cq. unfold vadd. rewrite decide_True in Cq by congruence. rewrite Cq. simpl. split; [apply insert_length|]. intros x Hx. rewrite (occ_insert _ _ _ _ _ Hpl Nq).
      destruct (decide (x = q)) as [->|N].
      + rewrite list_lookup_insert by lia. rewrite decide_True by congruence. f_equal. lia.
      + rewrite list_lookup_insert_ne by done. rewrite (C x Hx). do 2 f_equal. by rewrite Nat.add_0_r.
    - simpl. split; [done|]. intros x Hx. rewrite (C x Hx). case_decide as Hx0; [|done].
      rewrite (occ_insert _ _ _ _ _ Hpl Nq), decide_False by congruence. by rewrite Nat.add_0_r. }
  intros counts [Lc C']. cbn [sh_em sh_par sh_dist sh_vis sh_best sh_pq sh_counts].
  assert (S' : swf P (mkSr (sh_par h) (sh_vis h) (sh_dist h) counts qw0 pm0)) by (by eapply swf_counts).
  pose proof (C' q Lq) as Cq. eapply wpr_vget; [exact Cq|].
  assert (B' : forall em best, chains em = chains T -> eweight em = eweight T ->
     (exists em', placed T u lim em' /\ torn P em' u T /\ frozen_of em' u (efrozen em)) ->
     shbase (mkShort em (sh_par h) (sh_dist h) (sh_vis h) counts best (sh_pq h)) (<[vi:=pl ++ [q]]> pops)).
  { intros em best H1 H2 H3. destruct B. split; simpl; auto. }
  match goal with |- wpo _ (if decide ?X then _ else _) _ => destruct (decide X) as [Hcq|Hcq] end.
  2:{ simpl. repeat (split; [done|]). split; [|done]. apply B'; apply B. }
  destruct (decide (wt (eweight T) q = 0)) as [Hw0|Hw0]; [|lia].
  assert (Hocc : occ (<[vi:=pl ++ [q]]> pops) q = length l) by lia.
  assert (Hrt : okq q).
  { destruct (lookup_lt_is_Some_2 l vi Hvi) as [v Hv].
    destruct (sv_nb _ _ B vi v Hv) as (pv & vv & pq & pl' & _ & _ & _ & Hpl' & ch & ds & pop & Hch & G & Epl & _).
    rewrite list_lookup_insert in Hpl' by (by eapply lookup_lt_Some). injection Hpl' as <-.
    assert (Hin : q ∈ pop.*1) by (rewrite <- Epl; apply elem_of_app; right; left).
    apply in_fst in Hin as [c Hin].
    assert (Hds : (q, c) ∈ ds) by (rewrite (g_perm _ _ _ _ _ _ _ _ G); apply elem_of_app; by left).
    apply elem_of_list_lookup in Hds as [i Hi].
    destruct (d_par _ _ _ _ _ _ _ (g_dsc _ _ _ _ _ _ _ _ G) i q c Hi) as [(O & _)|(_ & O & _)]; [|exact O].
    exfalso. rewrite (WT q) in Hw0. pose proof (sumind_one (chains T) v ch q Hch) as H1. rewrite (ind_in ch q O) in H1. lia. }
  assert (IS : einv (sh_em h)) by (eapply einv_chains; [exact IT|apply B|by rewrite (sv_w _ _ B)]).
  assert (WS : wexact (sh_em h)) by (eapply wexact_chains; [exact WT|apply B|apply B]).
  assert (AS : absent (sh_em h) u) by (unfold absent; by rewrite (sv_ch _ _ B)).
  destruct (construct_spec P E F okq (fun x Hx => proj1 Hx) vns (sh_em h) u q l (sh_par h) (sh_dist h) (sh_vis h)) as (em1 & -> & Bu); auto.
  { intros x (Hx & _ & _ & Ha). by eapply (ei_area _ _ _ _ IS). }
  { intros v Hv. destruct (Hr v Hv). split; [done|]. split; [done|]. by apply HE. }
  { intros v Hv _. by eapply nb_start. }
  cbn [rbind].
  assert (Pl : placed T u lim em1).
  { apply (placed_chains T (sh_em h)); [apply B|]. eapply (built_placed e E F (sh_em h) u q l okq); eauto.
    intros x Hx. split; [apply Hx|auto]. }
  pose proof (pl_inv _ _ _ _ _ _ _ Pl) as I1. pose proof (pl_wex _ _ _ _ _ _ _ Pl) as W1.
  assert (Hc1 : is_Some (chains em1 !! u)). { apply (ei_get _ _ _ _ u I1). lia. }
  destruct (nonempty_size em1 u) as (cs & -> & _); [by apply lookup_lt_is_Some|]. cbn [rbind].
  assert (Back : forall em2, torn P em1 u em2 -> chains em2 = chains T /\ eweight em2 = eweight T).
  { intros em2 Te. pose proof (built_torn P E F _ _ _ _ _ _ _ AS Bu Te IS) as Ch. rewrite (sv_ch _ _ B) in Ch. split; [done|].
    eapply wexact_det; eauto; [by eapply torn_wexact|]. destruct Te as (_ & -> & _).
    by rewrite (ei_wlen _ _ _ _ I1), (ei_wlen _ _ _ _ IT). }
  destruct (match sh_best h with None => true | Some b => bool_decide (cs < b)%nat end).
  - case_decide as Hst; [simpl; repeat (split; [done|]); done|].
    destruct (freeze_out_spec P E F em1 u I1 Hu) as (n & em2 & -> & Te & Fo & _). cbn [rbind]. simpl.
    destruct (Back em2 Te) as [B1 B2].
    repeat (split; [done|]). split; [|done]. apply B'; auto. exists em1. split; [done|]. split; [|done].
    eapply torn_same; eauto.
  - destruct (tear_out_spec P E F vns em1 u l) as (em2 & -> & Te & Fr); auto.
    { intros v [K|K] _; apply HE; [done|]. by eapply vn_ok_sym. }
    cbn [rbind]. simpl. destruct (Back em2 Te) as [B1 B2].
    repeat (split; [done|]). split; [|done]. apply B'; auto. rewrite Fr, (b_fr _ _ _ _ _ _ _ _ _ Bu). apply B.
Qed.

Lemma ginv_mark v ch k ds pop x pr : ginv v ch k ds pop -> (x < nq P)%nat -> pr = wpar k ->
  ginv v ch (mkW pr (<[x:=1]> (wvis k)) (wpq k)) ds pop.
Proof.
  intros [] L ->. split; simpl; auto.
  - by rewrite insert_length.
  - intros y Hy. destruct (decide (y = x)) as [->|N].
    + apply list_lookup_insert. lia.
    + rewrite list_lookup_insert_ne by done. auto.
Qed.

(** scanning the neighbours of a popped qubit *)

Lemma short_relax_spec em pm v ch q d nb k ds pop : E u v -> eweight em = eweight T -> length pm = nq P -> chains T !! v = Some ch ->
  qnb P !! q = Some nb -> (q, d) ∈ ds -> ginv v ch k ds pop -> visok v (wvis k) ds ->
  wpo (runerr sf (interactive e)) (foldM (short_relax em pm q (d + 1)) nb k) (fun k' => exists ds', ginv v ch k' ds' pop /\ visok v (wvis k') ds').
Proof.
  intros Ev Ew Lpm Hch Hnb Hin G V.
  eapply wpr_mono.
  { apply (wpr_foldM _ (fun dn k' => exists ds', ginv v ch k' ds' pop /\ visok v (wvis k') ds' /\ (q, d) ∈ ds')); [exists ds; split; [exact G|done]|].
    intros dn p rest k1 El (ds1 & G1 & V1 & Hin1).
    assert (Np : nbq P q p). { exists nb. split; [done|]. rewrite El. apply elem_of_app. right; left. }
    pose proof (pbw_range _ PW _ _ Np) as Lp. unfold short_relax.
    destruct (lookup_lt_is_Some_2 (wvis k1) p) as [s Hs]; [by rewrite (g_lv _ _ _ _ _ _ _ _ G1)|].
    eapply wpr_vget; [done|]. case_decide as Hs0; [simpl; exists ds1; split; [exact G1|done]|].
    eapply wpr_vset; [by rewrite (g_lv _ _ _ _ _ _ _ _ G1)|].
    destruct (lookup_lt_is_Some_2 (eweight T) p) as [we Hwe]; [rewrite (ei_wlen _ _ _ _ IT); lia|].
    rewrite Ew. eapply wpr_vget; [done|].
    assert (Ewt : wt (eweight T) p = we) by (unfold wt; by rewrite Hwe).
    assert (Npd : p ∉ ds1.*1). { intros Hx. apply (g_vis _ _ _ _ _ _ _ _ G1) in Hx. congruence. }
    case_decide as Hw0.
    - eapply wpr_vset; [rewrite (g_lp _ _ _ _ _ _ _ _ G1); lia|].
      destruct (lookup_lt_is_Some_2 pm p) as [t Ht]; [by rewrite Lpm|]. eapply wpr_vget; [done|].
      assert (Ok : okq p).
      { split; [done|]. split; [congruence|]. destruct (V1 p s Hs) as [[_ Ha]|[? _]]; [|done].
        exact (inarea_even e E MN u v p Lp Ev Ha). }
      destruct (ginv_snoc P T v ch pm okq (ei_wlen _ _ _ _ IT) Lpm (fun _ => 1) k1 ds1 pop p t (d + 1) (Some q) G1 Lp Npd) as (q' & -> & G2).
      { right. split; [by eapply okq_notin|]. split; [done|]. exists q. split; [done|]. split; [by right|]. right. exists d. done. }
      simpl. eexists; split; [exact G2|]. split.
      + intros x s' Hx. simpl in Hx. rewrite fmap_app. destruct (decide (x = p)) as [->|N].
        * rewrite list_lookup_insert in Hx by (by eapply lookup_lt_Some). injection Hx as <-.
          right. split; [done|]. left. apply elem_of_app. right; left.
        * rewrite list_lookup_insert_ne in Hx by done.
          destruct (V1 x s' Hx) as [?|[? [?|?]]]; [by left|right; split; [done|left; apply elem_of_app; by left]|by right; split; [|right]].
      + apply elem_of_app. by left.
    - simpl. exists ds1. split; [by apply ginv_mark|]. split; [|done].
      intros x s' Hx. simpl in Hx. destruct (decide (x = p)) as [->|N].
      { rewrite list_lookup_insert in Hx by (by eapply lookup_lt_Some). injection Hx as <-. right. split; [done|]. right; left; congruence. }
      rewrite list_lookup_insert_ne in Hx by done. by eapply V1. }
  intros k' (ds' & G' & V' & _). eauto.
Qed.

Lemma nb_other vi v vj w : l !! vi = Some v -> l !! vj = Some w -> vi <> vj -> v <> w.
Proof. intros H1 H2 N ->. apply N. eapply NoDup_lookup; eauto. Qed.

(** the state of neighbour [vi] changes, the others stay *)
Lemma nb_update h pops vi v pv vv pq pl : shbase h pops -> l !! vi = Some v -> nbinv pv vv pq v pl ->
  forall em d c b, chains em = chains T -> eweight em = eweight T ->
  (exists em', placed T u lim em' /\ torn P em' u T /\ frozen_of em' u (efrozen em)) ->
  length c = nq P -> length d = length (sh_dist h) ->
  (forall v r, d !! v = Some r -> length r = (nq P + nr P)%nat /\ forall d, d ∈ r -> d <= max_distance) ->
  shbase (mkShort em (<[v:=pv]> (sh_par h)) d (<[v:=vv]> (sh_vis h)) c b (<[vi:=pq]> (sh_pq h))) (<[vi:=pl]> pops).
Proof.
  intros B Hvi Nb em d c b H1 H2 H3 Lc Ld Hd. pose proof (sv_swf _ _ B) as S.
  pose proof Nb as (ch & ds & pop & _ & G & _). pose proof (g_lp _ _ _ _ _ _ _ _ G) as Lpv. pose proof (g_lv _ _ _ _ _ _ _ _ G) as Lvv.
  cbn [wpar wvis] in *. pose proof (lookup_lt_Some _ _ _ Hvi) as Lvi.
  assert (Lv : (v < nv P + nf P)%nat) by (apply Hr; by eapply elem_of_list_lookup_2).
  split; simpl; auto.
  - destruct S. simpl in *. split; simpl; auto; rewrite ?insert_length; auto; try lia.
    + by apply insert_row.
    + by apply insert_row.
  - rewrite insert_length. apply B.
  - rewrite insert_length. apply B.
  - intros vj w Hw. destruct (decide (vj = vi)) as [->|N].
    + assert (w = v) as -> by congruence. exists pv, vv, pq, pl. destruct S. simpl in *.
      rewrite !list_lookup_insert; rewrite ?(sv_pq _ _ B), ?(sv_pops _ _ B); auto; lia.
    + pose proof (nb_other _ _ _ _ Hvi Hw (not_eq_sym N)). rewrite !list_lookup_insert_ne by done. by eapply sv_nb.
Qed.

Lemma short_while_spec stopcheck D vi v : l !! vi = Some v -> D <= max_distance -> forall fuel h pops pl,
  shbase h pops -> cnts (sh_counts h) pops -> pops !! vi = Some pl -> (nq P < fuel + length pl)%nat ->
  wpo (runerr sf (interactive e)) (short_while fuel P vns pm0 u (length l) stopcheck D vi v h) (fun '(fin, h') =>
    swf P (mkSr (sh_par h') (sh_vis h') (sh_dist h') (sh_counts h') qw0 pm0) /\
    if (fin : bool) then placed T u lim (sh_em h') else exists pops', shbase h' pops' /\ cnts (sh_counts h') pops').
Proof.
  intros Hvi HD. assert (Lv : (v < nv P + nf P)%nat) by (apply Hr; by eapply elem_of_list_lookup_2).
  induction fuel as [|fuel IH]; intros h pops pl B C Hpl Hf; pose proof (sv_swf _ _ B) as S;
    destruct (sv_nb _ _ B vi v Hvi) as (pv & vv & pq & pl' & Hpv & Hvv & Hpq & Hpl' & ch & ds & pop & Hch & G & -> & Hvs);
    rewrite Hpl in Hpl'; injection Hpl' as ->; simpl; rewrite (vget_ok _ _ _ Hpq); cbn [rbind].
  - exfalso. pose proof (dsc_len _ _ _ _ _ _ _ (g_dsc _ _ _ _ _ _ _ _ G)) as L. rewrite (g_perm _ _ _ _ _ _ _ _ G), app_length in L.
    rewrite fmap_length in Hf. lia.
  - destruct (q_empty pq) eqn:Eq; [simpl; split; [done|eauto]|].
    destruct (q_top_pop_ok pq Eq (g_heap _ _ _ _ _ _ _ _ G)) as (z & q' & -> & Hpop & Pm & H' & Cn & Sz & _). cbn [rbind].
    case_decide as HDz; [simpl; split; [done|eauto]|].
    assert (Hz : (pnode_id z, pdist z) ∈ ds).
    { rewrite (g_perm _ _ _ _ _ _ _ _ G). apply elem_of_app. right. apply elem_of_list_fmap. exists z. split; [done|].
      simpl. rewrite Pm. left. }
    pose proof (d_lt _ _ _ _ _ _ _ (g_dsc _ _ _ _ _ _ _ _ G) _ _ Hz) as Lz.
    destruct (lookup_lt_is_Some_2 (sh_dist h) v) as [dv Hdv]; [pose proof (bo_dist _ _ S) as Q; cbn [dist] in Q; lia|].
    destruct (bo_distr _ _ S v dv Hdv) as [Ldv Bdv].
    eapply wpr_vget; [done|]. eapply wpr_vset; [lia|]. eapply wpr_vset; [by eapply lookup_lt_Some|].
    rewrite Hpop. cbn [rbind]. eapply wpr_vset; [by eapply lookup_lt_Some|].
    assert (P2 : ds ≡ₚ (pop ++ [(pnode_id z, pdist z)]) ++ map nid (qelems q')).
    { rewrite (g_perm _ _ _ _ _ _ _ _ G). simpl. rewrite Pm. simpl. rewrite <- app_assoc. done. }
    assert (NDp : NoDup ((pop ++ [(pnode_id z, pdist z)]) ++ map nid (qelems q')).*1).
    { rewrite <- P2. eapply d_nd. by eapply g_dsc. }
    assert (Nz : pnode_id z ∉ pop.*1).
    { rewrite !fmap_app in NDp. apply NoDup_app in NDp as [NDp _]. apply NoDup_app in NDp as (_ & NDp & _).
      intros Hx. apply (NDp _ Hx). left. }
    assert (G1 : ginv v ch (mkW pv vv q') ds (pop ++ [(pnode_id z, pdist z)])).
    { destruct G. split; simpl in *; auto; congruence. }
    assert (Ndv : forall w r, <[v:=<[pnode_id z:=pdist z]> dv]> (sh_dist h) !! w = Some r ->
        length r = (nq P + nr P)%nat /\ forall d, d ∈ r -> d <= max_distance).
    { apply (insert_row _ v (<[pnode_id z:=pdist z]> dv) (fun r => length r = (nq P + nr P)%nat /\ forall d, d ∈ r -> d <= max_distance)); [by apply S|].
      rewrite insert_length. split; [done|]. intros d Hd. apply elem_of_list_lookup in Hd as [i Hi].
      apply list_lookup_insert_Some in Hi as [(_ & <- & _)|(_ & Hi)]; [lia|]. apply Bdv. by eapply elem_of_list_lookup_2. }
    assert (B1 : shbase (mkShort (sh_em h) (sh_par h) (<[v:=<[pnode_id z:=pdist z]> dv]> (sh_dist h)) (sh_vis h) (sh_counts h)
         (sh_best h) (<[vi:=q']> (sh_pq h))) (<[vi:=pop.*1 ++ [pnode_id z]]> pops)).
    { rewrite <- (list_insert_id (sh_par h) v pv Hpv), <- (list_insert_id (sh_vis h) v vv Hvv).
      eapply nb_update; eauto; try apply B; try (by rewrite insert_length); try apply S.
      exists ch, ds, (pop ++ [(pnode_id z, pdist z)]). split; [done|]. split; [exact G1|]. split; [by rewrite fmap_app|]. done. }
    eapply wpr_step.
    { apply (short_try_spec stopcheck vi (pop.*1) (pnode_id z) _ pops B1); auto. by eapply lookup_lt_Some. }
    intros [fin h'] (E1 & E2 & E3 & E4 & S' & R). cbn [sh_par sh_dist sh_vis sh_pq] in *.
    destruct fin; [simpl; auto|]. destruct R as [B' C'].
    rewrite E1, E3, E4. eapply wpr_vget; [exact Hpv|]. eapply wpr_vget; [exact Hvv|].
    destruct (lookup_lt_is_Some_2 pm0 v) as [pm Hpm]; [pose proof (bo_perm _ _ S) as Q; cbn [perm] in Q; lia|].
    eapply wpr_vget; [exact Hpm|]. eapply wpr_vget; [apply list_lookup_insert; by eapply lookup_lt_Some|].
    eapply wpr_vset; [pose proof (g_lv _ _ _ _ _ _ _ _ G) as Q; cbn [wvis] in Q; lia|].
    destruct (lookup_lt_is_Some_2 (qnb P) (pnode_id z)) as [nb Hnb]; [rewrite (pbw_len _ PW); lia|].
    eapply wpr_vget; [done|].
    eapply wpr_step.
    { apply (short_relax_spec (sh_em h') pm v ch (pnode_id z) (pdist z) nb _ ds (pop ++ [(pnode_id z, pdist z)])); auto.
      - apply HE. by eapply elem_of_list_lookup_2.
      - apply B'.
      - by apply (bo_permr _ _ S v).
      - by apply (ginv_mark v ch _ _ _ _ _ G1).
      - intros x s Hx. simpl in Hx. destruct (decide (x = pnode_id z)) as [->|N].
        { rewrite list_lookup_insert in Hx. 2:{ pose proof (g_lv _ _ _ _ _ _ _ _ G) as Q; cbn [wvis] in Q; lia. }
          injection Hx as <-. right. split; [done|]. left; apply in_fst; eauto. }
        rewrite list_lookup_insert_ne in Hx by done. by eapply Hvs. }
    intros k (ds' & G' & V'). 
    eapply wpr_vset; [by eapply lookup_lt_Some|]. eapply wpr_vset; [by eapply lookup_lt_Some|].
    eapply wpr_vset; [rewrite insert_length; by eapply lookup_lt_Some|].
    rewrite <- E1, <- E3, <- E4.
    eapply (IH _ (<[vi:=pop.*1 ++ [pnode_id z]]> (<[vi:=pop.*1 ++ [pnode_id z]]> pops)) (pop.*1 ++ [pnode_id z])).
    + eapply nb_update; eauto; try apply B'; try apply (sv_swf _ _ B').
      exists ch, ds', (pop ++ [(pnode_id z, pdist z)]). split; [done|]. destruct k as [kp kv kq]. split; [exact G'|].
      split; [by rewrite fmap_app|done].
    + rewrite list_insert_insert. exact C'.
    + rewrite list_insert_insert. apply list_lookup_insert. by eapply lookup_lt_Some.
    + rewrite app_length. simpl. lia.
Qed.

Definition shres (fin : bool) (h' : short) : Prop :=
    swf P (mkSr (sh_par h') (sh_vis h') (sh_dist h') (sh_counts h') qw0 pm0) /\
    if fin then placed T u lim (sh_em h') else exists pops', shbase h' pops' /\ cnts (sh_counts h') pops'.

Lemma short_level_spec stopcheck D h : Z.of_nat D <= max_distance -> shres false h ->
  wpo (runerr sf (interactive e)) (short_level P vns pm0 l u (length l) stopcheck D h) (fun '(fin, h') => shres fin h').
Proof.
  intros HD R. unfold short_level.
  apply (wpr_foldM _ (fun dn '(fin, h') => shres fin h')); [done|].
  intros dn [vi v] rest [fin h1] El R1. destruct fin; [done|]. destruct R1 as (_ & pops & B & C).
  assert (Hvi : l !! vi = Some v).
  { assert (imap pair l !! length dn = Some (vi, v)) as H by (rewrite El, lookup_app_r by lia; by rewrite Nat.sub_diag).
    rewrite list_lookup_imap in H. destruct (l !! length dn) as [x|] eqn:Hx; [|done]. simpl in H. injection H as <- <-. done. }
  destruct (sv_nb _ _ B vi v Hvi) as (pv & vv & pq & pl & _ & _ & _ & Hpl & _).
  eapply short_while_spec; eauto. lia.
Qed.

Lemma short_levels_spec stopcheck Ds h : (forall D, D ∈ Ds -> Z.of_nat D <= max_distance) -> shres false h ->
  wpo (runerr sf (interactive e)) (foldM (fun '(fin, h) D => if (fin : bool) then Ok (true, h) else short_level P vns pm0 l u (length l) stopcheck D h) Ds (false, h))
    (fun '(fin, h') => shres fin h').
Proof.
  intros HD R. apply (wpr_foldM _ (fun dn '(fin, h') => shres fin h')); [done|].
  intros dn D rest [fin h1] El R1. destruct fin; [done|]. apply short_level_spec; [|done]. apply HD. rewrite El. apply elem_of_app. right; left.
Qed.
End short.

Section shortchain.
Context (sf : bool) (e : env) (E : nat -> nat -> Prop) (F : fixdom).
Notation P := (pb e).
Context (PW : pb_wf P) (MN : even_areas P E) (Hq0 : (0 < nq P)%nat) (Hqm : Z.of_nat (nq P) <= max_distance).
Context (Hfix : forall v q, (nv P <= v < nv P + nf P)%nat -> is_Some (F v !! q) -> (nq P <= q < nq P + nr P)%nat).
Notation einv := (einv P E F).
Notation placed := (placed e E F).

Lemma short_init_spec T u em b0 l : (u < nv P)%nat -> (forall v, v ∈ l -> E u v) -> einv T -> wexact T -> chains em = chains T -> eweight em = eweight T -> swf P b0 -> NoDup l ->
  (forall v, v ∈ l -> (v < nv P + nf P)%nat) ->
  wpo (runerr sf (interactive e)) (foldM (short_init_one e em u) l (b0, [])) (fun '(b, pqs) => swf P b /\ qw b = qw b0 /\ perm b = perm b0 /\ total b = total b0 /\
    length pqs = length l /\ forall vi v, l !! vi = Some v -> exists pv vv pq, par b !! v = Some pv /\ vis b !! v = Some vv /\
      pqs !! vi = Some pq /\ nbinv e E T u pv vv pq v []).
Proof.
  intros Hu HE IT WT Ec Ew S0 ND Hr.
  apply (wpr_foldM _ (fun dn '(b, pqs) => swf P b /\ qw b = qw b0 /\ perm b = perm b0 /\ total b = total b0 /\
    length pqs = length dn /\ forall vi v, dn !! vi = Some v -> exists pv vv pq, par b !! v = Some pv /\ vis b !! v = Some vv /\
      pqs !! vi = Some pq /\ nbinv e E T u pv vv pq v [])).
  { do 5 (split; [done|]). intros vi v H. done. }
  intros dn v rest [b pqs] El (S & Eq & Ep & Et & Lp & Hn).
  assert (Lv : (v < nv P + nf P)%nat) by (apply Hr; rewrite El; apply elem_of_app; right; left).
  assert (Nv : v ∉ dn). { rewrite El in ND. apply NoDup_app in ND as (_ & ND & _). intros Hd. apply (ND v Hd). left. }
  unfold short_init_one, prep_vis.
  destruct (lookup_lt_is_Some_2 (vis b) v) as [vv0 Hvv]; [by rewrite (bo_vis _ _ S)|].
  rewrite (vget_ok _ _ _ Hvv). cbn [rbind].
  destruct (prep_vis_spec P PW u v vv0 ltac:(lia) Lv ltac:(by eapply bo_visr)) as (vv & -> & Lvv & V0). cbn [rbind]. rewrite vset_ok by (by rewrite (bo_vis _ _ S)). cbn [rbind].
  cbn [par vis dist perm qw total].
  destruct (lookup_lt_is_Some_2 (par b) v) as [pv Hpv]; [by rewrite (bo_par _ _ S)|].
  destruct (lookup_lt_is_Some_2 (perm b) v) as [pm Hpm]; [pose proof (bo_perm _ _ S); lia|].
  destruct (ei_get _ _ _ _ v IT) as [ch Hch]; [done|].
  eapply wpr_vget; [exact Hpv|]. eapply wpr_vget; [apply list_lookup_insert; by rewrite (bo_vis _ _ S)|].
  eapply wpr_vget; [exact Hpm|].
  assert (Lpm : length pm = nq P) by (by eapply bo_permr).
  assert (Lpv : length pv = (nq P + nr P)%nat) by (by eapply bo_parr).
  assert (Ev : E u v) by (apply HE; rewrite El; apply elem_of_app; right; left).
  destruct (init_spec P PW em v ch (qw b) pm (okq e E T u) (search_area P u v)) with (tag := true) (w := fun _ : nat => 1)
     (k := mkW pv vv (q_new (nq P))) as (k & ds & -> & G & Hs & Hv); auto.
  { by rewrite Ec. }
  { rewrite Ew. apply (ei_wlen _ _ _ _ IT). }
  { unfold fixedb. intros Hf q Hq. destruct (Nat.leb_spec (nv P) v); [done|]. by eapply (ei_bound _ _ _ _ IT). }
  { unfold fixedb. intros Hf q Hq. destruct (Nat.leb_spec (nv P) v); [|done]. by eapply (einv_fixq e E F Hq0 Hfix T). }
  { intros _ x Hx Ha H. split; [done|]. split; [rewrite <- Ew; by apply H|]. exact (inarea_even e E MN u v x Hx Ev Ha). }
  { apply S. }
  cbn [rbind]. eapply wpr_vset; [by eapply lookup_lt_Some|]. eapply wpr_vset; [rewrite insert_length; by eapply lookup_lt_Some|].
  rewrite list_insert_insert. simpl.
  pose proof (g_lp _ _ _ _ _ _ _ _ G) as L1. pose proof (g_lv _ _ _ _ _ _ _ _ G) as L2.
  split.
  { destruct S. split; simpl; auto; rewrite ?insert_length; auto.
    - by apply insert_row.
    - by apply insert_row. }
  do 3 (split; [done|]). split; [rewrite !app_length; simpl; lia|].
  intros vi w Hw. destruct (decide (vi < length dn)%nat) as [Hlt|Hge].
  - rewrite lookup_app_l in Hw by done. assert (w <> v) by (intros ->; apply Nv; by eapply elem_of_list_lookup_2).
    rewrite !list_lookup_insert_ne by done. rewrite lookup_app_l by lia. by apply Hn.
  - rewrite lookup_app_r in Hw by lia. destruct (vi - length dn)%nat as [|n] eqn:Ei; [|by destruct n]. simpl in Hw. injection Hw as <-.
    exists (wpar k), (wvis k), (wpq k). rewrite !list_lookup_insert by (rewrite ?(bo_par _ _ S), ?(bo_vis _ _ S); done).
    split; [done|]. split; [done|]. split; [rewrite lookup_app_r by lia; replace (vi - length pqs)%nat with 0%nat by lia; done|].
    exists ch, ds, []. split; [done|]. destruct k as [kp kv kq]. split; [exact G|]. split; [done|].
    intros x s Hx. destruct (Hv x s Hx) as [Hin|[?|[-> Na]]]; [|by left|right; split; [done|]; by right; right].
    right. split; [|by left]. apply (g_vis _ _ _ _ _ _ _ _ G) in Hin. rewrite Hx in Hin. injection Hin as ->. done.
Qed.

Lemma shuffle_nbrs_spec {ov : err -> Prop} s u l0 : sinv e E s -> vn s !! u = Some l0 -> wpo ov (nbrs_shuffle e s u)
  (fun '(l, s') => sinv e E s' /\ sframe s s' /\ sr s' = sr s /\ vn s' !! u = Some l /\ l ≡ₚ l0).
Proof.
  intros [V S] Hl. unfold nbrs_shuffle. eapply wpr_vget; [done|].
  pose proof (shuffle_perm (rnd e) (rpos s) l0) as Pm. destruct (shuffle (rnd e) (rpos s) l0) as [l' pos]. simpl in Pm.
  eapply wpr_vset; [by eapply lookup_lt_Some|]. simpl.
  split; [|split; [by split|split; [done|split; [apply list_lookup_insert; by eapply lookup_lt_Some|done]]]].
  split; [|done]. simpl. by eapply vn_ok_perm.
Qed.

Definition shlim (em T : emb) (u x : nat) : Prop :=
  sumind (chains T) x = 0 \/ exists c, chains em !! u = Some c /\ qin c x.

Lemma find_short_chain_spec s em u tgt : sinv e E s -> einv em -> wexact em -> (u < nv P)%nat -> linkedto em u u ->
  (forall v, E u v -> nonempty em v -> linkedto em u v) ->
  wpo (runerr sf (interactive e)) (find_short_chain e s em u tgt) (fun '(s', em') => sinv e E s' /\ sframe s s' /\
    exists T, torn P em u T /\ placed T u (shlim em T u) em').
Proof.
  intros SI I W Hu Ls Lk. unfold find_short_chain.
  destruct (freeze_out_spec P E F em u I Hu) as (n & T & -> & Te & Fo & Hn). cbn [rbind].
  destruct (vn_ok_get _ _ _ u (si_vn _ _ _ SI)) as [l0 Hl0]; [lia|].
  eapply wpr_vget; [done|].
  eapply wpr_step; [by apply shuffle_nbrs_spec|]. intros [l s1] (SI1 & Fr1 & Es1 & Hl & Pm).
  destruct (vn_ok_row _ _ _ _ _ (si_vn _ _ _ SI1) Hl) as (HE & ND & Hr).
  destruct (ei_get _ _ _ _ u I) as [cu Hcu]; [lia|].
  assert (IT : einv T) by (by eapply torn_einv).
  assert (WT : wexact T) by (eapply torn_wexact; eauto).
  assert (AT : absent T u) by (by eapply torn_absent).
  assert (Nmax : Z.of_nat n <= max_distance).
  { unfold chainsize in Hn. rewrite (vget_ok _ _ _ Hcu) in Hn. simpl in Hn. injection Hn as <-.
    assert (csize cu = length (cqubits cu)) as -> by (unfold csize, cqubits; rewrite ?fmap_length, ?map_to_list_length; done).
    assert (length (cqubits cu) <= nq P)%nat; [|lia]. apply nodup_bound; [apply cqubits_nodup|].
    intros x Hx. apply cqubits_in in Hx. by eapply (ei_bound _ _ _ _ I). }
  eapply wpr_step.
  { apply (short_init_spec T u T (set_total (sr s1) (replicate (nq P) 0)) l Hu (fun v => proj1 (HE v)) IT WT eq_refl eq_refl).
    - apply swf_total; [apply SI1|by rewrite replicate_length].
    - done.
    - intros v Hv. by apply Hr. }
  intros [b pqs] (Sb & Eqw & Epm & Etot & Lpq & Hnb). cbn beta iota.
  assert (Pl0 : placed T u (shlim em T u) em).
  { apply torn_placed; auto.
    - intros v Ev. by apply Hr, HE.
    - intros c x Hc Hx. right. eauto. }
  eapply wpr_step.
  { rewrite <- (Permutation_length Pm).
    eapply (short_levels_spec sf e E F PW MN Hq0 T u IT WT AT Hu l HE ND Hr (vn s1) (si_vn _ _ _ SI1) Hl (shlim em T u) (qw b) (perm b)).
    - intros x (_ & Hx & _). left. by rewrite <- (WT x).
    - intros D HD%elem_of_seq. lia.
    - split; simpl.
      + destruct Sb. split; simpl; auto. by rewrite replicate_length.
      + exists (replicate (length l) []). split.
        * split; simpl; auto.
          -- exists em. split; [done|]. split; [done|]. done.
          -- destruct Sb. split; simpl; auto. by rewrite replicate_length.
          -- by rewrite replicate_length.
          -- intros vi v Hvi. destruct (Hnb vi v Hvi) as (pv & vv & pq & ? & ? & ? & ?). exists pv, vv, pq, [].
             do 3 (split; [done|]). split; [|done]. apply lookup_replicate_2. by eapply lookup_lt_Some.
        * intros q Hq. rewrite lookup_replicate_2 by done. rewrite occ_nil. by case_decide. }
  intros [fin h] [Sh R]. cbn beta iota.
  assert (SI2 : sinv e E (set_sr s1 (mkSr (sh_par h) (sh_vis h) (sh_dist h) (sh_counts h) (qw b) (perm b)))).
  { destruct SI1. by split. }
  eapply wpr_step with (P := fun em' => placed T u (shlim em T u) em').
  { destruct fin; [done|]. destruct R as (pops & B & _). destruct (sv_fr _ _ _ _ _ _ _ _ _ _ _ B) as (em' & Pl & Te' & Fo').
    destruct (thaw_back_spec P E F em' (sh_em h) u) as (em2 & -> & C2 & W2); auto.
    - by apply Pl.
    - eapply torn_same; [exact Te'|apply B|apply B].
    - simpl. by eapply placed_same. }
  intros em2 Pl2. destruct (flip_placed e E F PW (vn s1) T u _ em2 tgt (si_vn _ _ _ SI1) Hu Pl2) as (em3 & H3 & Pl3 & _).
  cbn [vn set_sr]. rewrite H3. simpl. split; [done|]. split; [destruct Fr1; by split|]. exists T. done.
Qed.
End shortchain.
