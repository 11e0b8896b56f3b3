(** Replacing one chain (find_chain) and recording an improvement (check_improvement). *)
From stdpp Require Import base list numbers gmap.
From Verif Require Import Base ChainModel ChainProofs ChainProofs2 EmbModel Spec SpecEmb EmbProofs EmbProofs2
  EmbProofs3 EmbProofs4 EmbOps EmbProofs7 QueueModel PathModel QueueProofs Wp SpecPath DijkProofs PrepProofs RunProofs1 RunProofs2 OrderProofs.
Local Open Scope Z_scope.

Section run.
Context (e : env) (E : nat -> nat -> Prop) (F : fixdom).
Notation P := (pb e).
Context (PW : pb_wf P) (MN : even_areas P E) (Hq0 : (0 < nq P)%nat) (Hqm : Z.of_nat (nq P) <= max_distance).
Context (Wtab : forall m c, 0 <= c < 64 -> 0 <= wtab e m c <= max_distance).
Context (sf : bool) (Hsf : sf = true -> safe_env e E).
Context (Hfix : forall v q, (nv P <= v < nv P + nf P)%nat -> is_Some (F v !! q) -> (nq P <= q < nq P + nr P)%nat).
Context (Hfne : forall v, (nv P <= v < nv P + nf P)%nat -> F v <> ∅).
Notation einv := (einv P E F).
Notation placed := (placed e E F).
Notation sinv := (sinv e E).

(** [u] has a chain and is linked to every neighbour that has one *)
Definition goodp (em : emb) (u : nat) : Prop :=
  linkedto em u u /\ forall v, E u v -> nonempty em v -> linkedto em u v.
(** a complete embedding, possibly with overlaps *)
Definition full (em : emb) : Prop := einv em /\ wexact em /\ forall u, (u < nv P)%nat -> goodp em u.

Lemma torn_nonempty em u T v : torn P em u T -> v <> u -> nonempty em v <-> nonempty T v.
Proof.
  clear PW MN Hq0 Hqm Wtab Hsf Hfix Hfne.
  intros Te N. unfold nonempty. split.
  - intros (c & Hc & Hs). pose proof Te as (_ & _ & _ & H & _). destruct (H v c N Hc) as (c' & Hc' & _ & Pm & _).
    exists c'. split; [done|]. by rewrite <- size_pm, Pm, size_pm.
  - intros (c' & Hc' & Hs). destruct (torn_inv_lookup _ _ _ _ _ _ Te N Hc') as (c & Hc & _ & Pm & _).
    exists c. split; [done|]. by rewrite <- size_pm, <- Pm, size_pm.
Qed.
Lemma torn_linkedto em u T a b : torn P em u T -> a <> u -> b <> u -> linkedto em a b <-> linkedto T a b.
Proof.
  clear PW MN Hq0 Hqm Wtab Hsf Hfix Hfne.
  intros Te Na Nb. unfold linkedto. split.
  - intros (c & Hc & Hs). pose proof Te as (_ & _ & _ & H & _). destruct (H a c Na Hc) as (c' & Hc' & _ & _ & K).
    exists c'. split; [done|]. by rewrite K, lookup_delete_ne.
  - intros (c' & Hc' & Hs). destruct (torn_inv_lookup _ _ _ _ _ _ Te Na Hc') as (c & Hc & _ & _ & K).
    exists c. split; [done|]. by rewrite K, lookup_delete_ne in Hs.
Qed.

Lemma placed_good vn em T u lim em' D : vn_ok P E vn -> einv em -> (u < nv P)%nat ->
  (forall w, w ∈ D -> (w < nv P)%nat /\ goodp em w) -> torn P em u T -> placed T u lim em' ->
  forall w, w ∈ u :: D -> goodp em' w.
Proof.
  clear PW MN Hq0 Hqm Wtab Hsf Hfix Hfne.
  intros V I Hu HD Te Pl w Hw. destruct (decide (w = u)) as [->|Nw].
  - split; [apply Pl|]. intros v Ev Hv. apply (pl_link _ _ _ _ _ _ _ Pl); [done|].
    apply (pl_ne _ _ _ _ _ _ _ Pl v); [|done]. destruct V as [VW HE]. by apply (vnw_loop _ _ VW u), HE.
  - apply elem_of_cons in Hw as [?|Hw]; [done|]. destruct (HD w Hw) as [Lw [Gs Gl]].
    split.
    + apply (pl_oth _ _ _ _ _ _ _ Pl); [done|done|]. by apply (torn_linkedto em u T w w Te Nw Nw).
    + intros v Ev Hv. destruct (decide (v = u)) as [->|Nv].
      * apply linkedto_sym with P E F; [apply Pl|done|]. apply (pl_link _ _ _ _ _ _ _ Pl).
        { eapply vn_ok_sym; eauto. } { apply (torn_nonempty em u T w Te Nw). by eapply linkedto_nonempty. }
      * apply (pl_oth _ _ _ _ _ _ _ Pl); [done|done|]. apply (torn_linkedto em u T w v Te Nw Nv).
        apply Gl; [done|]. apply (torn_nonempty em u T v Te Nv). by apply (pl_ne _ _ _ _ _ _ _ Pl).
Qed.

Lemma stolen_good u em em' w : stolen P E F u em em' -> goodp em w -> goodp em' w.
Proof.
  clear PW MN Hq0 Hqm Wtab Hsf Hfix Hfne.
  intros S [Gs Gl]. split; [by apply S|]. intros v Ev Hv. apply (st_link _ _ _ _ _ _ S). apply Gl; [done|]. by apply (st_ne _ _ _ _ _ _ S).
Qed.

Lemma same_good em em' w : chains em' = chains em -> goodp em w -> goodp em' w.
Proof. unfold goodp, linkedto, nonempty. by intros ->. Qed.
Lemma same_full em em' : chains em' = chains em -> length (eweight em') = length (eweight em) -> wexact em' -> full em -> full em'.
Proof.
  intros C L W (I & _ & G). split; [by eapply einv_chains|]. split; [done|]. intros u Hu. eapply same_good; eauto.
Qed.

Lemma tear_ok vn em u : vn_ok P E vn -> einv em -> (u < nv P)%nat ->
  exists T, tear_out vn em u = Ok T /\ torn P em u T /\ efrozen T = efrozen em.
Proof.
  clear PW MN Hq0 Hqm Wtab Hsf Hfix Hfne.
  intros V I Hu. destruct (vn_ok_get _ _ _ u V) as [l Hl]; [lia|].
  destruct (vn_ok_row _ _ _ _ _ V Hl) as (HE & ND & Hr).
  eapply tear_out_spec; eauto. intros v Hv Nv. apply HE. destruct Hv as [?|?]; [done|]. by eapply vn_ok_sym.
Qed.
Lemma steal_ok vn em u : vn_ok P E vn -> einv em -> (u < nv P)%nat ->
  exists em', steal_all P vn em u = Ok em' /\ stolen P E F u em em'.
Proof.
  clear MN Hq0 Hqm Wtab Hsf Hfix Hfne.
  intros V I Hu. destruct (vn_ok_get _ _ _ u V) as [l Hl]; [lia|].
  destruct (vn_ok_row _ _ _ _ _ V Hl) as (HE & ND & Hr). eapply steal_all_spec; eauto.
Qed.

Definition oneuse (em : emb) : Prop := forall q, (q < nq P)%nat -> sumind (chains em) q <= 1.

Lemma torn_sum em u T c x : einv em -> torn P em u T -> chains em !! u = Some c -> wexact em ->
  sumind (chains T) x = sumind (chains em) x - ind c x.
Proof.
  clear PW MN Hq0 Hqm Wtab Hsf Hfix Hfne.
  intros I Te Hc W. assert (WT : wexact T) by (eapply torn_wexact; eauto). rewrite <- (WT x), <- (W x). by apply Te.
Qed.

Lemma find_chain2_spec s em u D : sinv s -> einv em -> wexact em -> (u < nv P)%nat ->
  (forall w, w ∈ D -> (w < nv P)%nat /\ goodp em w) -> (embedded (md s) = true -> goodp em u) ->
  wpo (runerr sf (interactive e)) (find_chain2 e s em u) (fun '(b, s', em') => sinv s' /\ sframe s s' /\ einv em' /\ wexact em' /\
    (b = true -> forall w, w ∈ u :: D -> goodp em' w) /\
    (embedded (md s) = true -> b = true /\ (oneuse em -> oneuse em'))).
Proof.
  intros SI I W Hu HD Hg. unfold find_chain2.
  eapply wpr_step with (P := fun em1 => stolen P E F u em em1).
  { destruct (embedded (md s) || desperate (md s)); [|apply stolen_refl].
    destruct (steal_ok (vn s) em u) as (em1 & -> & S1); [apply SI|done..]. }
  intros em1 S1. pose proof (st_inv _ _ _ _ _ _ S1 I) as I1. pose proof (st_wex _ _ _ _ _ _ S1 W) as W1.
  assert (HD1 : forall w, w ∈ D -> (w < nv P)%nat /\ goodp em1 w).
  { intros w Hw. destruct (HD w Hw). split; [done|]. by eapply stolen_good. }
  destruct (embedded (md s)) eqn:Em.
  - assert (Hg1 : goodp em1 u) by (eapply stolen_good; eauto).
    eapply wpr_step; [apply (find_short_chain_spec sf e E F PW MN Hq0 Hqm Hfix s em1 u (target (md s)) SI I1 W1 Hu); [exact (proj1 Hg1)|exact (proj2 Hg1)]|].
    intros [s' em'] (SI' & Fr & T & Te & Pl). simpl. do 2 (split; [done|]).
    split; [apply Pl|]. split; [apply Pl|]. split.
    + intros _. eapply (placed_good (vn s)); eauto. apply SI.
    + intros _. split; [done|]. intros O q Hq.
      destruct (ei_get _ _ _ _ u I1) as [c Hc]; [lia|]. pose proof (torn_sum em1 u T c q I1 Te Hc W1) as ET.
      pose proof (st_sum _ _ _ _ _ _ S1 q) as S2. specialize (O q Hq). pose proof (ind_range c q).
      destruct (pl_sum _ _ _ _ _ _ _ Pl q) as [?|(Ep & _ & [Z|(c' & Hc' & Hi)])]; [lia|lia|].
      assert (c' = c) as -> by congruence. rewrite (ind_in c q Hi) in ET. lia.
  - destruct (tear_ok (vn s) em1 u) as (T & -> & Te & _); [apply SI|done..|]. cbn [rbind].
    assert (IT : einv T) by (by eapply torn_einv).
    assert (WT : wexact T) by (eapply torn_wexact; eauto; eapply ei_get; eauto; lia).
    eapply wpr_mono; [apply (find_chain3_spec e E F PW MN Hq0 Wtab sf Hsf Hfix s T u (target (md s)) SI IT WT); [by eapply torn_absent|done]|].
    intros [[b s'] em'] (SI' & Fr & Hb). split; [done|]. split; [done|]. destruct b.
    + split; [apply Hb|]. split; [apply Hb|]. split; [|done]. intros _. eapply (placed_good (vn s) em1); eauto. apply SI.
    + subst em'. split; [done|]. split; [done|]. done.
Qed.

(** ** improvement *)

(** assignable: emb_assign into [em] is defined *)
Record abl (em : emb) : Prop := {
  ab_len : length (chains em) = (nv P + nf P)%nat;
  ab_wlen : length (eweight em) = (nq P + nr P)%nat;
  ab_wex : wexact em;
  ab_below : forall v c, chains em !! v = Some c -> below c (nq P + nr P)
}.
Lemma einv_abl em : einv em -> wexact em -> abl em.
Proof. intros [] W. by split. Qed.
Lemma full_abl em : full em -> abl em.
Proof. intros (I & W & _). by apply einv_abl. Qed.
Lemma new_abl : abl (emb_new P).
Proof.
  split; simpl.
  - by rewrite replicate_length.
  - by rewrite replicate_length.
  - apply wexact_new.
  - intros v c [-> _]%lookup_replicate q. rewrite pm_empty, lookup_empty. by intros [? ?].
Qed.

Lemma assign_ok dst src : abl dst -> abl src ->
  exists em, emb_assign dst src = Ok em /\ chains em = chains src /\ eweight em = eweight src /\ efrozen em = efrozen dst /\ abl em.
Proof.
  clear PW MN Hq0 Hqm Wtab Hsf Hfix Hfne. intros D S.
  destruct (emb_assign_spec dst src) as (em & -> & C & W & Fr & L).
  - by rewrite (ab_len _ D), (ab_len _ S).
  - apply D.
  - rewrite (ab_wlen _ D). apply D.
  - rewrite (ab_wlen _ D). apply S.
  - exists em. split; [done|]. split; [done|]. split.
    { apply (wexact_det em src W (ab_wex _ S)); [|done]. by rewrite L, (ab_wlen _ D), (ab_wlen _ S). }
    split; [done|]. split; [by rewrite C; apply S|by rewrite L; apply D|done|by rewrite C; apply S].
Qed.
Lemma same_einv em em' : chains em' = chains em -> eweight em' = eweight em -> einv em -> einv em'.
Proof. intros C W I. eapply einv_chains; eauto. by rewrite W. Qed.
Lemma same_full' em em' : chains em' = chains em -> eweight em' = eweight em -> full em -> full em'.
Proof. intros C W Fu. eapply same_full; eauto; [by rewrite W|]. destruct Fu as (_ & X & _). by eapply wexact_chains. Qed.
Lemma same_stats em em' : chains em' = chains em -> eweight em' = eweight em -> statistics P em' = statistics P em.
Proof. destruct em, em'; simpl. by intros -> ->. Qed.

Lemma hist_lt_trans a b c : hist_lt a b -> hist_lt b c -> hist_lt a c.
Proof.
  clear.
  intros [H1|(L1 & i & x & y & Hx & Hy & Lt & Hj)] [H2|(L2 & i' & x' & y' & Hx' & Hy' & Lt' & Hj')]; try (left; lia).
  right. split; [lia|]. destruct (lt_eq_lt_dec i i') as [[Hlt| ->]|Hlt].
  - exists i', x', y'. split; [by rewrite Hj|]. split; [done|]. split; [done|]. intros j Lj. rewrite Hj by lia. by apply Hj'.
  - exists i', x, y'. split; [done|]. split; [done|]. split; [|intros j Lj; rewrite Hj by lia; by apply Hj'].
    assert (y = x') by congruence. lia.
  - exists i, x, y. split; [done|]. split; [by rewrite <- Hj'|]. split; [done|]. intros j Lj. rewrite Hj by lia. apply Hj'. lia.
Qed.

Lemma hist_less_spec n : forall new old, (n <= length new)%nat -> (n <= length old)%nat ->
  exists b, hist_less n new old = Ok b /\ (b = true -> exists i x y, (i < n)%nat /\ new !! i = Some x /\ old !! i = Some y /\ x < y /\
     forall j, (i < j < n)%nat -> new !! j = old !! j).
Proof.
  clear. induction n as [|n IH]; intros new old L1 L2; simpl; [by exists false|].
  destruct (lookup_lt_is_Some_2 new n) as [x Hx]; [lia|]. destruct (lookup_lt_is_Some_2 old n) as [y Hy]; [lia|].
  rewrite (vget_ok _ _ _ Hx), (vget_ok _ _ _ Hy). cbn [rbind]. case_decide as Hd.
  - subst y. destruct (IH new old) as (b & -> & Hb); [lia..|]. exists b. split; [done|]. intros Eb.
    destruct (Hb Eb) as (i & x' & y' & Li & ? & ? & ? & Hj). exists i, x', y'. split; [lia|]. do 3 (split; [done|]).
    intros j Lj. destruct (decide (j = n)) as [->|]; [congruence|]. apply Hj. lia.
  - eexists; split; [done|]. intros Hb%bool_decide_eq_true. exists n, x, y. split; [lia|]. do 3 (split; [done|]). lia.
Qed.

Record cframe (s s' : st) : Prop := {
  cf_vn : vn s' = vn s; cf_vos : vos s' = vos s; cf_sr : sr s' = sr s; cf_pushb : pushb s' = pushb s;
  cf_rpos : rpos s' = rpos s; cf_spos : spos s' = spos s;
  cf_des : desperate (md s') = desperate (md s); cf_imp : improved (md s') = improved (md s); cf_wb : wb (md s') = wb (md s)
}.

(** the recorded best embedding is complete and its statistics are the recorded ones *)
Definition binv (s : st) : Prop := full (best s) /\ statistics P (best s) = Ok (embedded (md s), stats s).
Lemma binv_stats s : binv s -> stats s <> [].
Proof.
  intros [(I & W & _) H]. destruct (statistics_spec P E F _ I W) as (b & t & Es & Nt & _). congruence.
Qed.
Definition imp_of (s s' : st) (b : bool) : Prop :=
  if b then stats s = [] \/ (embedded (md s) = false /\ embedded (md s') = true) \/
            (embedded (md s') = embedded (md s) /\ hist_lt (stats s') (stats s))
  else embedded (md s') = embedded (md s) /\ best s' = best s /\ stats s' = stats s.

Lemma check_improvement_spec s em : full em -> binv s \/ (stats s = [] /\ abl (best s) /\ embedded (md s) = false) ->
  wpo (runerr sf (interactive e)) (check_improvement e s em) (fun '(b, s') => cframe s s' /\ binv s' /\ imp_of s s' b /\
    (b = true -> chains (best s') = chains em) /\
    (stats s = [] -> b = true)).
Proof.
  clear PW MN Hq0 Hqm Wtab Hsf Hfix Hfne.
  intros Fu Hb. pose proof Fu as (I & W & _). unfold check_improvement.
  destruct (statistics_spec P E F em I W) as (bn & tmp & Es & Nt & _). rewrite Es. cbn [rbind].
  set (better := bn && negb (embedded (md s))).
  set (s1 := if better then set_embedded s true else s).
  assert (C1 : cframe s s1) by (unfold s1; destruct better; by split).
  assert (B1 : best s1 = best s /\ stats s1 = stats s) by (unfold s1; by destruct better).
  assert (E1 : embedded (md s1) = embedded (md s) || bn).
  { unfold s1, better. destruct (embedded (md s)) eqn:Q, bn; simpl; rewrite ?Q; done. }
  destruct (negb bn && embedded (md s1)) eqn:Q1.
  { destruct bn; [done|]. simpl in Q1. rewrite orb_false_r in E1. simpl. split; [done|]. 
    assert (s1 = s) as -> by (unfold s1, better; done).
    destruct Hb as [Hb|(_ & _ & Ef)]; [|congruence]. split; [done|]. split; [done|]. split; [done|].
    intros Z. by destruct (binv_stats s Hb). }
  assert (Ebn : embedded (md s1) = bn).
  { destruct bn; [by rewrite E1, orb_true_r|]. by simpl in Q1. }
  destruct (last tmp) as [mst|] eqn:Lt; [|by apply last_None in Lt]. cbn [rbind]. rewrite (proj2 B1).
  set (major := Z.of_nat (length (stats s)) - Z.of_nat (length tmp)).
  set (minor := match last (stats s) with None => 0 | Some x => x - mst end).
  set (bt2 := better || bool_decide (0 < major) || bool_decide (length (stats s) = 0%nat)).
  set (s2 := if bt2 && embedded (md s1) then set_target s1 (length tmp - 1) else s1).
  assert (C2 : cframe s s2) by (unfold s2; destruct (bt2 && embedded (md s1)); [destruct C1; by split|done]).
  assert (B2 : best s2 = best s /\ stats s2 = stats s /\ embedded (md s2) = bn).
  { destruct B1. unfold s2. destruct (bt2 && embedded (md s1)); simpl; auto. }
  destruct B2 as (Bb2 & Bs2 & Be2).
  set (bt3 := bt2 || (bool_decide (major = 0) && bool_decide (0 < minor))).
  rewrite Bs2.
  assert (G : forall b : bool, (b = true -> better = true \/ stats s = [] \/ (better = false /\ hist_lt tmp (stats s))) ->
     (stats s = [] -> b = true) -> (b = false -> better = false) ->
     wpo (runerr sf (interactive e)) (if b then let! b0 := emb_assign (best s2) em in Ok (true, set_best s2 b0 tmp) else Ok (false, s2))
      (fun '(b, s') => cframe s s' /\ binv s' /\ imp_of s s' b /\ (b = true -> chains (best s') = chains em) /\ (stats s = [] -> b = true))).
  { intros b G1 G2 G3. destruct b.
    - rewrite Bb2. destruct (assign_ok (best s) em) as (b0 & -> & C0 & W0 & _ & _).
      { destruct Hb as [[Hb _]|(_ & Hb & _)]; [by apply full_abl|done]. } { by apply full_abl. }
      cbn [rbind]. simpl. split; [destruct C2; by split|]. split.
      { split; simpl; [by eapply same_full'|]. rewrite (same_stats em b0) by done. rewrite Es. by rewrite Be2. }
      split; [|done]. unfold imp_of. simpl. destruct (G1 eq_refl) as [H|[H|[H1 H2]]]; [|by left|].
      + right; left. unfold better in H. apply andb_prop in H as [-> H]. split; [|done]. by destruct (embedded (md s)).
      + right; right. split; [|done]. rewrite Be2, <- Ebn, E1. unfold better in H1. destruct bn, (embedded (md s)); done.
    - simpl. specialize (G3 eq_refl). 
      assert (embedded (md s2) = embedded (md s)) as Em2.
      { rewrite Be2, <- Ebn, E1. unfold better in G3. destruct bn, (embedded (md s)); done. }
      split; [done|]. split; [|done]. destruct Hb as [Hb|(Hs & _)]; [|by specialize (G2 Hs)].
      unfold binv. rewrite Bb2, Bs2, Em2. done. }
  assert (H3 : bt3 = true -> better = true \/ stats s = [] \/ (better = false /\ hist_lt tmp (stats s))).
  { unfold bt3, bt2. destruct better; [by left|]. simpl. right.
    destruct (bool_decide_reflect (0 < major)) as [Hm|Hm]; [right; split; [done|]; left; unfold major in Hm; lia|].
    destruct (bool_decide_reflect (length (stats s) = 0%nat)) as [Hl|Hl].
    { left. by destruct (stats s). }
    simpl in *. right. split; [done|]. apply andb_prop in H as [Hm0 Hmin]. apply bool_decide_eq_true in Hm0, Hmin.
    unfold minor in Hmin. destruct (last (stats s)) as [y|] eqn:Ly; [|lia].
    rewrite last_lookup in Ly, Lt. right. unfold major in Hm0. split; [lia|].
    exists (length tmp - 1)%nat, mst, y. replace (length tmp - 1)%nat with (pred (length tmp)) by lia. split; [done|]. split.
    { by replace (pred (length tmp)) with (pred (length (stats s))) by lia. }
    split; [lia|]. intros j Lj. rewrite !lookup_ge_None_2; [done|lia|lia]. }
  destruct (negb bt3 && bool_decide (major = 0) && bool_decide (minor = 0)) eqn:Q3.
  - apply andb_prop in Q3 as [[Q3 Hm]%andb_prop Hmin]. apply bool_decide_eq_true in Hm.
    apply negb_true_iff in Q3. unfold major in Hm.
    destruct (hist_less_spec (length tmp) tmp (stats s)) as (b & -> & Hh); [lia..|]. cbn [rbind].
    unfold bt3, bt2 in Q3. destruct better eqn:Qb; [done|]. apply G; [|intros Z; rewrite Z in Q3; simpl in Q3|done].
    + intros Eb. right. right. split; [done|]. right. split; [lia|].
      destruct (Hh Eb) as (i & x & y & Li & ? & ? & ? & Hj). exists i, x, y. do 3 (split; [done|]).
      intros j Lj. destruct (decide (j < length tmp)%nat); [apply Hj; lia|]. rewrite !lookup_ge_None_2; [done|lia|lia].
    + rewrite orb_true_r in Q3. done.
  - cbn [rbind]. apply G; [done| |].
    + intros Z. unfold bt3, bt2. rewrite Z. simpl. by rewrite orb_true_r.
    + unfold bt3, bt2. by destruct better.
Qed.
End run.
