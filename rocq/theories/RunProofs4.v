(** The passes of the heuristic. *)
From stdpp Require Import base list numbers gmap.
From Verif Require Import Base ChainModel ChainProofs ChainProofs2 EmbModel Spec SpecEmb EmbProofs EmbProofs2
  EmbProofs3 EmbProofs4 EmbOps EmbProofs7 QueueModel PathModel QueueProofs Wp SpecPath DijkProofs PrepProofs RunProofs1 RunProofs2 OrderProofs RunProofs3.
Local Open Scope Z_scope.

Section run.
Context (e : env) (E : nat -> nat -> Prop) (F : fixdom).
Notation P := (pb e).
Context (PW : pb_wf P) (MN : even_areas P E) (Hq0 : (0 < nq P)%nat) (Hqm : Z.of_nat (nq P) <= max_distance).
Context (Wtab : forall m c, 0 <= c < 64 -> 0 <= wtab e m c <= max_distance).
Context (sf : bool) (Hsf : sf = true -> safe_env e E).
Context (Hfix : forall v q, (nv P <= v < nv P + nf P)%nat -> is_Some (F v !! q) -> (nq P <= q < nq P + nr P)%nat).
Notation einv := (einv P E F).
Notation placed := (placed e E F).
Notation sinv := (sinv e E).
Notation goodp := (goodp E).
Notation full := (full e E F).
Notation binv := (binv e E F).
Notation abl := (abl e).

(** the state between steps *)
Definition rinv (s : st) : Prop := sinv s /\ forall u, u ∈ vos s -> (u < nv P)%nat.

(** the best embedding stays or improves; [b] says whether it improved *)
Definition same3 (s s' : st) : Prop := embedded (md s') = embedded (md s) /\ best s' = best s /\ stats s' = stats s.
Definition bet (s s' : st) : Prop := (embedded (md s) = false /\ embedded (md s') = true) \/
  (embedded (md s') = embedded (md s) /\ hist_lt (stats s') (stats s)).
Definition prog (b : bool) (s s' : st) : Prop := if b then bet s s' else same3 s s'.

Lemma same3_refl s : same3 s s.
Proof. done. Qed.
Lemma same3_trans s s' s'' : same3 s s' -> same3 s' s'' -> same3 s s''.
Proof. intros (?&?&?) (?&?&?). split; [congruence|]. split; congruence. Qed.
Lemma sframe_same3 s s' : sframe s s' -> same3 s s'.
Proof. intros []. unfold same3. rewrite sf_md. done. Qed.
Lemma prog_same3 s s' : same3 s s' -> prog false s s'.
Proof. done. Qed.
Lemma prog_trans b b' s s' s'' : prog b s s' -> prog b' s' s'' -> prog (b || b') s s''.
Proof.
  destruct b, b'; simpl.
  - intros [[A B]|[A B]] [[C D]|[C D]]; [congruence|left; split; congruence|left; split; congruence|].
    right. split; [congruence|]. by eapply hist_lt_trans.
  - intros [[A B]|[A B]] (C & _ & D); [left; split; congruence|right; split; [congruence|by rewrite D]].
  - intros (C & _ & D) [[A B]|[A B]]; [left; split; congruence|right; split; [congruence|by rewrite <- D]].
  - apply same3_trans.
Qed.
Lemma prog_emb b s s' : prog b s s' -> embedded (md s) = true -> embedded (md s') = true /\
  if b then hist_lt (stats s') (stats s) else best s' = best s /\ stats s' = stats s.
Proof. intros H He. destruct b; simpl in H; [destruct H as [[? ?]|[-> ?]]; [congruence|done]|by destruct H as (-> & ? & ?)]. Qed.
Lemma imp_prog s s' b : stats s <> [] -> imp_of s s' b -> prog b s s'.
Proof. intros N H. destruct b; simpl in H; [|done]. destruct H as [?|[?|?]]; [done|by left|by right]. Qed.
Lemma binv_same3 s s' : same3 s s' -> binv s -> binv s'.
Proof. intros (A & B & C). unfold binv. by rewrite A, B, C. Qed.
Lemma rinv_frame s s' : sinv s' -> sframe s s' -> rinv s -> rinv s'.
Proof. intros S Fr [_ H]. split; [done|]. by rewrite (sf_vos _ _ Fr). Qed.
Lemma rinv_cframe s s' : cframe s s' -> rinv s -> rinv s'.
Proof. intros C [[V S] H]. split; [split; [by rewrite (cf_vn _ _ C)|by rewrite (cf_sr _ _ C)]|by rewrite (cf_vos _ _ C)]. Qed.

Lemma full_seq em : full em -> forall w, w ∈ seq 0 (nv P) -> (w < nv P)%nat /\ goodp em w.
Proof. intros (_ & _ & G) w Hw%elem_of_seq. split; [lia|]. apply G. lia. Qed.
Lemma seq_full em u : einv em -> wexact em -> (forall w, w ∈ u :: seq 0 (nv P) -> goodp em w) -> full em.
Proof. intros I W G. split; [done|]. split; [done|]. intros w Hw. apply G. right. apply elem_of_seq. lia. Qed.

Lemma order_spec s o : rinv s -> exists order s', var_order e s o = Ok (order, s') /\ rinv s' /\ same3 s s' /\
  (forall u, u ∈ order -> (u < nv P)%nat) /\ (o <> VO_KEEP -> order ≡ₚ seq 0 (nv P)) /\ sr s' = sr s /\ md s' = md s /\ pushb s' = pushb s /\ vn s' = vn s.
Proof.
  clear PW MN Hq0 Hqm Wtab Hsf Hfix.
  intros [SI Hv]. assert (o = VO_KEEP \/ o <> VO_KEEP) as [->|No] by (destruct o; auto).
  - eexists _, _. split; [reflexivity|]. done.
  - destruct (var_order_spec e s o E) as (order & pos & -> & Pm); [apply SI|done|].
    assert (Hl : forall u, u ∈ order -> (u < nv P)%nat) by (intros u; rewrite Pm, elem_of_seq; lia).
    eexists _, _. split; [done|]. split; [by destruct SI|]. done.
Qed.

Lemma fc_spec s em u : rinv s -> binv s -> full em -> (u < nv P)%nat ->
  wpo (runerr sf (interactive e)) (find_chain2 e s em u) (fun '(b, s', em') => rinv s' /\ binv s' /\ same3 s s' /\ md s' = md s /\ einv em' /\ wexact em' /\
    (b = true -> full em') /\ (embedded (md s) = true -> b = true)).
Proof.
  intros R B Fu Hu. pose proof Fu as (I & W & G).
  eapply wpr_mono; [apply (find_chain2_spec e E F PW MN Hq0 Hqm Wtab sf Hsf Hfix s em u (seq 0 (nv P))); auto|].
  { apply R. } { by apply full_seq. }
  intros [[b s'] em'] (SI' & Fr & I' & W' & Gb & Eb). 
  pose proof (sframe_same3 _ _ Fr) as S3.
  split; [by eapply rinv_frame|]. split; [by eapply binv_same3|]. split; [done|]. split; [apply Fr|]. do 2 (split; [done|]).
  split; [|intros He; by apply Eb]. intros Hb. eapply seq_full; eauto.
Qed.

Lemma ci_spec s em : rinv s -> binv s -> full em ->
  wpo (runerr sf (interactive e)) (check_improvement e s em) (fun '(b, s') => rinv s' /\ binv s' /\ cframe s s' /\ prog b s s' /\ (b = true -> chains (best s') = chains em)).
Proof.
  intros R B Fu. eapply wpr_mono; [apply (check_improvement_spec e E F); [done|by left]|].
  intros [b s'] (C & B' & Im & Hc & _). split; [by eapply rinv_cframe|]. split; [done|]. split; [done|]. split; [|done].
  eapply imp_prog; [|done]. by eapply binv_stats.
Qed.

Definition pass_post (s : st) '((r, s', em') : pres * st * emb) : Prop :=
  rinv s' /\ binv s' /\ einv em' /\ wexact em' /\ (r <> PFail -> full em') /\
  exists b, prog b s s' /\ forall b', r = PRes b' -> b = b'.

Lemma stops_spec s0 s em b : rinv s -> binv s -> full em -> prog b s0 s ->
  wpo (runerr sf (interactive e)) (let! (r, s) := check_stops e s b in Ok (r, s, em)) (pass_post s0).
Proof.
  intros R B Fu Pr. pose proof Fu as (I & W & _). unfold check_stops.
  assert (R' : rinv (set_spos s (S (spos s)))) by (by destruct R as [[] ?]).
  destruct (stops e (spos s)); [| |destruct (interactive e) eqn:Ei]; simpl; try (by right);
  (split; [done|]; split; [done|]; split; [done|]; split; [done|]; split; [done|]; exists b; split; [done|]); congruence.
Qed.

(** a pass that replaces chains one by one with [step], offering each result *)
Definition step_ok (step : st -> emb -> nat -> res (bool * st * emb)) : Prop :=
  forall s em u, rinv s -> binv s -> full em -> (u < nv P)%nat ->
  wpo (runerr sf (interactive e)) (step s em u) (fun '(b, s', em') => rinv s' /\ binv s' /\ same3 s s' /\ einv em' /\ wexact em' /\ (b = true -> full em')).

Lemma fc_step : step_ok (find_chain2 e).
Proof.
  intros s em u R B Fu Hu. eapply wpr_mono; [by apply fc_spec|]. intros [[b s'] em'] (?&?&?&?&?&?&?&?). done.
Qed.

Lemma overfill_spec s em : rinv s -> binv s -> full em -> wpo (runerr sf (interactive e)) (improve_overfill_pass e s em) (pass_post s).
Proof.
  intros R B Fu. unfold improve_overfill_pass.
  destruct (order_spec s VO_PFS R) as (order & s1 & -> & R1 & S1 & Ho & _). cbn [rbind].
  eapply wpr_step.
  { apply (wpr_foldM _ (fun _ '(c, imp, s', em') => rinv s' /\ binv s' /\ einv em' /\ wexact em' /\ (c <> CFail -> full em') /\ prog imp s s')).
    - destruct Fu as (I & W & G). split; [done|]. split; [by eapply binv_same3|]. do 2 (split; [done|]). split; [done|]. by apply prog_same3.
    - intros dn u rest [[[c imp] s'] em'] El (R' & B' & I' & W' & Fu' & Pr). cbv beta iota. destruct c; [|done..].
      assert (Hu : (u < nv P)%nat) by (apply Ho; rewrite El; apply elem_of_app; right; left).
      eapply wpr_step; [by apply fc_step; auto|]. intros [[ok s2] em2] (R2 & B2 & S2 & I2 & W2 & F2).
      pose proof (prog_trans _ _ _ _ _ Pr (prog_same3 _ _ S2)) as Pr2. rewrite orb_false_r in Pr2.
      destruct ok; cbn [negb].
      + eapply wpr_step; [by apply ci_spec; auto|]. intros [b s3] (R3 & B3 & C3 & P3 & _). simpl.
        do 2 (split; [done|]). do 2 (split; [done|]). split; [auto|]. by eapply prog_trans.
      + simpl. do 4 (split; [done|]). split; done. }
  intros [[[c imp] s2] em2] (R2 & B2 & I2 & W2 & F2 & Pr2). cbv beta iota. destruct c; cbn [rbind].
  - apply stops_spec; auto.
  - simpl. do 4 (split; [done|]). split; [done|]. by exists imp.
  - apply stops_spec; auto.
Qed.

Lemma flip_full vn em u tgt : vn_ok P E vn -> full em -> (u < nv P)%nat -> exists em', flip_back P vn em u tgt = Ok em' /\ full em'.
Proof.
  clear MN Hq0 Hqm Wtab Hsf Hfix.
  intros V Fu Hu. pose proof Fu as (I & W & G). destruct (vn_ok_get _ _ _ u V) as [l Hl]; [lia|].
  destruct (vn_ok_row _ _ _ _ _ V Hl) as (HE & ND & Hr).
  destruct (flip_back_spec P E F vn em u tgt l) as (em' & -> & S); auto.
  { intros v Hv _ Hn. apply (G u Hu); [by apply HE|done]. }
  exists em'. split; [done|]. split; [by apply S|]. split; [by apply S|]. intros w Hw. eapply stolen_good; eauto.
Qed.

Lemma max_fill_spec em u : einv em -> (u < nv P)%nat -> exists m, max_fill_of em u = Ok m.
Proof.
  clear PW MN Hq0 Hqm Wtab Hsf Hfix.
  intros I Hu. unfold max_fill_of. destruct (ei_get _ _ _ _ u I) as [c Hc]; [lia|]. rewrite (vget_ok _ _ _ Hc). cbn [rbind].
  destruct (foldM_inv (fun m q => let! w := vget (eweight em) q in Ok (Z.max m w)) (fun _ _ => True) (cqubits c) 0) as (m & -> & _); [done| |eauto].
  intros dn q rest s El _. assert (Hq : qin c q) by (apply cqubits_in; rewrite El; apply elem_of_app; right; left).
  destruct (lookup_lt_is_Some_2 (eweight em) q) as [w Hw].
  { rewrite (ei_wlen _ _ _ _ I). eapply ei_below; eauto. by apply pm_is_Some. }
  rewrite (vget_ok _ _ _ Hw). simpl. eauto.
Qed.

Lemma stolen_full u em em' : stolen P E F u em em' -> full em -> full em'.
Proof. intros S (I & W & G). split; [by apply S|]. split; [by apply S|]. intros w Hw. eapply stolen_good; eauto. Qed.

Lemma pushdown_step old : step_ok (pushdown_one e old).
Proof.
  intros s em u R B Fu Hu. unfold pushdown_one.
  pose proof Fu as (I & W & G). pose proof R as [SI Hv].
  destruct (steal_ok e E F PW (vn s) em u (si_vn _ _ _ SI) I Hu) as (em1 & E1 & S1).
  pose proof (stolen_full _ _ _ S1 Fu) as Fu1. pose proof Fu1 as (I1 & W1 & G1).
  case_decide as Hd.
  - rewrite E1. cbn [rbind]. destruct (max_fill_spec em1 u I1 Hu) as [mf ->]. cbn [rbind].
    destruct (freeze_out_spec P E F em1 u I1 Hu) as (n & T & -> & Te & Fo & _). cbn [rbind].
    assert (IT : einv T) by (by eapply torn_einv).
    assert (WT : wexact T) by (eapply torn_wexact; eauto; eapply ei_get; eauto; lia).
    set (s0 := set_wb s (Z.max 0 mf)).
    assert (SI0 : sinv s0) by (by destruct SI).
    eapply wpr_step; [apply (find_chain3_spec e E F PW MN Hq0 Wtab sf Hsf Hfix s0 T u 0 SI0 IT WT); [by eapply torn_absent|done]|].
    intros [[b s'] em'] (SI' & Fr & Hb).
    assert (S3 : same3 s s').
    { eapply (same3_trans s s0); [done|by apply sframe_same3]. }
    assert (R' : rinv s') by (split; [done|]; rewrite (sf_vos _ _ Fr); done).
    destruct b.
    + simpl. split; [done|]. split; [by eapply binv_same3|]. split; [done|]. split; [apply Hb|]. split; [apply Hb|].
      intros _. eapply seq_full; [apply Hb|apply Hb|].
      eapply (placed_good e E F (vn s) em1); eauto; [apply SI|by apply full_seq].
    + subst em'. destruct (thaw_back_spec P E F em1 T u I1 Hu Te Fo) as (em2 & -> & C2 & W2). cbn [rbind].
      assert (Fu2 : full em2) by (by eapply same_full').
      destruct (flip_full (vn s') em2 u 0 (si_vn _ _ _ SI') Fu2 Hu) as (em3 & E3 & Fu3). cbn [vn set_pushb]. rewrite E3. simpl.
      split; [by destruct R' as [[] ?]|]. split; [by eapply binv_same3|]. split; [done|]. split; [apply Fu3|]. split; [apply Fu3|]. done.
  - cbn [vn set_wb set_md]. rewrite E1. cbn [rbind].
    destruct (tear_ok e E F (vn s) em1 u (si_vn _ _ _ SI) I1 Hu) as (T & -> & Te & _). cbn [rbind].
    assert (IT : einv T) by (by eapply torn_einv).
    assert (WT : wexact T) by (eapply torn_wexact; eauto; eapply ei_get; eauto; lia).
    set (s0 := set_wb s old).
    assert (SI0 : sinv s0) by (by destruct SI).
    eapply wpr_mono; [apply (find_chain3_spec e E F PW MN Hq0 Wtab sf Hsf Hfix s0 T u 0 SI0 IT WT); [by eapply torn_absent|done]|].
    intros [[b s'] em'] (SI' & Fr & Hb).
    assert (S3 : same3 s s').
    { eapply (same3_trans s s0); [done|by apply sframe_same3]. }
    split; [split; [done|]; rewrite (sf_vos _ _ Fr); done|]. split; [by eapply binv_same3|]. split; [done|]. destruct b.
    + split; [apply Hb|]. split; [apply Hb|]. intros _. eapply seq_full; [apply Hb|apply Hb|].
      eapply (placed_good e E F (vn s) em1); eauto; [apply SI|by apply full_seq].
    + subst em'. done.
Qed.

Lemma pushdown_spec s em : rinv s -> binv s -> full em -> wpo (runerr sf (interactive e)) (pushdown_overfill_pass e s em) (pass_post s).
Proof.
  intros R B Fu. unfold pushdown_overfill_pass.
  destruct (order_spec s VO_SHUFFLE R) as (order & s1 & -> & R1 & S1 & Ho & _). cbn [rbind].
  eapply wpr_step.
  { apply (wpr_foldM _ (fun _ '(c, imp, s', em') => rinv s' /\ binv s' /\ einv em' /\ wexact em' /\ (c <> CFail -> full em') /\ prog imp s s')).
    - destruct Fu as (I & W & G). split; [done|]. split; [by eapply binv_same3|]. do 2 (split; [done|]). split; [done|]. by apply prog_same3.
    - intros dn u rest [[[c imp] s'] em'] El (R' & B' & I' & W' & Fu' & Pr). cbv beta iota. destruct c; [|done..].
      assert (Hu : (u < nv P)%nat) by (apply Ho; rewrite El; apply elem_of_app; right; left).
      eapply wpr_step; [by apply pushdown_step; auto|]. intros [[ok s2] em2] (R2 & B2 & S2 & I2 & W2 & F2).
      pose proof (prog_trans _ _ _ _ _ Pr (prog_same3 _ _ S2)) as Pr2. rewrite orb_false_r in Pr2.
      destruct ok; cbn [negb].
      + eapply wpr_step; [by apply ci_spec; auto|]. intros [b s3] (R3 & B3 & C3 & P3 & _). simpl.
        do 2 (split; [done|]). do 2 (split; [done|]). split; [auto|]. by eapply prog_trans.
      + simpl. do 4 (split; [done|]). split; done. }
  intros [[[c imp] s2] em2] (R2 & B2 & I2 & W2 & F2 & Pr2). cbv beta iota.
  assert (G : c <> CFail -> wpo (runerr sf (interactive e)) (let s := set_wb s2 (wb (md s)) in
      let s := if negb imp then set_pushb s (pushb s + Z.of_nat (nv P) * 2 / Z.of_nat (inner_rounds e)) else s in
      let! (r, s) := check_stops e s imp in Ok (r, s, em2)) (pass_post s)).
  { intros Hc. cbv zeta. apply stops_spec; [| |by apply F2|].
    - destruct R2 as [[] ?]. destruct (negb imp); (split; [split|]; done).
    - destruct (negb imp); done.
    - destruct (negb imp); done. }
  destruct c.
  - by apply G.
  - simpl. do 4 (split; [done|]). split; [done|]. by exists imp.
  - by apply G.
Qed.

Lemma chainlength_spec s em : (0 < nv P + nf P)%nat -> rinv s -> binv s -> full em -> wpo (runerr sf (interactive e)) (improve_chainlength_pass e s em) (pass_post s).
Proof.
  intros Hn R B Fu. unfold improve_chainlength_pass. pose proof R as [SI Hvos].
  pose proof (si_sr _ _ _ SI) as Sw.
  destruct (lookup_lt_is_Some_2 (perm (sr s)) 0%nat) as [p0 Hp0]; [pose proof (bo_perm _ _ Sw); lia|].
  eapply wpr_vget; [done|]. destruct (shuffle (rnd e) (rpos s) p0) as [p1 pos] eqn:Sh.
  assert (Lp : length p1 = nq P).
  { pose proof (shuffle_perm (rnd e) (rpos s) p0) as Pm. rewrite Sh in Pm. simpl in Pm. apply Permutation_length in Pm.
    by rewrite Pm, (bo_permr _ _ Sw _ _ Hp0). }
  set (s0 := set_rpos (set_sr s (set_perm (sr s) (replicate (length (perm (sr s))) p1))) pos).
  assert (R0 : rinv s0).
  { split; [|done]. split; simpl; [apply SI|]. destruct Sw. split; simpl; auto.
    - by rewrite replicate_length.
    - intros v r [-> _]%lookup_replicate. done. }
  assert (S0 : same3 s s0) by done.
  change (md s0) with (md s).
  destruct (order_spec s0 (if improved (md s) then VO_KEEP else VO_PFS) R0) as (order & s1 & -> & R1 & S1 & Ho & _). cbn [rbind].
  eapply wpr_step.
  { apply (wpr_foldM _ (fun _ '(go, imp, s', em') => rinv s' /\ binv s' /\ einv em' /\ wexact em' /\ (go = true -> full em') /\ prog imp s s')).
    - destruct Fu as (I & W & G). split; [done|]. split; [by eapply binv_same3; [|by eapply (binv_same3 s)]|]. do 2 (split; [done|]).
      split; [done|]. apply prog_same3. by eapply same3_trans.
    - intros dn u rest [[[go imp] s'] em'] El (R' & B' & I' & W' & Fu' & Pr). cbv beta iota. destruct go; cbn [negb]; [|done].
      assert (Hu : (u < nv P)%nat) by (apply Ho; rewrite El; apply elem_of_app; right; left).
      eapply wpr_step; [by apply fc_step; auto|]. intros [[ok s2] em2] (R2 & B2 & S2 & I2 & W2 & F2).
      pose proof (prog_trans _ _ _ _ _ Pr (prog_same3 _ _ S2)) as Pr2. rewrite orb_false_r in Pr2.
      destruct ok; cbn [negb].
      + eapply wpr_step; [by apply ci_spec; auto|]. intros [b s3] (R3 & B3 & C3 & P3 & _). simpl.
        do 2 (split; [done|]). do 2 (split; [done|]). split; [auto|]. by eapply prog_trans.
      + simpl. do 4 (split; [done|]). split; done. }
  intros [[[go imp] s2] em2] (R2 & B2 & I2 & W2 & F2 & Pr2). cbv beta iota. destruct go.
  - apply stops_spec; auto.
  - simpl. do 4 (split; [done|]). split; [done|]. by exists imp.
Qed.
End run.
