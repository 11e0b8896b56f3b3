(** The whole heuristic: initialization, trials, rounds, chain-length refinement. *)
From stdpp Require Import base list numbers gmap.
From Verif Require Import Base ChainModel ChainProofs ChainProofs2 EmbModel Spec SpecEmb EmbProofs EmbProofs2
  EmbProofs3 EmbProofs4 EmbOps EmbProofs7 QueueModel PathModel SpecPath QueueProofs Wp DijkProofs PrepProofs RunProofs1 RunProofs2 OrderProofs RunProofs3 RunProofs4.
Local Open Scope Z_scope.

(** ** the histogram order is well founded: a histogram read as a number *)
Definition mu (B : Z) (t : list Z) : Z := foldr (fun x a => x + B * a) 0 t.
Lemma mu_range B t : 0 < B -> (forall x, x ∈ t -> 0 <= x < B) -> 0 <= mu B t < B ^ Z.of_nat (length t).
Proof.
  intros HB. induction t as [|x t IH]; intros H; [simpl; lia|].
  change (mu B (x :: t)) with (x + B * mu B t). change (length (x :: t)) with (S (length t)).
  rewrite Nat2Z.inj_succ, Z.pow_succ_r by lia.
  assert (0 <= x < B) by (apply H; left). assert (0 <= mu B t < B ^ Z.of_nat (length t)) by (apply IH; intros y Hy; apply H; by right). nia.
Qed.
Lemma mu_top B t y : 0 < B -> (forall x, x ∈ t -> 0 <= x < B) -> last t = Some y -> 0 < y -> B ^ (Z.of_nat (length t) - 1) <= mu B t.
Proof.
  intros HB. induction t as [|x t IH]; intros H L Hy; [done|].
  change (mu B (x :: t)) with (x + B * mu B t). change (length (x :: t)) with (S (length t)).
  assert (0 <= x < B) by (apply H; left).
  destruct t as [|z t].
  - simpl in *. injection L as ->. lia.
  - specialize (IH (fun y Hy => H y (elem_of_list_further _ _ _ Hy)) L Hy).
    replace (Z.of_nat (S (length (z :: t))) - 1) with (Z.succ (Z.of_nat (length (z :: t)) - 1)) by lia.
    rewrite Z.pow_succ_r by (simpl; lia). nia.
Qed.
Lemma mu_lex B : 0 < B -> forall i new old x y, length new = length old -> (forall x, x ∈ new -> 0 <= x < B) -> (forall x, x ∈ old -> 0 <= x < B) ->
  new !! i = Some x -> old !! i = Some y -> x < y -> (forall j, (i < j)%nat -> new !! j = old !! j) -> mu B new < mu B old.
Proof.
  intros HB. induction i as [|i IH]; intros new old x y L Hn Ho Hx Hy Lt Hj; (destruct new as [|a new]; [done|]); (destruct old as [|b old]; [done|]);
    change (mu B (a :: new)) with (a + B * mu B new); change (mu B (b :: old)) with (b + B * mu B old).
  - simpl in Hx, Hy. assert (new = old) as ->; [|injection Hx as ->; injection Hy as ->; lia].
    apply list_eq. intros j. apply (Hj (S j)). lia.
  - assert (mu B new < mu B old).
    { eapply (IH new old x y); auto.
      - intros z Hz. apply Hn. by right.
      - intros z Hz. apply Ho. by right.
      - intros j Lj. apply (Hj (S j)). lia. }
    assert (0 <= a < B) by (apply Hn; left). assert (0 <= b < B) by (apply Ho; left). nia.
Qed.

(** a histogram of counts below [B], with a positive top unless it has one entry *)
Definition hok (B : Z) (t : list Z) : Prop := t <> [] /\ (forall x, x ∈ t -> 0 <= x < B) /\
  ((1 < length t)%nat -> exists y, last t = Some y /\ 0 < y).
Lemma hist_lt_mu B new old : 0 < B -> hok B new -> hok B old -> hist_lt new old -> mu B new < mu B old.
Proof.
  intros HB (Nn & Rn & _) (No & Ro & To) [H|(L & i & x & y & Hx & Hy & Lt & Hj)]; [|by eapply mu_lex].
  assert (0 < length new)%nat by (destruct new; [done|simpl; lia]).
  destruct (To ltac:(lia)) as (y & Ly & Hy). pose proof (mu_range B new HB Rn). pose proof (mu_top B old y HB Ro Ly Hy).
  assert (B ^ Z.of_nat (length new) <= B ^ (Z.of_nat (length old) - 1)) by (apply Z.pow_le_mono_r; lia). lia.
Qed.

Lemma countZ_le {A} (f : A -> bool) l : 0 <= countZ f l <= Z.of_nat (length l).
Proof.
  unfold countZ. split; [lia|]. apply inj_le. induction l as [|x l IH]; simpl; [lia|]. destruct (f x); simpl; lia.
Qed.
Lemma countZ_pos {A} (f : A -> bool) l x : x ∈ l -> f x = true -> 0 < countZ f l.
Proof.
  intros H Hf. unfold countZ. induction l as [|y l IH]; [by apply elem_of_nil in H|].
  apply elem_of_cons in H as [->|H]; simpl; [rewrite Hf; simpl; lia|]. destruct (f y); simpl; [lia|auto].
Qed.

Section run.
Context (e : env) (E : nat -> nat -> Prop) (F : fixdom).
Notation P := (pb e).
Context (PW : pb_wf P) (MN : even_areas P E) (Hq0 : (0 < nq P)%nat) (Hqm : Z.of_nat (nq P) <= max_distance).
Context (Wtab : forall m c, 0 <= c < 64 -> 0 <= wtab e m c <= max_distance).
Context (sf : bool) (Hsf : sf = true -> safe_env e E).
Context (Hfix : forall v q, (nv P <= v < nv P + nf P)%nat -> is_Some (F v !! q) -> (nq P <= q < nq P + nr P)%nat).
Context (Hn : (0 < nv P + nf P)%nat).
Notation einv := (einv P E F).
Notation placed := (placed e E F).
Notation sinv := (sinv e E).
Notation goodp := (goodp E).
Notation full := (full e E F).
Notation binv := (binv e E F).
Notation rinv := (rinv e E).
Notation abl := (abl e).
Notation pass_post := (pass_post e E F).

Lemma init_spec s em : rinv s -> einv em -> wexact em -> embedded (md s) = false ->
  wpo (runerr sf (interactive e)) (initialization_pass e s em) (fun '(r, s', em') => rinv s' /\ same3 s s' /\ einv em' /\ wexact em' /\ (r <> PFail -> full em')).
Proof.
  intros R I W Em. unfold initialization_pass.
  destruct (order_spec e E s (if has_restrict e then VO_DFS else VO_PFS) R) as (order & s1 & -> & R1 & S1 & Ho & Pm & _). cbn [rbind].
  assert (Perm : order ≡ₚ seq 0 (nv P)) by (apply Pm; by destruct (has_restrict e)).
  eapply wpr_step.
  { apply (wpr_foldM _ (fun dn '(go, s', em') => rinv s' /\ same3 s s' /\ einv em' /\ wexact em' /\
       (go = true -> forall w, w ∈ dn -> (w < nv P)%nat /\ goodp em' w))).
    - do 4 (split; [done|]). intros _ w H. by apply elem_of_nil in H.
    - intros dn u rest [[go s'] em'] El (R' & S' & I' & W' & G'). cbv beta iota. destruct go; cbn [negb]; [|simpl; done].
      specialize (G' eq_refl).
      assert (Hu : (u < nv P)%nat) by (apply Ho; rewrite El; apply elem_of_app; right; left).
      destruct (ei_get _ _ _ _ u I') as [c Hc]; [lia|]. unfold chainsize. rewrite (vget_ok _ _ _ Hc). cbn [rbind].
      pose proof R' as [SI' Hvos]. destruct (vn_ok_get _ _ _ u (si_vn _ _ _ SI')) as [l Hl]; [lia|].
      eapply wpr_step with (P := fun k => k = true -> linkedb_spec (vn s') em' u).
      { case_decide; [done|]. destruct (linked_at_spec (vn s') em' u l c Hc Hl) as (b & -> & Hb). simpl. apply Hb. }
      intros k Hk. cbv beta. destruct k.
      + simpl. do 4 (split; [done|]). intros _ w [Hw| ->%elem_of_list_singleton]%elem_of_app; [by apply G'|].
        split; [done|]. destruct (Hk eq_refl) as [H1 H2]. split; [done|]. intros v Ev _. apply H2. destruct (si_vn _ _ _ SI') as [_ HE]. by apply HE.
      + eapply wpr_mono; [apply (find_chain2_spec e E F PW MN Hq0 Hqm Wtab sf Hsf Hfix s' em' u dn); auto|].
        { destruct S' as (-> & _). congruence. }
        intros [[b s2] em2] (SI2 & Fr & I2 & W2 & Gb & _). 
        split; [by eapply rinv_frame|]. split; [eapply same3_trans; [done|by apply sframe_same3]|]. do 2 (split; [done|]).
        intros Eb w Hw. split.
        * apply elem_of_app in Hw as [Hw| ->%elem_of_list_singleton]; [by apply G'|done].
        * apply Gb; [done|]. apply elem_of_app in Hw as [Hw| ->%elem_of_list_singleton]; [by right|by left]. }
  intros [[go s2] em2] (R2 & S2 & I2 & W2 & G2). cbv beta iota. destruct go.
  - assert (Fu : full em2).
    { split; [done|]. split; [done|]. intros u Hu. apply (G2 eq_refl). rewrite Perm. apply elem_of_seq. lia. }
    unfold check_stops. assert (R' : rinv (set_spos s2 (S (spos s2)))) by (by destruct R2 as [[] ?]).
    destruct (stops e (spos s2)); [| |destruct (interactive e)]; simpl; try done; try (by right).
  - simpl. done.
Qed.

Lemma sback s : binv s -> exists z, stats_back s = Ok z.
Proof.
  clear PW MN Hq0 Hqm Wtab Hsf Hfix Hn.
  intros B. unfold stats_back. destruct (last (stats s)) eqn:L; [eauto|]. apply last_None in L. by apply (binv_stats e E F) in B.
Qed.

(** a step of the mood or counters *)
Definition moved (s s' : st) : Prop := vn s' = vn s /\ sr s' = sr s /\ vos s' = vos s /\ same3 s s'.
Lemma moved_rinv s s' : moved s s' -> rinv s -> rinv s'.
Proof. intros (A & B & C & _) [[] ?]. split; [split|]; rewrite ?A, ?B, ?C; done. Qed.
Lemma moved_binv s s' : moved s s' -> binv s -> binv s'.
Proof. intros (A & B & C & D). by apply binv_same3. Qed.

Lemma rounds_spec rp lt : forall ip s em, rinv s -> binv s -> full em ->
  wpo (runerr sf (interactive e)) (rounds e rp lt ip s em) (fun '(ip', s', em') => rinv s' /\ binv s' /\ full em' /\ exists b, prog b s s').
Proof.
  induction rp as [|rp IH]; intros ip s em R B Fu; cbn [rounds].
  { simpl. do 3 (split; [done|]). exists false. by apply prog_same3. }
  case_decide as Hi. { simpl. do 3 (split; [done|]). exists false. by apply prog_same3. }
  destruct (embedded (md s)) eqn:Em. { simpl. do 3 (split; [done|]). exists false. by apply prog_same3. }
  destruct (sback s B) as [z ->]. cbn [rbind].
  set (s1 := set_desperate s _). assert (M1 : moved s s1) by done.
  pose proof (moved_rinv _ _ M1 R) as R1. pose proof (moved_binv _ _ M1 B) as B1.
  assert (S1 : same3 s s1) by done.
  clearbody s1.
  eapply wpr_step with (P := fun '(r, s', em') => rinv s' /\ binv s' /\ einv em' /\ wexact em' /\ (r <> PFail -> full em') /\ exists b, prog b s s').
  { case_decide as Hp.
    - eapply wpr_mono; [apply (pushdown_spec e E F PW MN Hq0 Wtab sf Hsf Hfix); auto|].
      intros [[r s'] em'] (?&?&?&?&?&b & Pb & ?). do 5 (split; [done|]). exists (false || b). eapply prog_trans; [apply prog_same3, S1|done].
    - eapply wpr_mono; [apply (overfill_spec e E F PW MN Hq0 Hqm Wtab sf Hsf Hfix); auto|].
      { by destruct R1 as [[] ?]. }
      intros [[r s'] em'] (?&?&?&?&?&b & Pb & ?). do 5 (split; [done|]). exists (false || b). eapply prog_trans; [apply prog_same3, S1|done]. }
  intros [[r s2] em2] (R2 & B2 & I2 & W2 & F2 & b2 & P2). cbv beta iota.
  assert (K : forall ii ss ee, rinv ss -> binv ss -> full ee -> same3 s2 ss -> wpo (runerr sf (interactive e)) (rounds e rp lt ii ss ee)
     (fun '(ip', s', em') => rinv s' /\ binv s' /\ full em' /\ exists b, prog b s s')).
  { intros ii ss ee ? ? ? Ss. eapply wpr_mono; [by apply IH|]. intros [[? ?] ?] (?&?&?&b & Pb). do 3 (split; [done|]).
    exists (b2 || (false || b)). eapply prog_trans; [exact P2|]. eapply prog_trans; [apply prog_same3, Ss|done]. }
  assert (Mv : forall b, rinv (set_improved s2 b) /\ binv (set_improved s2 b)).
  { intros b. split; [by destruct R2 as [[] ?]|done]. }
  destruct r as [| |b].
  - destruct (assign_ok e em2 (best s2)) as (em3 & -> & C3 & W3 & _ & _); [by eapply einv_abl|apply full_abl with E F; apply B2|]. cbn [rbind].
    apply K; [apply Mv|apply Mv| |done]. eapply same_full'; [done|done|apply B2].
  - apply K; [done|done|auto|done].
  - assert (full em2) by (by apply F2).
    destruct b; (apply K; [| |done|done]); [by destruct R2 as [[] ?]|done|apply Mv|apply Mv].
Qed.

Lemma trials_spec init tp : einv init -> wexact init -> forall s em, rinv s -> binv s -> full em ->
  wpo (runerr sf (interactive e)) (trials e init tp s em) (fun '(s', em') => rinv s' /\ binv s' /\ abl em' /\ (embedded (md s) = true -> same3 s s')).
Proof.
  intros Ii Wi. induction tp as [|tp IH]; intros s em R B Fu; cbn [trials].
  { simpl. do 2 (split; [done|]). split; [by eapply full_abl|done]. }
  destruct (embedded (md s)) eqn:Em. { simpl. do 2 (split; [done|]). split; [by eapply full_abl|done]. }
  assert (K : forall ss ee, rinv ss -> binv ss -> full ee -> wpo (runerr sf (interactive e)) (trials e init tp ss ee)
     (fun '(s', em') => rinv s' /\ binv s' /\ abl em' /\ (false = true -> same3 s s'))).
  { intros ss ee ? ? ?. eapply wpr_mono; [by apply IH|]. intros [? ?] (?&?&?&_). done. }
  eapply wpr_step; [apply (rounds_spec (inner_rounds e)); [|done|done]|].
  { by destruct R as [[] ?]. }
  intros [[ip s1] em1] (R1 & B1 & F1 & _). cbv beta iota.
  case_decide as Hd; [|by eapply K]. destruct Hd as (_ & Em1 & _).
  destruct (assign_ok e em1 init) as (em2 & -> & C2 & W2 & _ & _); [by eapply full_abl|by eapply einv_abl|]. cbn [rbind].
  set (s2 := set_pushb (set_desperate s1 false) 0).
  assert (R2 : rinv s2) by (by destruct R1 as [[] ?]). assert (B2 : binv s2) by done.
  eapply wpr_step; [apply init_spec; [done|by eapply same_einv|by eapply wexact_chains|done]|].
  intros [[r s3] em3] (R3 & S3 & I3 & W3 & F3). cbv beta iota.
  assert (B3 : binv s3) by (by eapply binv_same3).
  destruct r as [| |b].
  - destruct (assign_ok e em3 (best s3)) as (em4 & -> & C4 & W4 & _ & _); [by eapply einv_abl|apply full_abl with E F; apply B3|]. cbn [rbind].
    apply K; [done|done|]. eapply same_full'; [done|done|apply B3].
  - simpl. do 2 (split; [done|]). split; [by eapply einv_abl|done].
  - eapply wpr_step; [apply (check_improvement_spec e E F); [by apply F3|right]|].
    { split; [done|]. split; [apply full_abl with E F; apply B3|]. destruct S3 as (E3 & _). simpl. rewrite E3. done. }
    intros [b' s4] (C4 & B4 & _). cbv beta iota. apply K; [|done|by apply F3].
    eapply rinv_cframe; [done|]. by destruct R3 as [[] ?].
Qed.

(** ** termination of the chain-length loop *)
Definition BB : Z := Z.of_nat (nv P) + 1.

Lemma maxsz_le em : einv em -> (maxsz em (nv P) <= nq P)%nat.
Proof.
  clear PW MN Hq0 Hqm Wtab Hsf Hfix Hn.
  intros I. unfold maxsz. assert (H : forall v, v ∈ seq 0 (nv P) -> (v < nv P)%nat) by (intros v Hv%elem_of_seq; lia).
  induction (seq 0 (nv P)) as [|v l IH]; simpl; [lia|].
  assert (szof em v <= nq P)%nat; [|specialize (IH (fun x Hx => H x (elem_of_list_further _ _ _ Hx))); lia].
  specialize (H v ltac:(left)). destruct (ei_get _ _ _ _ v I) as [c Hc]; [lia|]. unfold szof. rewrite Hc.
  assert (S : cqubits c ⊆+ seq 0 (nq P)).
  { apply NoDup_submseteq; [apply cqubits_nodup|]. intros q Hq%cqubits_in. apply elem_of_seq. split; [lia|]. by eapply ei_bound. }
  apply submseteq_length in S. rewrite seq_length in S. unfold cqubits in S. rewrite fmap_length in S. exact S.
Qed.

Lemma size_hist_hok em : einv em -> hok BB (size_hist P em (maxsz em (nv P))) /\ (length (size_hist P em (maxsz em (nv P))) <= S (nq P))%nat.
Proof.
  clear PW MN Hq0 Hqm Wtab Hsf Hfix Hn.
  intros I. pose proof (maxsz_le em I) as Lm. unfold size_hist. rewrite map_length, seq_length. split; [|lia]. split; [|split].
  - rewrite Nat.add_1_r. by simpl.
  - intros x (i & -> & _)%elem_of_list_fmap. unfold BB. pose proof (countZ_le (fun v => Nat.eqb (szof em v) i) (seq 0 (nv P))) as H.
    rewrite seq_length in H. lia.
  - rewrite map_length, seq_length. intros Hl.
    destruct (foldr_nmax_in (szof em) (seq 0 (nv P))) as (v & Hv & Ev); [unfold maxsz in Hl; lia|].
    rewrite seq_app. rewrite map_app. simpl. rewrite last_snoc. eexists; split; [done|].
    eapply countZ_pos; [exact Hv|]. apply Nat.eqb_eq. done.
Qed.

Lemma binv_hok s : binv s -> embedded (md s) = true -> hok BB (stats s) /\ (length (stats s) <= S (nq P))%nat.
Proof.
  intros [(I & W & _) Hs] Em. destruct (statistics_spec P E F _ I W) as (b & t & Es & _ & _ & _ & Ht).
  rewrite Em in Hs. rewrite Hs in Es. injection Es as <- <-. rewrite Ht by done. by apply size_hist_hok.
Qed.

Lemma chainlen_spec fuel : forall ip s em last, rinv s -> binv s -> full em -> abl last -> embedded (md s) = true ->
  (Z.of_nat (chainlength_patience e) * mu BB (stats s) + Z.of_nat ip <= Z.of_nat fuel) ->
  wpo (runerr sf (interactive e)) (chainlen_loop fuel e ip s em last) (fun '(s', em', last') => rinv s' /\ binv s' /\ abl em' /\ abl last' /\ exists b, prog b s s').
Proof.
  assert (HB : 0 < BB) by (unfold BB; lia).
  induction fuel as [|fuel IH]; intros ip s em last R B Fu Al Em Hf; cbn [chainlen_loop].
  { destruct (binv_hok s B Em) as [(_ & Ra & _) _]. pose proof (mu_range BB (stats s) HB Ra).
    rewrite decide_True by nia. simpl. do 2 (split; [done|]). split; [by eapply full_abl|]. split; [done|]. exists false. by apply prog_same3. }
  case_decide as Hi.
  { simpl. do 2 (split; [done|]). split; [by eapply full_abl|]. split; [done|]. exists false. by apply prog_same3. }
  destruct (assign_ok e last em) as (last1 & -> & Cl & Wl & _ & Al1); [done|by eapply full_abl|]. cbn [rbind].
  destruct (sback s B) as [z ->]. cbn [rbind].
  set (s1 := set_desperate s (bool_decide (ip = 1%nat))). assert (M1 : moved s s1) by done.
  pose proof (moved_rinv _ _ M1 R) as R1. pose proof (moved_binv _ _ M1 B) as B1.
  assert (Fl : full last1) by (by eapply same_full').
  eapply wpr_step; [apply (chainlength_spec e E F PW MN Hq0 Hqm Wtab sf Hsf Hfix s1 em); auto|].
  intros [[r s2] em2] (R2 & B2 & I2 & W2 & F2 & b & Pr & Hb). cbv beta iota.
  assert (Pr2 : prog b s s2) by done.
  assert (Em2 : embedded (md s2) = true) by (by apply (prog_emb _ _ _ Pr2)).
  destruct (binv_hok s B Em) as [H1 _]. destruct (binv_hok s2 B2 Em2) as [H2 _].
  assert (Mu : mu BB (stats s2) + (if b then 1 else 0) <= mu BB (stats s)).
  { destruct (prog_emb _ _ _ Pr2 Em) as [_ Hp]. destruct b; [pose proof (hist_lt_mu BB _ _ HB H2 H1 Hp); lia|]. destruct Hp as [_ ->]. lia. }
  assert (K : forall ii ss ee, rinv ss -> binv ss -> full ee -> same3 s2 ss -> 
     (Z.of_nat (chainlength_patience e) * mu BB (stats s2) + Z.of_nat ii <= Z.of_nat fuel) ->
     wpo (runerr sf (interactive e)) (chainlen_loop fuel e ii ss ee last1) (fun '(s', em', last') => rinv s' /\ binv s' /\ abl em' /\ abl last' /\ exists b, prog b s s')).
  { intros ii ss ee Rs Bs Fs (Se & Sb & Ss) Hl. eapply wpr_mono; [apply IH; auto; [congruence|by rewrite Ss]|].
    intros [[s' em'] l'] (?&?&?&?&b' & Pb). do 4 (split; [done|]). exists (b || b'). eapply prog_trans; [exact Pr2|].
    change b' with (false || b'). eapply prog_trans; [by apply prog_same3|done]. }
  assert (Mv : forall b, rinv (set_improved s2 b) /\ binv (set_improved s2 b)).
  { intros b'. split; [by destruct R2 as [[] ?]|done]. }
  destruct r as [| |b'].
  - destruct (assign_ok e em2 last1) as (em3 & -> & C3 & W3 & _ & _); [by eapply einv_abl|done|]. cbn [rbind].
    apply K; [done|done|by eapply same_full'|done|]. destruct b; nia.
  - simpl. do 2 (split; [done|]). split; [by eapply einv_abl|]. split; [done|]. by exists b.
  - specialize (Hb b' eq_refl). subst b'. destruct b.
    + apply K; [apply Mv|apply Mv|by apply F2|done|]. nia.
    + apply K; [apply Mv|apply Mv|by apply F2|done|]. nia.
Qed.

Definition fuel_ok : Prop :=
  Z.of_nat (chainlength_patience e) * (BB ^ Z.of_nat (S (nq P)) + 1) <= Z.of_nat (chain_fuel e).

Definition heur_post (init : emb) (s0 : st) '((b, s', curr', last') : bool * st * emb * emb) : Prop :=
  rinv s' /\ abl curr' /\ abl last' /\
  ((skip_init e = false /\ b = false /\ best s' = best s0) \/
   (binv s' /\ b = embedded (md s') /\
    (skip_init e = true -> exists s1 b1, binv s1 /\ chains (best s1) = chains init /\ (embedded (md s1) = true -> prog b1 s1 s')))).

Lemma heuristic_spec init s curr last : rinv s -> abl (best s) -> einv init -> wexact init -> abl curr -> abl last -> fuel_ok ->
  (forall v, (nv P <= v < nv P + nf P)%nat -> F v <> ∅) ->
  wpo (fun x => runerr sf (interactive e) x \/ (x = BadInit /\ (skip_init e = true -> linked P (vn s) init = Ok false)))
    (heuristic_embedding e init s curr last) (heur_post init s).
Proof.
  intros R Ab Ii Wi Ac Al Fo Hfne. unfold heuristic_embedding.
  set (s0 := reset_mood e s). assert (R0 : rinv s0) by (by destruct R as [[] ?]).
  assert (Ai : abl init) by (by apply einv_abl with E F).
  eapply wpr_step with (P := fun '(go, s', curr') => rinv s' /\ same3 s0 s' /\ abl curr' /\ (go = true -> full curr') /\
     (skip_init e = true -> go = true /\ chains curr' = chains init)).
  { destruct (skip_init e).
    - destruct (linked_spec P (vn s0) init) as (b & Elk & Hb); [by rewrite (ei_len _ _ _ _ Ii)|destruct R as [[[V _] _] _]; apply V|].
      rewrite Elk; cbn [rbind]. destruct b; [|right; split; [done|]; intros _; exact Elk].
      destruct (assign_ok e curr init Ac Ai) as (em & -> & C & W & _ & Ae). simpl. split; [done|]. split; [done|]. split; [done|]. split; [|done].
      intros _. eapply same_full'; [done|done|]. split; [done|]. split; [done|]. intros u Hu.
      destruct (proj1 Hb eq_refl u Hu) as [H1 H2]. split; [done|]. intros v Ev _. apply H2. destruct R as [[[_ HE] _] _]. by apply HE.
    - destruct (assign_ok e curr init Ac Ai) as (em & -> & C & W & _ & Ae). cbn [rbind].
      eapply wpr_step; [eapply wpr_weak; [apply (init_spec s0 em); [done|by eapply same_einv|by eapply wexact_chains|done]|by left]|].
      intros [[r s1] em1] (R1 & S1 & I1 & W1 & F1). cbv beta iota.
      destruct r; simpl; [by right| |].
      + split; [done|]. split; [done|]. split; [by eapply einv_abl|]. split; [done|]. done.
      + split; [done|]. split; [done|]. split; [by eapply einv_abl|]. split; [auto|]. done. }
  intros [[go s1] curr1] (R1 & S1 & Ac1 & F1 & Sk). cbv beta iota.
  destruct go; cbn [negb]; [|].
  2: { simpl. split; [done|]. split; [done|]. split; [done|]. left. destruct S1 as (_ & S1 & _). split; [|done].
       destruct (skip_init e); [|done]. by destruct (Sk eq_refl). }
  specialize (F1 eq_refl). destruct S1 as (S1e & S1b & S1s).
  eapply wpr_step; [eapply wpr_weak; [apply (check_improvement_spec e E F); [done|right]|by left]|].
  { split; [done|]. simpl. split; [by rewrite S1b|]. by rewrite S1e. }
  intros [b2 s2] (C2 & B2 & _ & Hb2 & Hs2). cbv beta iota. specialize (Hs2 eq_refl). subst b2. specialize (Hb2 eq_refl).
  assert (R2 : rinv s2).
  { eapply rinv_cframe; [done|]. by destruct R1 as [[] ?]. }
  set (s3 := set_improved s2 true). assert (R3 : rinv s3) by (by destruct R2 as [[] ?]). assert (B3 : binv s3) by done.
  change (best s3) with (best s2).
  destruct (assign_ok e curr1 (best s2)) as (em3 & -> & C3 & W3 & _ & _); [done|apply full_abl with E F; apply B2|]. cbn [rbind].
  assert (F3 : full em3) by (eapply same_full'; [done|done|apply B2]).
  eapply wpr_step; [eapply wpr_weak; [apply (trials_spec init (tries e) Ii Wi s3 em3 R3 B3 F3)|by left]|].
  intros [s4 em4] (R4 & B4 & A4 & P4). cbv beta iota.
  assert (Fin : forall s' curr' last' b', rinv s' -> binv s' -> abl curr' -> abl last' -> prog b' s4 s' ->
     heur_post init s (embedded (md s'), s', curr', last')).
  { intros s' curr' last' b' ? ? ? ? Pb. unfold heur_post. do 3 (split; [done|]). right. split; [done|]. split; [done|].
    intros Hsk. exists s2, (false || b'). split; [done|]. split; [rewrite Hb2; by apply Sk|]. intros Em2. eapply prog_trans; [apply prog_same3; by apply P4|done]. }
  destruct (embedded (md s4) && _) eqn:Q.
  - apply andb_prop in Q as [Em4 _].
    set (s5 := set_wb s4 1). assert (R5 : rinv s5) by (by destruct R4 as [[] ?]). assert (B5 : binv s5) by done.
    change (best s5) with (best s4).
    destruct (assign_ok e em4 (best s4)) as (em5 & -> & C5 & W5 & _ & _); [done|apply full_abl with E F; apply B4|]. cbn [rbind].
    assert (F5 : full em5) by (eapply same_full'; [done|done|apply B4]).
    destruct (binv_hok s5 B5 Em4) as [(_ & Ra & _) Ls].
    assert (HB : 0 < BB) by (unfold BB; lia). pose proof (mu_range BB (stats s5) HB Ra) as Hmu.
    assert (BB ^ Z.of_nat (length (stats s5)) <= BB ^ Z.of_nat (S (nq P))) by (apply Z.pow_le_mono_r; lia).
    eapply wpr_step; [eapply wpr_weak; [apply (chainlen_spec (chain_fuel e) (chainlength_patience e) s5 em5 last); auto|by left]|].
    { unfold fuel_ok in Fo. nia. }
    intros [[s6 em6] l6] (R6 & B6 & A6 & L6 & b6 & P6). simpl. by eapply Fin.
  - simpl. eapply (Fin s4 em4 last false); auto. by apply prog_same3.
Qed.
End run.
