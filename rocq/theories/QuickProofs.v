(** One quick pass (pathfinder.hpp:544-585). *)
From stdpp Require Import base list numbers gmap.
From Verif Require Import Base ChainModel ChainProofs ChainProofs2 EmbModel Spec SpecEmb EmbProofs EmbProofs2
  EmbProofs3 EmbProofs4 EmbOps EmbProofs7 QueueModel PathModel QueueProofs Wp SpecPath DijkProofs PrepProofs RunProofs1 RunProofs2 OrderProofs RunProofs3.
Local Open Scope Z_scope.

Lemma foldM_app {A B} (f : B -> A -> res B) l1 l2 b : foldM f (l1 ++ l2) b = (let! b' := foldM f l1 b in foldM f l2 b').
Proof. revert b. induction l1 as [|a l1 IH]; intros b; simpl; [done|]. destruct (f b a); cbn [rbind]; [apply IH|done]. Qed.

Section run.
Context (e : env) (E : nat -> nat -> Prop) (F : fixdom).
Notation P := (pb e).
Context (PW : pb_wf P) (MN : even_areas P E) (Hq0 : (0 < nq P)%nat) (Hqm : Z.of_nat (nq P) <= max_distance).
Context (Wtab : forall m c, 0 <= c < 64 -> 0 <= wtab e m c <= max_distance).
Context (sf : bool) (Hsf : sf = true -> safe_env e E).
Context (Hfix : forall v q, (nv P <= v < nv P + nf P)%nat -> is_Some (F v !! q) -> (nq P <= q < nq P + nr P)%nat).
Notation einv := (einv P E F).
Notation placed := (placed e E F).
Notation sinv := (sinv e E).
Notation goodp := (goodp E).

Lemma empty_torn em u c : einv em -> chains em !! u = Some c -> csize c = 0%nat -> torn P em u em.
Proof using All.
  intros I Hc Sz. pose proof (ei_cwf _ _ _ _ I u c Hc) as Cw.
  assert (NL : forall v, clinks c !! v = None).
  { intros v. destruct (clinks c !! v) as [q|] eqn:K; [exfalso|done].
    destruct (cwf_links _ _ _ Cw v q K) as [y Hy]. apply csize_0 in Sz. by rewrite Sz, lookup_empty in Hy. }
  assert (c = empty_chain) as ->.
  { destruct c as [d l]. unfold empty_chain. f_equal.
    - apply map_size_empty_iff. exact Sz.
    - apply map_eq. intros v. rewrite lookup_empty. apply NL. }
  split; [done|]. split; [done|]. split; [done|]. split.
  - intros v d Nv Hd. exists d. split; [done|]. split; [by eapply ei_cwf|]. split; [done|]. symmetry. apply delete_notin.
    destruct (clinks d !! u) as [q|] eqn:K; [exfalso|done].
    destruct (ei_link _ _ _ _ I v u d q Hd Nv K) as (_ & cv & p & Hcv & K' & _).
    assert (cv = empty_chain) as -> by congruence. done.
  - intros d Hd x. assert (d = empty_chain) as -> by congruence. rewrite ind_empty. lia.
Qed.
Lemma nonempty_size em u c : chains em !! u = Some c -> nonempty em u <-> csize c <> 0%nat.
Proof. intros H. split; [intros (d & Hd & K); congruence|]. intros K. by exists c. Qed.
Lemma torn_empty em u T : torn P em u T -> ~ nonempty T u.
Proof. intros (_ & _ & H & _) (c & Hc & K). rewrite H in Hc. injection Hc as <-. done. Qed.
Lemma torn_good em u T w : torn P em u T -> w <> u -> goodp em w -> goodp T w.
Proof using All.
  intros Te Nw [Gs Gl]. split; [by apply (torn_linkedto e em u T w w Te)|].
  intros v Ev Hv. assert (v <> u) as Nv by (intros ->; by apply (torn_empty em u T Te)).
  apply (torn_linkedto e em u T w v Te Nw Nv). apply Gl; [done|]. by apply (torn_nonempty e em u T v Te Nv).
Qed.

Lemma overlaps_ok em u : einv em -> (u < nv P + nf P)%nat -> exists b, overlaps em u = Ok b.
Proof using All.
  intros I Hu. destruct (ei_get _ _ _ _ u I Hu) as [c Hc]. unfold overlaps. rewrite (vget_ok _ _ _ Hc). cbn [rbind].
  pose proof (ei_below _ _ _ _ I u c Hc) as B. assert (H : forall q, q ∈ cqubits c -> (q < length (eweight em))%nat).
  { intros q Hq. rewrite (ei_wlen _ _ _ _ I). apply B. unfold cqubits in Hq. apply elem_of_list_fmap in Hq as ([q' y] & -> & Hq).
    apply elem_of_map_to_list in Hq. unfold pm. rewrite lookup_fmap. simpl. rewrite Hq. by eexists. }
  revert H. generalize false as b. induction (cqubits c) as [|q l IH]; intros b H; simpl; [by eexists|].
  destruct (lookup_lt_is_Some_2 (eweight em) q) as [w Hw]; [apply H; by left|]. rewrite (vget_ok _ _ _ Hw). cbn [rbind].
  apply IH. intros. apply H. by right.
Qed.

(** what a step for [u] does, with [D] the variables handled before *)
Record quicked (u : nat) (D : list nat) (w : Z) (em em' : emb) : Prop := {
  qk_inv : einv em';
  qk_wex : wexact em';
  qk_good : forall x, x ∈ u :: D -> nonempty em' x -> goodp em' x;
  qk_ne : forall x, x <> u -> nonempty em' x <-> nonempty em x;
  qk_sum : nf P = 0%nat -> forall q, (q < nq P)%nat -> sumind (chains em') q <= Z.max (sumind (chains em) q) w
}.
Definition qwait (D : list nat) (em : emb) : Prop := forall x, x ∈ D -> (x < nv P)%nat /\ (nonempty em x -> goodp em x).

Lemma quick_one_spec s u clb (ls : bool) D : sinv s -> einv (best s) -> wexact (best s) -> (u < nv P)%nat -> qwait D (best s) ->
  (ls = true -> goodp (best s) u) ->
  wpo (runerr sf (interactive e)) (quick_one e clb ls s u) (fun s' => sinv s' /\ md s' = md s /\ vos s' = vos s /\
    quicked u D (if ls then Z.max 1 (wb (md s)) else wb (md s)) (best s) (best s')).
Proof using All.
  intros SI I W Hu HD Hls. unfold quick_one. set (em := best s) in *. cbv zeta.
  set (lim := if ls then Z.max 1 (wb (md s)) else wb (md s)).
  destruct (ei_get _ _ _ _ u I) as [c Hc]; [lia|]. unfold chainsize at 1. rewrite (vget_ok _ _ _ Hc). cbn [rbind].
  eapply wpr_step with (P := fun '(em1, n) => stolen P E F u em em1 /\ exists c1, chains em1 !! u = Some c1 /\ n = csize c1).
  { case_decide as Hz; [split; [apply stolen_refl|by exists c]|].
    destruct (steal_ok e E F PW (vn s) em u) as (em1 & -> & S1); [apply SI|done..|]. cbn [rbind].
    destruct (ei_get _ _ _ _ u (st_inv _ _ _ _ _ _ S1 I)) as [c1 Hc1]; [lia|]. unfold chainsize. rewrite (vget_ok _ _ _ Hc1). simpl.
    split; [done|]. by exists c1. }
  intros [em1 n] (S1 & c1 & Hc1 & ->).
  pose proof (st_inv _ _ _ _ _ _ S1 I) as I1. pose proof (st_wex _ _ _ _ _ _ S1 W) as W1.
  assert (HD1 : qwait D em1).
  { intros w Hw. destruct (HD w Hw) as [? K]. split; [done|]. intros Nw. eapply stolen_good; [done|]. apply K. by apply (st_ne _ _ _ _ _ _ S1). }
  eapply wpr_step with (P := fun b : bool => b = true -> ls = true).
  { destruct ls; simpl; [|done]. case_bool_decide; [|done].
    destruct (overlaps_ok em1 u I1) as [b ->]; [lia|]. simpl. done. }
  intros b Hb.
  (* the search *)
  eapply wpr_step with (P := fun '(got, s1, em2) => sinv s1 /\ sframe s s1 /\ quicked u D lim em em2 /\ (got = false -> ~ nonempty em2 u)).
  { assert (KEY : forall T em2 (l : nat -> Prop), torn P em1 u T -> placed T u l em2 -> (nf P = 0%nat -> forall x, l x -> sumind (chains T) x + 1 <= Z.max (sumind (chains em) x) lim) ->
      quicked u D lim em em2).
    { intros T em2 l Te Pl Hl. split.
      - apply Pl.
      - apply Pl.
      - intros x Hx Nx. destruct (decide (x = u)) as [->|Nxu].
        + eapply (placed_good e E F (vn s) em1 T u l em2 []); eauto; [apply SI|by intros ? ?%elem_of_nil|by left].
        + apply elem_of_cons in Hx as [|Hx]; [done|]. destruct (HD1 x Hx) as [Lx K].
          eapply (placed_good e E F (vn s) em1 T u l em2 [x]); eauto; [apply SI| |right; by left].
          intros y ->%elem_of_list_singleton. split; [done|]. apply K. apply (torn_nonempty e em1 u T x Te Nxu). by apply (pl_ne _ _ _ _ _ _ _ Pl).
      - intros x Nx. rewrite (pl_ne _ _ _ _ _ _ _ Pl x Nx), <- (torn_nonempty e em1 u T x Te Nx). apply S1.
      - intros Z q Hq. pose proof (torn_sum e E F em1 u T c1 q I1 Te Hc1 W1) as ET. pose proof (st_sum _ _ _ _ _ _ S1 q). pose proof (ind_range c1 q).
        destruct (pl_sum _ _ _ _ _ _ _ Pl q) as [?|(-> & _ & K)]; [lia|]. by apply Hl. }
    destruct b.
    - rewrite (Hb eq_refl) in *. assert (Hg1 : goodp em1 u) by (eapply stolen_good; eauto).
      eapply wpr_step; [apply (find_short_chain_spec sf e E F PW MN Hq0 Hqm Hfix s em1 u clb SI I1 W1 Hu); [exact (proj1 Hg1)|exact (proj2 Hg1)]|].
      intros [s' em'] (SI' & Fr & T & Te & Pl). simpl. split; [done|]. split; [done|]. split; [|done].
      eapply KEY; eauto. intros _ x Hx. unfold lim. rewrite (Hb eq_refl). destruct Hx as [->|(c' & Hc' & Hin)]; [lia|].
      assert (c' = c1) as -> by congruence. pose proof (torn_sum e E F em1 u T c1 x I1 Te Hc1 W1) as ET. rewrite (ind_in c1 x Hin) in ET.
      pose proof (st_sum _ _ _ _ _ _ S1 x). lia.
    - eapply wpr_step with (P := fun T => torn P em1 u T).
      { case_decide as Hz; [by eapply empty_torn|]. destruct (tear_ok e E F (vn s) em1 u) as (T & -> & Te & _); [apply SI|done..|]. done. }
      intros T Te. assert (IT : einv T) by (by eapply torn_einv).
      assert (WT : wexact T) by (eapply torn_wexact; eauto).
      eapply wpr_mono; [apply (find_chain3_spec e E F PW MN Hq0 Wtab sf Hsf Hfix s T u clb SI IT WT); [by eapply torn_absent|done]|].
      intros [[got s'] em'] (SI' & Fr & K). split; [done|]. split; [done|]. destruct got.
      + split; [|done]. eapply KEY; eauto. intros Z x Hx. specialize (Hx Z). unfold lim. destruct ls; lia.
      + subst em'. split; [|intros _; by eapply torn_empty]. split; [done|done| | |].
        * intros x Hx Nx. destruct (decide (x = u)) as [->|Nxu]; [by destruct (torn_empty em1 u T Te)|].
          apply elem_of_cons in Hx as [|Hx]; [done|]. eapply torn_good; [done|done|]. apply (HD1 x Hx). by apply (torn_nonempty e em1 u T x Te Nxu).
        * intros x Nx. rewrite <- (torn_nonempty e em1 u T x Te Nx). apply S1.
        * intros _ q Hq. pose proof (torn_sum e E F em1 u T c1 q I1 Te Hc1 W1) as ET. pose proof (st_sum _ _ _ _ _ _ S1 q). pose proof (ind_range c1 q). lia. }
  intros [[got s1] em2] (SI1 & Fr1 & [Qi Qw Qg Qn Qs] & Hgot).
  eapply wpr_step with (P := fun em3 => quicked u D lim em em3).
  2: { intros em3 Q3. simpl. split; [by destruct SI1|]. split; [apply Fr1|]. split; [apply Fr1|]. done. }
  destruct got; [|by split].
  destruct (ei_get _ _ _ _ u Qi) as [c2 Hc2]; [lia|]. unfold chainsize. rewrite (vget_ok _ _ _ Hc2). cbn [rbind].
  case_decide; [|by split].
  destruct (steal_ok e E F PW (vn s1) em2 u) as (em3 & -> & S3); [apply SI1|done..|]. cbn [rbind].
  pose proof (st_inv _ _ _ _ _ _ S3 Qi) as I3. pose proof (st_wex _ _ _ _ _ _ S3 Qw) as W3.
  destruct (tear_ok e E F (vn s1) em3 u) as (T & -> & Te & _); [apply SI1|done..|]. simpl.
  destruct (ei_get _ _ _ _ u I3) as [c3 Hc3]; [lia|].
  split.
  - by eapply torn_einv.
  - eapply torn_wexact; eauto.
  - intros x Hx Nx. destruct (decide (x = u)) as [->|Nxu]; [by destruct (torn_empty em3 u T Te)|].
    eapply torn_good; [done|done|]. eapply stolen_good; [done|]. apply Qg; [done|].
    apply (st_ne _ _ _ _ _ _ S3). by apply (torn_nonempty e em3 u T x Te Nxu).
  - intros x Nx. rewrite <- (torn_nonempty e em3 u T x Te Nx), <- (Qn x Nx). apply S3.
  - intros Z q Hq. pose proof (torn_sum e E F em3 u T c3 q I3 Te Hc3 W3) as ET. pose proof (st_sum _ _ _ _ _ _ S3 q). pose proof (ind_range c3 q).
    specialize (Qs Z q Hq). lia.
Qed.

(** the whole loop, with [D0] linked beforehand *)
Record passed (order D0 : list nat) (w : Z) (em em' : emb) : Prop := {
  pa_inv : einv em';
  pa_wex : wexact em';
  pa_good : forall x, x ∈ order \/ x ∈ D0 -> nonempty em' x -> goodp em' x;
  pa_ne : forall x, x ∉ order -> nonempty em' x <-> nonempty em x;
  pa_sum : nf P = 0%nat -> forall q, (q < nq P)%nat -> sumind (chains em') q <= Z.max (sumind (chains em) q) w
}.

Lemma quick_fold s order clb (ls : bool) D0 : sinv s -> einv (best s) -> wexact (best s) -> (forall u, u ∈ order -> (u < nv P)%nat) -> qwait D0 (best s) ->
  (ls = true -> NoDup order /\ forall u, u ∈ order -> u ∈ D0 /\ nonempty (best s) u) ->
  wpo (runerr sf (interactive e)) (foldM (quick_one e clb ls) order s) (fun s' => sinv s' /\ md s' = md s /\ vos s' = vos s /\
    passed order D0 (if ls then Z.max 1 (wb (md s)) else wb (md s)) (best s) (best s')).
Proof using All.
  intros SI I W Ho HD Hls. set (lim := if ls then Z.max 1 (wb (md s)) else wb (md s)).
  eapply wpr_mono.
  - apply wpr_foldM with (I := fun dn s' => sinv s' /\ md s' = md s /\ vos s' = vos s /\ passed dn D0 lim (best s) (best s')).
    { split; [done|]. split; [done|]. split; [done|]. split; [done|done| |done|intros; lia].
      intros x [Hx%elem_of_nil|Hx]; [done|]. by apply HD. }
    intros dn u rest s1 El (SI1 & Md1 & V1 & [A1 A2 A3 A4 A5]).
    assert (Hu : u ∈ order) by (rewrite El, elem_of_app, elem_of_cons; auto).
    eapply wpr_mono.
    + apply (quick_one_spec s1 u clb ls (dn ++ D0)); auto.
      * intros x Hx. apply elem_of_app in Hx as [Hx|Hx].
        -- split; [|auto]. apply Ho. rewrite El, elem_of_app. auto.
        -- split; [by apply (HD x Hx)|auto].
      * intros L. destruct (Hls L) as [ND K]. destruct (K u Hu) as [K1 K2]. apply A3; [auto|]. apply A4; [|done].
        rewrite El in ND. apply NoDup_app in ND as (_ & ND & _). intros Hd. apply (ND u Hd). by left.
    + intros s2 (SI2 & Md2 & V2 & [B1 B2 B3 B4 B5]). split; [done|]. split; [congruence|]. split; [congruence|]. split; [done|done| | |].
      * intros x Hx. apply B3. rewrite elem_of_app, elem_of_list_singleton in Hx. rewrite elem_of_cons, elem_of_app. tauto.
      * intros x Hx. rewrite elem_of_app, elem_of_list_singleton in Hx. rewrite B4 by tauto. apply A4. tauto.
      * intros Z q Hq. specialize (B5 Z q Hq). specialize (A5 Z q Hq). rewrite Md1 in B5. fold lim in B5. lia.
  - done.
Qed.

Lemma quick_pass_spec init s order clb ov (ls clear : bool) D0 b0 : sinv s -> abl e (best s) ->
  b0 = (if clear then init else best s) -> einv b0 -> wexact b0 ->
  (forall u, u ∈ order -> (u < nv P)%nat) -> qwait D0 b0 ->
  (ls = true -> NoDup order /\ forall u, u ∈ order -> u ∈ D0 /\ nonempty b0 u) ->
  wpo (runerr sf (interactive e)) (quick_pass e init order clb ov ls clear s) (fun s' => sinv s' /\ md s' = md s /\ vos s' = vos s /\
    passed order D0 (if ls then Z.max 1 (1 + ov) else 1 + ov) b0 (best s')).
Proof using All.
  intros SI Ab Eb I W Ho HD Hls. unfold quick_pass. cbv zeta.
  eapply wpr_step with (P := fun s1 => sinv s1 /\ md s1 = md (set_wb s (1 + ov)) /\ vos s1 = vos s /\ chains (best s1) = chains b0 /\ eweight (best s1) = eweight b0).
  { destruct clear; subst b0; [|simpl; by destruct SI].
    destruct (assign_ok e (best s) init Ab) as (em & Ha & C & Wt & _); [by apply einv_abl with E F|].
    change (best (set_wb s (1 + ov))) with (best s). rewrite Ha. simpl. by destruct SI. }
  intros s1 (SI1 & Md1 & V1 & C1 & W1).
  assert (X1 : einv (best s1)) by (by apply (same_einv e E F b0)).
  assert (X2 : wexact (best s1)) by (by apply (wexact_chains b0)).
  assert (NE : forall u, nonempty (best s1) u <-> nonempty b0 u) by (intros u; unfold nonempty; by rewrite C1).
  assert (GP : forall u, goodp (best s1) u <-> goodp b0 u) by (intros u; unfold RunProofs3.goodp, nonempty, linkedto; by rewrite C1).
  eapply wpr_step; [apply (quick_fold s1 order clb ls D0); auto|].
  - intros x Hx. destruct (HD x Hx). split; [done|]. rewrite NE, GP. done.
  - intros L. destruct (Hls L) as [ND K]. split; [done|]. intros u Hu. rewrite NE. by apply K.
  - intros s2 (SI2 & Md2 & V2 & [A1 A2 A3 A4 A5]). simpl. split; [by destruct SI2|]. split.
    { rewrite Md2, Md1. destruct s as [? ? ? [] ? ? ? ? ?]. done. }
    split; [congruence|]. split; [done|done|done| |].
    + intros x Hx. rewrite A4 by done. apply NE.
    + intros Z q Hq. specialize (A5 Z q Hq). rewrite C1, Md1 in A5. exact A5.
Qed.

(** a pass over [a ++ b] is a pass over [a], then one over [b] that does not clear *)
Lemma quick_pass_app init s a b clb ov (clear : bool) b0 : sinv s -> abl e (best s) ->
  b0 = (if clear then init else best s) -> einv b0 -> wexact b0 -> (forall u, u ∈ a -> (u < nv P)%nat) ->
  quick_pass e init (a ++ b) clb ov false clear s =
    (let! s1 := quick_pass e init a clb ov false clear s in quick_pass e init b clb ov false false s1).
Proof using All.
  intros SI Ab Eb I W Ho. unfold quick_pass. cbv zeta.
  assert (exists s1, (if clear then let! b := emb_assign (best (set_wb s (1 + ov))) init in Ok (set_best (set_wb s (1 + ov)) b (stats (set_wb s (1 + ov)))) else Ok (set_wb s (1 + ov))) = Ok s1
    /\ sinv s1 /\ md s1 = md (set_wb s (1 + ov)) /\ chains (best s1) = chains b0 /\ eweight (best s1) = eweight b0) as (s1 & -> & SI1 & Md1 & C1 & W1).
  { destruct clear; subst b0; [|eexists; split; [done|]; simpl; by destruct SI].
    destruct (assign_ok e (best s) init Ab) as (em & Ha & C & Wt & _); [by apply einv_abl with E F|].
    change (best (set_wb s (1 + ov))) with (best s). rewrite Ha. simpl. eexists; split; [done|]. by destruct SI. }
  cbn [rbind]. rewrite foldM_app.
  assert (X1 : einv (best s1)) by (by apply (same_einv e E F b0)).
  assert (X2 : wexact (best s1)) by (by apply (wexact_chains b0)).
  pose proof (quick_fold s1 a clb false [] SI1 X1 X2 Ho) as Q.
  destruct (foldM (quick_one e clb false) a s1) as [s2|]; cbn [rbind]; [|done].
  destruct Q as (_ & Md2 & _); [by intros x []%elem_of_nil|done|].
  rewrite Md1 in Md2.
  assert (Es : set_wb (set_wb s2 (wb (md s))) (1 + ov) = s2).
  { unfold set_wb, set_md in Md2 |- *. destruct s2 as [? ? ? m2 ? ? ? ? ?]. simpl in Md2 |- *. subst m2. reflexivity. }
  rewrite Es. cbn [rbind]. done.
Qed.
End run.
