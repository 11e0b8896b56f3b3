(** What the searches, the totals and the choice of a root mean. *)
From stdpp Require Import base list numbers gmap.
From Verif Require Import Base Wp ChainModel ChainProofs ChainProofs2 EmbModel SpecEmb EmbProofs QueueModel QueueProofs PathModel
  SpecPath DijkProofs PrepProofs.
Local Open Scope Z_scope.

Lemma path_cost_mono (s1 s2 : nat -> Z -> Prop) nb (a1 a2 : nat -> Prop) w q c : (forall x y, s1 x y -> s2 x y) ->
  (forall x, a1 x -> a2 x) -> path_cost s1 nb a1 w q c -> path_cost s2 nb a2 w q c.
Proof. intros H1 H2. induction 1 as [q c H|q p c H IH N A]; [apply pc_src; auto|]. apply pc_step with q; auto. Qed.

Section exact.
Context (pb : problem) (PW : pb_wf pb) (em : emb) (wbd : Z) (ok : nat -> nat -> nat -> Prop) (b : search) (u v : nat).
Context (Hfx : forall q, (nv pb <= v)%nat -> in_chain em v q -> (nq pb <= q)%nat).
Notation w := (wt (qw b)).

Lemma srcs_start ch : chains em !! v = Some ch -> forall q c, srcs pb em v ch (search_area pb u v) false w q c <-> chain_start pb em u v w q c.
Proof.
  intros Hc q c. unfold srcs, chain_start, fixedb.
  assert (G : forall x, qin ch x <-> in_chain em v x).
  { intros x. unfold in_chain, qin. naive_solver. }
  destruct (Nat.leb_spec (nv pb) v); [rewrite decide_False by lia|rewrite decide_True by lia].
  - setoid_rewrite G. naive_solver.
  - by rewrite G.
Qed.
Lemma pc_reach ch : chains em !! v = Some ch -> forall q c,
  path_cost (srcs pb em v ch (search_area pb u v) false w) (nbq pb) (admq em wbd (search_area pb u v)) w q c <-> reach_cost pb em wbd w u v q c.
Proof.
  intros Hc q c. unfold reach_cost. split; apply path_cost_mono; try done; intros x y; by apply srcs_start.
Qed.

Lemma rows_exact pr vs dr : par b !! v = Some pr -> vis b !! v = Some vs -> dist b !! v = Some dr ->
  rows pb em wbd ok u b v -> search_exact pb em wbd w u v vs dr pr.
Proof.
  intros Hp Hv Hd (pr' & vs' & dr' & Hp' & Hv' & Hd' & ch & ds & pq & Hch & D & Pn).
  assert (pr' = pr) as -> by congruence. assert (vs' = vs) as -> by congruence. assert (dr' = dr) as -> by congruence.
  clear Hp' Hv' Hd'.
  pose proof (di_g _ _ _ _ _ _ _ _ _ _ _ _ D) as G. pose proof (g_dsc _ _ _ _ _ _ _ _ G) as C.
  assert (IN : forall x, qin ch x <-> in_chain em v x).
  { intros x. unfold in_chain, qin. naive_solver. }
  (* everything reachable is discovered *)
  assert (All : forall q c, reach_cost pb em wbd w u v q c -> exists d, (q, d) ∈ ds).
  { intros q c H. apply (pc_reach ch Hch) in H. apply in_fst. induction H as [q c H|q p c H IH N A].
    - by eapply (di_src _ _ _ _ _ _ _ _ _ _ _ _ D).
    - apply in_fst in IH as [d Hin]. pose proof (Pn q d p Hin N) as (s & V & Ns).
      destruct (di_01 _ _ _ _ _ _ _ _ _ _ _ _ D p s V) as [[? _]|[->|[_ Na]]]; [done| |by destruct A].
      destruct (di_blk _ _ _ _ _ _ _ _ _ _ _ _ D p V) as [?|[B _]]; [done|]. unfold admq in A. lia. }
  assert (Snd : forall q c, (q, c) ∈ ds -> shortest pb em wbd w u v q c).
  { intros q c H. destruct (di_ex _ _ _ _ _ _ _ _ _ _ _ _ D q c H) as [H1 H2]. split; [by apply (pc_reach ch Hch)|].
    intros c' H'. apply H2. by apply (pc_reach ch Hch). }
  assert (Home : forall i q c, ds !! i = Some (q, c) -> walk_home pb em v w pr q c).
  { intros i. induction i as [i IH] using lt_wf_ind. intros q c Hi.
    assert (Lq : (q < nq pb)%nat) by (eapply (d_lt _ _ _ _ _ _ _ C); by eapply elem_of_list_lookup_2).
    destruct (d_par _ _ _ _ _ _ _ C i q c Hi) as [(O & P & ->)|(N & O & y & P & A & Q)].
    - apply wh_chain; [|by apply IN|done]. destruct (decide (v < nv pb)%nat) as [|Nv]; [done|]. exfalso.
      apply IN in O. apply Hfx in O; lia.
    - assert (nbq pb y q). { destruct A as [A|A]; [by apply (pbw_sym _ PW)|done]. }
      assert (Nc : ~ in_chain em v q) by (by rewrite <- IN).
      destruct Q as [(F & Oy & ->)|(j & cy & Lj & Hj & ->)].
      + eapply wh_fixed; eauto; [|by apply IN]. unfold fixedb in F. by apply Nat.leb_le.
      + eapply wh_step; eauto. }
  split.
  - intros q c Lq H. destruct (All q c H) as [d Hin]. exists d.
    split; [apply (g_vis _ _ _ _ _ _ _ _ G), in_fst; eauto|]. split; [by apply (di_pop _ _ _ _ _ _ _ _ _ _ _ _ D)|].
    split; [by apply Snd|]. apply elem_of_list_lookup in Hin as [i Hi]. by eapply Home.
  - intros q Lq Al No (p & c & Hp' & N). destruct (All p c Hp') as [d Hin]. pose proof (Pn p d q Hin N) as (s & V & Ns).
    destruct (di_01 _ _ _ _ _ _ _ _ _ _ _ _ D q s V) as [[? _]|[->|[_ ?]]]; [done| |done].
    split; [done|]. destruct (di_blk _ _ _ _ _ _ _ _ _ _ _ _ D q V) as [Hx|(? & ? & _)]; [|done].
    exfalso. apply in_fst in Hx as [c' Hx]. apply Snd in Hx as [Hx _]. by eapply No.
  - intros q Lq Al No Nn. pose proof (g_lv _ _ _ _ _ _ _ _ G) as L. simpl in L.
    destruct (lookup_lt_is_Some_2 vs q) as [s Hs]; [lia|]. rewrite Hs. f_equal.
    destruct (di_01 _ _ _ _ _ _ _ _ _ _ _ _ D q s Hs) as [[-> _]|[->|[_ ?]]]; [done| |done]. exfalso.
    destruct (di_near _ _ _ _ _ _ _ _ _ _ _ _ D q Hs) as [Hx|(y & c & Hx & N)].
    + apply in_fst in Hx as [c Hx]. apply Snd in Hx as [Hx _]. by eapply No.
    + apply Snd in Hx as [Hx _]. by eapply Nn.
  - intros q Lq Al No. pose proof (g_lv _ _ _ _ _ _ _ _ G) as L. simpl in L.
    destruct (lookup_lt_is_Some_2 vs q) as [s Hs]; [lia|]. rewrite Hs. f_equal.
    destruct (di_01 _ _ _ _ _ _ _ _ _ _ _ _ D q s Hs) as [[_ ?]|[->|[-> _]]]; [done| |done]. exfalso.
    destruct (di_blk _ _ _ _ _ _ _ _ _ _ _ _ D q Hs) as [Hx|(_ & _ & A)].
    + apply in_fst in Hx as [c Hx]. apply Snd in Hx as [Hx _]. by eapply No.
    + done.
Qed.

(** the contribution of a neighbour is its share *)
Lemma contrib_share (Hv : (v < nv pb + nf pb)%nat) q a : (forall q, (v < nv pb)%nat -> in_chain em v q -> (q < nq pb)%nat) ->
  (q < nq pb)%nat -> rows pb em wbd ok u b v ->
  contrib pb em wbd b v q = Some a <-> share pb em wbd w u q v a.
Proof.
  intros Hfr Lq R. pose proof R as (pr & vs & dr & Hp & Hvs & Hd & ch & ds & pq & Hch & D & Pn).
  pose proof (rows_exact pr vs dr Hp Hvs Hd R) as X.
  assert (IN : forall x, qin ch x <-> in_chain em v x).
  { intros x. unfold in_chain, qin. naive_solver. }
  assert (Dv : forall c, dsv em wbd b v q = Some c <-> wt (eweight em) q < wbd /\ c <> max_distance /\ shortest pb em wbd w u v q c).
  { intros c. split.
    - intros Hc. destruct (rows_dist pb em wbd ok u b v q c R Hc) as (ds' & pr' & ch' & Hch' & Hp' & _ & _ & _).
      revert Hc. unfold dsv. rewrite Hvs, Hd. simpl.
      destruct (vs !! q) as [s|] eqn:Es; [|done]. destruct (dr !! q) as [d|] eqn:Ed; [|done]. case_decide as Hc; [|done].
      intros [= <-]. destruct Hc as (-> & Nd & Hw). split; [done|]. split; [done|].
      destruct (di_blk _ _ _ _ _ _ _ _ _ _ _ _ D q Es) as [Hx|[B _]]; [|lia].
      apply in_fst in Hx as [c' Hx]. pose proof (di_pop _ _ _ _ _ _ _ _ _ _ _ _ D _ _ Hx). assert (c' = d) as -> by congruence.
      destruct (di_ex _ _ _ _ _ _ _ _ _ _ _ _ D q d Hx) as [H1 H2]. split; [by apply (pc_reach ch Hch)|].
      intros c' H'. apply H2. by apply (pc_reach ch Hch).
    - intros (Hw & Nc & Hr & Hm). destruct (se_reached _ _ _ _ _ _ _ _ _ X q c Lq Hr) as (d & Es & Ed & [Hr' Hm'] & _).
      assert (d = c) as ->. { pose proof (Hm d Hr'). pose proof (Hm' c Hr). lia. }
      unfold dsv. rewrite Hvs, Hd. simpl. rewrite Es, Ed. by rewrite decide_True. }
  unfold contrib, share. split.
  - intros H. destruct (ow pb em wbd (qw b) v q) as [x|] eqn:Eo; [|done].
    destruct (dsv em wbd b v q) as [c|] eqn:Ed; [|done]. simpl in H. injection H as <-.
    destruct (proj1 (Dv c) eq_refl) as (Hw & Nc & Hs). split; [done|]. exists c. split; [done|]. split; [done|].
    revert Eo. unfold ow, fixedb. rewrite Hch. destruct (Nat.leb_spec (nv pb) v).
    + intros [= <-]. right. split; [lia|done].
    + case_decide as Hi.
      * case_decide as Hc; [|done]. intros [= <-]. left. destruct Hc as (H1 & H2 & H3). split; [done|]. split; [by apply IN|done].
      * intros [= <-]. right. rewrite <- IN. split; [tauto|done].
  - intros (Hw & c & Hs & Nc & Ha). rewrite (proj2 (Dv c)) by done. unfold ow, fixedb. rewrite Hch.
    destruct Ha as [(Lv & Hi & H1 & H2 & ->)|(N & ->)].
    + destruct (Nat.leb_spec (nv pb) v); [lia|]. rewrite decide_True by (by apply IN). by rewrite decide_True.
    + destruct (Nat.leb_spec (nv pb) v); [done|]. rewrite decide_False; [done|]. intros Hi. apply N. split; [lia|]. by apply IN.
Qed.
End exact.

Lemma osum_over (f : nat -> option Z) (R : nat -> Z -> Prop) l s : (forall v a, v ∈ l -> f v = Some a <-> R v a) ->
  osum f l = Some s <-> sum_over R l s.
Proof.
  revert s. induction l as [|v l IH]; intros s H; simpl.
  - split; [intros [= <-]; constructor|]. inversion 1. done.
  - assert (H' : forall v a, v ∈ l -> f v = Some a <-> R v a) by (intros; apply H; by right).
    split.
    + destruct (f v) as [a|] eqn:E; [|done]. destruct (osum f l) as [t|] eqn:Et; [|done]. simpl. intros [= <-].
      constructor; [apply H; [left|done]|by apply IH].
    + inversion 1 as [|? ? a t Ha Ht]; subst. apply H in Ha; [|left]. apply IH in Ht; [|done]. by rewrite Ha, Ht.
Qed.

Lemma lv_embedded em l : lv em l = embedded_of em l.
Proof.
  unfold lv, embedded_of. apply list_filter_iff. intros v. unfold live, chain_size. destruct (chains em !! v) as [c|]; [|naive_solver].
  rewrite negb_true_iff, Nat.eqb_neq. done.
Qed.

Section tot.
Context (pb : problem) (PW : pb_wf pb) (em : emb) (wbd : Z) (ok : nat -> nat -> nat -> Prop) (ov : err -> Prop) (M : Z) (e : env).
Context (Po : placed_ok pb em).
Lemma prepared_totals u nbrs b b' : (forall v, v ∈ nbrs -> (v < nv pb + nf pb)%nat) -> embedded_of em nbrs <> [] ->
  prepared pb em wbd ok ov M e u nbrs b b' -> totals_exact pb em wbd (wt (qw b')) u nbrs (total b').
Proof.
  intros Hn Ne Pr q Lq. rewrite <- lv_embedded in *.
  pose proof (pr_tot _ _ _ _ _ _ _ _ _ _ _ Pr Ne q Lq) as Ht. eexists. split; [exact Ht|].
  assert (G : forall s, osum (fun v => contrib pb em wbd b' v q) (lv em nbrs) = Some s <->
     sum_over (share pb em wbd (wt (qw b')) u q) (lv em nbrs) s).
  { intros s. apply osum_over. intros v a [Hv Hl]%lv_in. apply (contrib_share pb PW em wbd ok); auto.
    - intros x. apply (po_fixed _ _ Po).
    - intros x. apply (po_free _ _ Po).
    - by apply (pr_rows _ _ _ _ _ _ _ _ _ _ _ Pr). }
  split.
  - intros s Hu Hs. apply G in Hs. rewrite Hs. apply tbase_use in Hu. rewrite Hu. unfold oadd, tval. simpl. done.
  - intros [Hu|No]; [apply tbase_none in Hu; by rewrite Hu|].
    destruct (osum _ _) as [s|] eqn:Es; [exfalso; apply (No s); by apply G|]. by destruct (tbase pb u q).
Qed.
End tot.

