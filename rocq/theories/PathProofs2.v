(** The statements about one placement of a chain. *)
From stdpp Require Import base list numbers gmap.
From Verif Require Import Base Wp ChainModel ChainProofs ChainProofs2 EmbModel SpecEmb EmbOps EmbProofs EmbProofs2 EmbProofs3 EmbProofs7
  QueueModel QueueProofs PathModel SpecPath DijkProofs PrepProofs RunProofs1 PathProofs.
Local Open Scope Z_scope.

(** ** one search *)
Section one.
Context (pb : problem) (PW : pb_wf pb) (em : emb) (wbd : Z) (Po : placed_ok pb em).

Lemma one_search ov M u v b : buffers_ok pb b -> costs_ok pb (qw b) -> (u < nv pb + nf pb)%nat -> (v < nv pb + nf pb)%nat -> 0 <= M ->
  (ov Overflow \/ (Z.of_nat (nq pb) * M <= max_distance /\ forall q, (q < nq pb)%nat -> wt (qw b) q <= M)) ->
  wpo ov (let! b := prep_vis pb u v b in compute_distances_from_chain pb em wbd v b) (fun b' =>
    (qw b' = qw b /\ perm b' = perm b /\ total b' = total b /\
     forall v', v' <> v -> par b' !! v' = par b !! v' /\ vis b' !! v' = vis b !! v' /\ dist b' !! v' = dist b !! v') /\
    exists marks dists parents, vis b' !! v = Some marks /\ dist b' !! v = Some dists /\ par b' !! v = Some parents /\
      search_exact pb em wbd (wt (qw b)) u v marks dists parents).
Proof.
  intros S [Cl C] Lu Lv HM Hov. eapply wpr_mono.
  - apply (compute_spec pb PW em wbd (fun _ _ _ => True) (po_ew _ _ Po) (po_len _ _ Po)) with (M := M); auto.
    + intros v' c q Hc Hq Hv. apply (po_free _ _ Po v'); [done|]. by exists c.
    + intros v' c q Hc Hq Hv. apply (po_fixed _ _ Po v'); [done|]. by exists c.
    + destruct Hov as [?|[? _]]; auto.
    + split; [done|]. split; [done|]. destruct Hov as [?|[_ ?]]; auto.
  - simpl. intros b' (S' & Ho & R). split; [exact Ho|]. pose proof R as (pr & vs & dr & Hp & Hv & Hd & _).
    exists vs, dr, pr. split; [done|]. split; [done|]. split; [done|]. destruct Ho as (Eq & _). rewrite <- Eq.
    eapply rows_exact; eauto. intros q Hf Hi. by apply (po_fixed _ _ Po v q Hf Hi).
Qed.
End one.

(** ** the preparation of a root *)
Section prep2.
Context (e : env).
Notation P := (pb e).
Context (PW : pb_wf P) (em : emb) (wbd : Z) (Po : placed_ok P em) (Hq0 : (0 < nq P)%nat).
Context (Wtab : table_ok e).

Lemma qwt_tab mw : max_weight P em = Ok mw -> tabulated e em (wt (qwt_of P em e mw)).
Proof.
  intros H. destruct (max_weight_ge _ _ _ H) as [H1 (y & Ly & H2)]. exists mw. split; [|split].
  - intros q Hq. apply H1; [done|]. apply (po_ew _ _ Po).
  - by exists y.
  - intros q Hq. rewrite qwt_wt by done. simpl. unfold weight_of. repeat case_decide; done || (exfalso; lia).
Qed.

Lemma prep_both (ov : err -> Prop) par u nbrs b : (u < nv P + nf P)%nat -> NoDup nbrs -> (forall v, v ∈ nbrs -> (v < nv P + nf P)%nat) -> buffers_ok P b ->
  (ov Overflow \/ sums_fit e em nbrs) ->
  wpo ov (prepare_root (with_parallel e par) nbrs wbd em u b) (fun b' => exists M, prepared P em wbd (fun _ _ _ => True) ov M (with_parallel e par) u nbrs b b').
Proof.
  intros Lu ND Hn S Hov.
  assert (exists M, 0 <= M /\ (ov Overflow \/ (Z.of_nat (nq P) * M <= max_distance /\
     (forall mw x, max_weight P em = Ok mw -> (x < nq P)%nat -> weight_of e mw (wt (eweight em) x) <= M) /\
     Z.of_nat (length nbrs) * (Z.of_nat (nq P) * M) <= max_distance))) as (M & HM0 & HMM).
  { destruct Hov as [?|(M & HM & Hw & Hs)]; [exists 0; split; [lia|by left]|]. exists M. split; [done|]. right.
    assert (0 <= Z.of_nat (nq P) * M) by (apply Z.mul_nonneg_nonneg; lia).
    assert (0 <= Z.of_nat (length nbrs) * (Z.of_nat (nq P) * M)) by (apply Z.mul_nonneg_nonneg; lia).
    split; [lia|]. split; [|lia]. intros mw x Hmw Hx. rewrite <- (qwt_wt _ _ e) by done. apply Hw; [|done]. by apply qwt_tab. }
  eapply wpr_mono.
  - apply (prepare_spec P PW em wbd (fun _ _ _ => True) (po_ew _ _ Po) (po_len _ _ Po)) with (M := M); auto.
    + intros v' c q Hc Hq Hv. apply (po_free _ _ Po v'); [done|]. by exists c.
    + intros v' c q Hc Hq Hv. apply (po_fixed _ _ Po v'); [done|]. by exists c.
    + destruct HMM as [?|(? & _)]; auto.
    + destruct HMM as [?|(_ & ? & _)]; auto.
    + destruct HMM as [?|(_ & _ & ?)]; auto.
  - simpl. intros b' H. by exists M.
Qed.

Lemma list_rows {A} (l1 l2 : list A) : (forall i, l1 !! i = l2 !! i) -> l1 = l2.
Proof. apply list_eq. Qed.

(** serial and threaded preparation give the same buffers *)
Lemma prep_same ov M1 M2 u nbrs b b1 b2 p1 p2 : embedded_of em nbrs <> [] ->
  prepared P em wbd (fun _ _ _ => True) ov M1 (with_parallel e p1) u nbrs b b1 ->
  prepared P em wbd (fun _ _ _ => True) ov M2 (with_parallel e p2) u nbrs b b2 -> b1 = b2.
Proof.
  intros Ne P1 P2. rewrite <- lv_embedded in Ne.
  assert (Eq : qw b1 = qw b2).
  { destruct (pr_mw _ _ _ _ _ _ _ _ _ _ _ P1) as (m1 & H1 & ->). destruct (pr_mw _ _ _ _ _ _ _ _ _ _ _ P2) as (m2 & H2 & ->).
    assert (m1 = m2) as -> by congruence. done. }
  assert (Er : forall v, par b1 !! v = par b2 !! v /\ vis b1 !! v = vis b2 !! v /\ dist b1 !! v = dist b2 !! v).
  { intros v. destruct (decide (v ∈ nbrs /\ live em v = true)) as [[Hv Hl]|N].
    - destruct (pr_rows _ _ _ _ _ _ _ _ _ _ _ P1 v Hv Hl) as [_ (pm & pv & vv & dv & p & vs & d & A1 & A2 & A3 & A4 & A5 & A6 & A7 & A8)].
      destruct (pr_rows _ _ _ _ _ _ _ _ _ _ _ P2 v Hv Hl) as [_ (pm' & pv' & vv' & dv' & p' & vs' & d' & B1 & B2 & B3 & B4 & B5 & B6 & B7 & B8)].
      assert (pm' = pm) as -> by congruence. assert (pv' = pv) as -> by congruence. assert (vv' = vv) as -> by congruence.
      assert (dv' = dv) as -> by congruence. rewrite <- Eq, A5 in B5. injection B5 as <- <- <-. by rewrite A6, A7, A8, B6, B7, B8.
    - destruct (pr_same _ _ _ _ _ _ _ _ _ _ _ P1 v N) as (-> & -> & ->). by destruct (pr_same _ _ _ _ _ _ _ _ _ _ _ P2 v N) as (-> & -> & ->). }
  assert (Et : total b1 = total b2).
  { apply list_eq_same_length with (n := nq P).
    - by rewrite (bo_total _ _ (pr_swf _ _ _ _ _ _ _ _ _ _ _ P2)).
    - by rewrite (bo_total _ _ (pr_swf _ _ _ _ _ _ _ _ _ _ _ P1)).
    - intros q x y Hq Hx Hy. rewrite (pr_tot _ _ _ _ _ _ _ _ _ _ _ P1 Ne q Hq) in Hx.
      rewrite (pr_tot _ _ _ _ _ _ _ _ _ _ _ P2 Ne q Hq) in Hy. injection Hx as <-. injection Hy as <-. f_equal.
      f_equal. apply osum_ext. intros v Hv. unfold contrib, dsv. destruct (Er v) as (_ & -> & ->). by rewrite Eq. }
  pose proof (pr_perm _ _ _ _ _ _ _ _ _ _ _ P1) as Ep1. pose proof (pr_perm _ _ _ _ _ _ _ _ _ _ _ P2) as Ep2.
  destruct b1, b2. simpl in *. f_equal; try congruence; apply list_eq; intros i; apply (Er i).
Qed.

Lemma serial_parallel u nbrs b b1 b2 : (u < nv P + nf P)%nat -> NoDup nbrs -> (forall v, v ∈ nbrs -> (v < nv P + nf P)%nat) -> buffers_ok P b ->
  embedded_of em nbrs <> [] ->
  prepare_root (with_parallel e false) nbrs wbd em u b = Ok b1 ->
  prepare_root (with_parallel e true) nbrs wbd em u b = Ok b2 -> b1 = b2.
Proof.
  intros Lu ND Hn S Ne H1 H2.
  pose proof (wpr_inv _ _ _ (prep_both (fun _ => True) false u nbrs b Lu ND Hn S ltac:(by left)) H1) as [M1 P1].
  pose proof (wpr_inv _ _ _ (prep_both (fun _ => True) true u nbrs b Lu ND Hn S ltac:(by left)) H2) as [M2 P2].
  by eapply prep_same.
Qed.
Lemma serial_parallel_safe u nbrs b : (u < nv P + nf P)%nat -> NoDup nbrs -> (forall v, v ∈ nbrs -> (v < nv P + nf P)%nat) -> buffers_ok P b ->
  embedded_of em nbrs <> [] -> sums_fit e em nbrs ->
  exists b', prepare_root (with_parallel e false) nbrs wbd em u b = Ok b' /\ prepare_root (with_parallel e true) nbrs wbd em u b = Ok b'.
Proof.
  intros Lu ND Hn S Ne Hs.
  pose proof (prep_both (fun _ => False) false u nbrs b Lu ND Hn S ltac:(by right)) as H1.
  pose proof (prep_both (fun _ => False) true u nbrs b Lu ND Hn S ltac:(by right)) as H2.
  destruct (prepare_root (with_parallel e false) nbrs wbd em u b) as [b1|x] eqn:E1; [|by destruct x].
  destruct (prepare_root (with_parallel e true) nbrs wbd em u b) as [b2|x] eqn:E2; [|by destruct x].
  exists b1. split; [done|]. f_equal. symmetry. by eapply (serial_parallel u nbrs b).
Qed.
Lemma serial_totals par u nbrs b b' : (u < nv P + nf P)%nat -> NoDup nbrs -> (forall v, v ∈ nbrs -> (v < nv P + nf P)%nat) -> buffers_ok P b ->
  embedded_of em nbrs <> [] -> prepare_root (with_parallel e par) nbrs wbd em u b = Ok b' ->
  exists w, tabulated e em w /\ totals_exact P em wbd w u nbrs (total b').
Proof.
  intros Lu ND Hn S Ne H.
  pose proof (wpr_inv _ _ _ (prep_both (fun _ => True) par u nbrs b Lu ND Hn S ltac:(by left)) H) as [M Pr].
  exists (wt (qw b')). split; [|eapply prepared_totals; eauto].
  destruct (pr_mw _ _ _ _ _ _ _ _ _ _ _ Pr) as (mw & Hm & ->). by apply qwt_tab.
Qed.
End prep2.

(** ** the choice of the root *)
Lemma replay e s em u tgt b s' em' mins i r t : find_chain3 e s em u tgt = Ok (b, s', em') ->
  collect_minima (total (sr s')) = Ok mins -> mins !! i = Some r -> total (sr s') !! r = Some t -> t <> max_distance ->
  find_chain3 (with_rnd e (fun n => if decide (n = pred (rpos s')) then i else rnd e n)) s em u tgt =
  let! em1 := construct_chain_steiner (vn s') em u r (par (sr s')) (dist (sr s')) (vis (sr s')) in
  let! em2 := flip_back (pb e) (vn s') em1 u tgt in Ok (true, s', em2).
Proof.
  intros H Hm Hi Ht Nt. revert H. unfold find_chain3.
  set (e' := with_rnd e _).
  destruct (nbrs_rndswap e s u) as [[nbrs s1]|] eqn:E1; [|done]. cbn [rbind].
  assert (R1 : (rpos s <= rpos s1)%nat /\ (nbrs_rndswap e' s u = nbrs_rndswap e s u \/ pred (rpos s') = rpos s /\ (rpos s < rpos s1)%nat)).
  { revert E1. unfold nbrs_rndswap. destruct (vget (vn s) u) as [l|]; [|done]. cbn [rbind].
    assert (RI : forall n, randint e' s n = randint e s n \/ pred (rpos s') = rpos s).
    { intros [|n]; [by left|]. unfold randint. simpl. case_decide; [right; lia|by left]. }
    case_decide.
    - destruct (RI (length l - 1)%nat) as [->|Hp]; unfold randint; destruct (length l - 1)%nat; cbn [rbind]; try done.
      + destruct (l !! _) as [a|]; [|done]. destruct (l !! _) as [c|]; [|done]. simpl. destruct (vset _ _ _); [|done]. cbn [rbind].
        intros [= <- <-]. simpl. split; [lia|by left].
      + destruct (l !! _) as [a|]; [|done]. destruct (l !! _) as [c|]; [|done]. simpl. destruct (vset _ _ _); [|done]. cbn [rbind].
        intros [= <- <-]. simpl. split; [lia|right; lia].
    - case_decide.
      + destruct (RI 2%nat) as [->|Hp]; unfold randint; cbn [rbind].
        * case_decide; [intros [= <- <-]; simpl; split; [lia|by left]|]. destruct l as [|a [|c []]]; try done.
          destruct (vset _ _ _); [|done]. cbn [rbind]. intros [= <- <-]. simpl. split; [lia|by left].
        * case_decide; [intros [= <- <-]; simpl; split; [lia|right; lia]|]. destruct l as [|a [|c []]]; try done.
          destruct (vset _ _ _); [|done]. cbn [rbind]. intros [= <- <-]. simpl. split; [lia|right; lia].
      + intros [= <- <-]. split; [lia|by left]. }
  destruct R1 as [L1 R1].
  set (A := fun e : env => if decide (0 < length nbrs)%nat then
      let! (i, s) := randint e s1 (length nbrs) in let! v := vget nbrs i in
      let! b := swap_perm (sr s) u v in Ok (set_sr s b) else Ok s1).
  fold (A e). destruct (A e) as [s2|] eqn:E2; [|done]. cbn [rbind].
  assert (R2 : (rpos s1 <= rpos s2)%nat /\ (A e' = A e \/ pred (rpos s') = rpos s1 /\ (rpos s1 < rpos s2)%nat)).
  { revert E2. subst A. simpl. case_decide; [|intros [= <-]; split; [lia|by left]].
    unfold randint. destruct (length nbrs) eqn:El; [done|]. cbn [rbind].
    assert (Er : rnd e' (rpos s1) = rnd e (rpos s1) \/ pred (rpos s') = rpos s1).
    { subst e'. simpl. case_decide; [by right|by left]. }
    intros E2. assert (L : rpos s2 = S (rpos s1)).
    { revert E2. destruct (vget nbrs _) as [v|]; [|done]. cbn [rbind]. destruct (swap_perm _ _ _); [|done]. by intros [= <-]. }
    split; [lia|]. destruct Er as [->|?]; [by left|right; lia]. }
  destruct R2 as [L2 R2].
  destruct (prepare_root e nbrs (wb (md s2)) em u (sr s2)) as [b'|] eqn:E3; [|done]. cbn [rbind].
  destruct (collect_minima (total b')) as [m|] eqn:E4; [|done]. cbn [rbind].
  unfold randint at 1. destruct (length m) as [|n] eqn:Lm; [done|]. cbn [rbind].
  destruct (vget m _) as [q0|] eqn:E5; [|done]. cbn [rbind]. destruct (vget (total b') q0) as [t0|] eqn:E6; [|done]. cbn [rbind].
  intros H.
  assert (Es : s' = set_rpos (set_sr s2 b') (S (rpos s2))).
  { revert H. case_decide; [by intros [= _ <- _]|]. destruct (construct_chain_steiner _ _ _ _ _ _ _); [|done]. cbn [rbind].
    destruct (flip_back _ _ _ _ _); [|done]. cbn [rbind]. by intros [= _ <- _]. }
  subst s'. clear H. cbn [vn par vis dist total sr rpos set_rpos set_sr pred] in *.
  assert (Ei : e' = with_rnd e (fun n0 => if decide (n0 = rpos s2) then i else rnd e n0)) by done.
  destruct R1 as [->|[? ?]]; [|lia]. rewrite E1. cbn [rbind].
  fold (A e').
  destruct R2 as [->|[? ?]]; [|lia]. rewrite E2. cbn [rbind].
  change (prepare_root e' nbrs (wb (md s2)) em u (sr s2)) with (prepare_root e nbrs (wb (md s2)) em u (sr s2)). rewrite E3. cbn [rbind].
  rewrite E4. cbn [rbind]. assert (m = mins) as -> by congruence.
  unfold randint. rewrite Lm. cbn [rbind]. rewrite Ei at 1. cbn [rnd with_rnd rpos set_sr]. rewrite decide_True by done.
  apply lookup_lt_Some in Hi as Li. rewrite Nat.mod_small by lia. rewrite (vget_ok _ _ _ Hi). cbn [rbind].
  rewrite (vget_ok _ _ _ Ht). cbn [rbind]. rewrite decide_False by done. done.
Qed.

Lemma root_choice e E s em u tgt : pb_wf (pb e) -> even_areas (pb e) E -> (0 < nq (pb e))%nat -> table_ok e ->
  vn_ok (pb e) E (vn s) -> buffers_ok (pb e) (sr s) -> reach (pb e) E em -> placed_ok (pb e) em ->
  no_chain em u -> (u < nv (pb e))%nat ->
  match find_chain3 e s em u tgt with
  | Err x => x = Overflow
  | Ok (b, s', em') =>
      length (total (sr s')) = nq (pb e) /\
      (exists l, vn s' !! u = Some l /\ (forall v, v ∈ l <-> E u v) /\
        (embedded_of em l <> [] -> exists w, tabulated e em w /\ totals_exact (pb e) em (wb (md s)) w u l (total (sr s'))) /\
        (embedded_of em l = [] -> exists w, tabulated e em w /\ forall q t, total (sr s') !! q = Some t -> t = max_distance <->
           ~ may_use (pb e) u q \/ wb (md s) <= wt (eweight em) q \/ (parallel e = false /\ w q = max_distance))) /\
      (b = true <-> exists q t, total (sr s') !! q = Some t /\ t < max_distance) /\
      (b = false -> em' = em) /\
      (b = true -> exists r t, root_of em' u r /\ total (sr s') !! r = Some t /\ t < max_distance /\
         forall q y, total (sr s') !! q = Some y -> t <= y) /\
      (forall r t, total (sr s') !! r = Some t -> t < max_distance -> (forall q y, total (sr s') !! q = Some y -> t <= y) ->
         exists f em2, (forall n, n <> pred (rpos s') -> f n = rnd e n) /\
           find_chain3 (with_rnd e f) s em u tgt = Ok (true, s', em2) /\ root_of em2 u r)
  end.
Proof.
  intros PW MN Hq0 Wt V S R Po A Hu.
  destruct (reach_inv _ _ _ PW R) as (F & I & W).
  assert (CF : forall v, (nv (pb e) <= v < nv (pb e) + nf (pb e))%nat -> exists c, chains em !! v = Some c /\ pm c = F v).
  { intros v Hv. destruct (lookup_lt_is_Some_2 (chains em) v) as [c Hc]; [rewrite (po_len _ _ Po); lia|].
    exists c. split; [done|]. eapply (ei_fix _ _ _ _ I); [done|lia]. }
  assert (Hfix : forall v q, (nv (pb e) <= v < nv (pb e) + nf (pb e))%nat -> is_Some (F v !! q) -> (nq (pb e) <= q < nq (pb e) + nr (pb e))%nat).
  { intros v q Hv Hq. destruct (CF v Hv) as (c & Hc & Ec). apply (po_fixed _ _ Po v); [lia|]. exists c. split; [done|].
    rewrite <- Ec in Hq. by apply pm_is_Some. }
  assert (Ab : absent em u).
  { destruct A as [A1 A2]. split; [done|]. intros v c Hc. apply eq_None_not_Some. intros Hl. apply (A2 v). by exists c. }
  set (e1 := mkEnv (pb e) (rnd e) (stops e) (wtab e) (max_no_improvement e) (tries e) (inner_rounds e) (chainlength_patience e)
    (wbound0 e) (skip_init e) (has_restrict e) true (parallel e) (chain_fuel e)).
  pose proof (find_chain3_root e1 E F PW MN Hq0 Wt false ltac:(done) Hfix s em u tgt (Build_sinv e1 _ s V S) I W Ab Hu) as H.
  change (find_chain3 e1 s em u tgt) with (find_chain3 e s em u tgt) in H.
  destruct (find_chain3 e s em u tgt) as [[[b s'] em']|x] eqn:EF; simpl in H.
  2:{ destruct x; try done; destruct H as [[? ?]|[? ?]]; done. }
  destruct H as ([V' S'] & Fr & (l & b0 & M & Hl & Pr & Hall & Hb) & Hem).
  destruct (vn_ok_row _ _ _ _ _ V' Hl) as (HE & ND & Hr).
  assert (Tab : tabulated e em (wt (qw (sr s')))).
  { destruct (pr_mw _ _ _ _ _ _ _ _ _ _ _ Pr) as (mw & Hm & ->). by apply (qwt_tab e1). }
  pose proof (pr_le _ _ _ _ _ _ _ _ _ _ _ Pr) as Mx.
  split; [apply (bo_total _ _ S')|]. split.
  { exists l. split; [done|]. split; [done|]. split.
    - intros Ne. exists (wt (qw (sr s'))). split; [done|]. eapply prepared_totals; eauto. intros v Hv. by apply Hr.
    - intros Ne. exists (wt (qw (sr s'))). split; [done|]. intros q t Hq. rewrite <- lv_embedded in Ne.
      by apply (pr_none _ _ _ _ _ _ _ _ _ _ _ Pr Ne q t). }
  split; [|split; [|split]].
  - split.
    + intros ->. destruct Hb as (r & t & _ & Ht & Nt & _). exists r, t. split; [done|]. pose proof (Mx r t Ht). lia.
    + intros (q & t & Ht & Nt). destruct b; [done|]. exfalso. pose proof (Hb t ltac:(by eapply elem_of_list_lookup_2)). lia.
  - by intros ->.
  - intros ->. destruct Hb as (r & t & Hr' & Ht & Nt & Hm). exists r, t. split; [done|]. split; [done|].
    split; [pose proof (Mx r t Ht); lia|]. intros q y Hq. apply Hm. by eapply elem_of_list_lookup_2.
  - intros r t Ht Nt Hmin. destruct (Hall r t Ht ltac:(lia)) as (em2 & He2 & Hs2 & _).
    destruct (collect_minima_spec (total (sr s'))) as (m & low & Em & Hlow & Hm & Hin & _).
    { intros Z. by rewrite Z in Ht. }
    assert (low = t) as ->.
    { apply elem_of_list_lookup in Hlow as [i Hi]. pose proof (Hmin i low Hi). pose proof (Hm t ltac:(by eapply elem_of_list_lookup_2)). lia. }
    pose proof (proj2 (Hin r) Ht) as Hr2. apply elem_of_list_lookup in Hr2 as [i Hi].
    eexists _, em2. split; [|split; [|exact Hs2]].
    2:{ rewrite (replay e s em u tgt b s' em' m i r t EF Em Hi Ht ltac:(lia)).
        destruct (construct_chain_steiner _ _ _ _ _ _ _); [|done]. cbn [rbind] in *. change (pb e1) with (pb e) in He2. by rewrite He2. }
    intros n Hn. simpl. by rewrite decide_False.
Qed.

Lemma search_any pb em bound u v b : pb_wf pb -> placed_ok pb em -> buffers_ok pb b -> costs_ok pb (qw b) ->
  (u < nv pb + nf pb)%nat -> (v < nv pb + nf pb)%nat ->
  match (let! b := prep_vis pb u v b in compute_distances_from_chain pb em bound v b) with
  | Err x => x = Overflow
  | Ok b' =>
      (qw b' = qw b /\ perm b' = perm b /\ total b' = total b /\
       forall v', v' <> v -> par b' !! v' = par b !! v' /\ vis b' !! v' = vis b !! v' /\ dist b' !! v' = dist b !! v') /\
      exists marks dists parents, vis b' !! v = Some marks /\ dist b' !! v = Some dists /\ par b' !! v = Some parents /\
        search_exact pb em bound (wt (qw b)) u v marks dists parents
  end.
Proof.
  intros PW Po S C Lu Lv.
  pose proof (one_search pb PW em bound Po (fun x => x = Overflow) 0 u v b S C Lu Lv ltac:(lia) ltac:(by left)) as H.
  destruct (let! b := prep_vis pb u v b in _) as [b'|x]; [exact H|]. destruct x; done.
Qed.
Lemma search_ok pb em bound u v b M : pb_wf pb -> placed_ok pb em -> buffers_ok pb b -> costs_ok pb (qw b) ->
  (u < nv pb + nf pb)%nat -> (v < nv pb + nf pb)%nat -> 0 <= M -> (forall q, (q < nq pb)%nat -> wt (qw b) q <= M) -> Z.of_nat (nq pb) * M <= max_distance ->
  exists b', (let! b := prep_vis pb u v b in compute_distances_from_chain pb em bound v b) = Ok b'.
Proof.
  intros PW Po S C Lu Lv HM Hw Hn.
  pose proof (one_search pb PW em bound Po (fun x => False) M u v b S C Lu Lv HM ltac:(by right)) as H.
  destruct (let! b := prep_vis pb u v b in _) as [b'|x]; [eauto|]. by destruct x.
Qed.
