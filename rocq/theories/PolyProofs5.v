(** Deletions, subprocessors and the best of them. *)
From stdpp Require Import base list numbers gmap sets.
From Verif Require Import Base NxModel PyCacheModel PolyModel SpecBus SpecPoly PolyProofs1 PolyProofs2 PolyProofs3 PolyProofs4.

(** ** Deletions *)
Definition hits (evil : list (cq * cq)) (D : gset cq) : Prop := forall e, e ∈ evil -> e.1 ∈ D \/ e.2 ∈ D.
Lemma elem_of_choices evil D : D ∈ choices evil -> hits evil D.
Proof.
  revert D. induction evil as [|e evil IH]; intros D; [intros _ e He; by apply elem_of_nil in He|]. cbn [choices].
  intros (q & HD & Hq)%elem_of_list_bind. apply elem_of_list_bind in HD as (D' & HD & HD').
  apply elem_of_list_singleton in HD as ->. intros e' [-> |He']%elem_of_cons; [|destruct (IH _ HD' _ He'); set_solver].
  rewrite !elem_of_cons in Hq. destruct Hq as [-> |[-> |Hq]]; [left|right|by apply elem_of_nil in Hq]; set_solver.
Qed.
Lemma choices_within evil (Q : cq -> Prop) : (forall e, e ∈ evil -> Q e.1 \/ Q e.2) -> exists D, D ∈ choices evil /\ forall q, q ∈ D -> Q q.
Proof.
  induction evil as [|e evil IH]; intros H; cbn [choices]; [exists ∅; split; [left|set_solver]|].
  destruct IH as (D & HD & HQ); [intros; apply H; by right|].
  assert (Hq : exists q, q ∈ [e.1; e.2] /\ Q q). { destruct (H e); [left|exists e.1|exists e.2]; (split; [|done]); [left|right; left]. }
  destruct Hq as (q & Hq & HQq). exists ({[q]} ∪ D). split.
  - apply elem_of_list_bind. exists q. split; [|done]. apply elem_of_list_bind. exists D. split; [left|done].
  - intros q' [->%elem_of_singleton|?]%elem_of_union; auto.
Qed.
Lemma keep_minimal_none D l : keep_minimal D l = None -> exists s, s ∈ l /\ s ⊂ D.
Proof.
  induction l as [|s l IH]; simpl; [done|]. destruct (decide (s ⊂ D)); [exists s; split; [left|done]|].
  destruct (decide (D ⊂ s)).
  - intros H. destruct (IH H) as (s' & ? & ?). exists s'. split; [by right|done].
  - destruct (keep_minimal D l); [done|]. intros _. destruct (IH eq_refl) as (s' & ? & ?). exists s'. split; [by right|done].
Qed.
Lemma keep_minimal_some D l l' : keep_minimal D l = Some l' -> forall s, (s ∈ l' -> s ∈ l) /\ (s ∈ l -> s ∈ l' \/ D ⊂ s).
Proof.
  revert l'. induction l as [|s l IH]; simpl; intros l'; [intros [= <-] s'; split; [done|by left]|].
  destruct (decide (s ⊂ D)); [done|]. destruct (decide (D ⊂ s)) as [Hd|Hd].
  - intros H s'. destruct (IH _ H s') as [H1 H2]. split; [intros; right; auto|]. intros [-> |?]%elem_of_cons; [by right|auto].
  - destruct (keep_minimal D l) as [l0|]; [|done]. intros [= <-] s'. destruct (IH _ eq_refl s') as [H1 H2]. rewrite !elem_of_cons. naive_solver.
Qed.
Lemma all_deletions_ok evil : (forall D, D ∈ all_deletions evil -> D ∈ choices evil) /\ (forall D, D ∈ choices evil -> exists s, s ∈ all_deletions evil /\ s ⊆ D).
Proof.
  unfold all_deletions.
  assert (H : forall l mins, let r := foldl (fun mins D => match keep_minimal D mins with Some l => l ++ [D] | None => mins end) mins l in
    (forall D, D ∈ r -> D ∈ mins \/ D ∈ l) /\ (forall D, D ∈ mins \/ D ∈ l -> exists s, s ∈ r /\ s ⊆ D)).
  { induction l as [|D l IH]; intros mins; simpl.
    - split; [by left|]. intros D [?|?%elem_of_nil]; [|done]. eauto.
    - destruct (keep_minimal D mins) as [l'|] eqn:E.
      + pose proof (keep_minimal_some _ _ _ E) as Hk. destruct (IH (l' ++ [D])) as [I1 I2]. split.
        * intros D' [[?|?%elem_of_list_singleton]%elem_of_app|?]%I1; [left; by apply Hk|subst; right; left|right; by right].
        * intros D' HD'. rewrite elem_of_cons in HD'.
          assert (Hc : (D' ∈ l' ++ [D] \/ D' ∈ l) \/ D ⊂ D').
          { rewrite elem_of_app, elem_of_list_singleton. destruct HD' as [HD'|[HD'|HD']]; [|tauto|tauto]. apply Hk in HD'. tauto. }
          destruct Hc as [Hc|Hc]; [by apply I2|]. destruct (I2 D) as (s & ? & ?); [left; apply elem_of_app; right; left|]. exists s. split; [done|]. destruct Hc. by etransitivity.
      + pose proof (keep_minimal_none _ _ E) as (s0 & Hs0 & Hlt). destruct (IH mins) as [I1 I2]. split.
        * intros D' [?|?]%I1; [by left|right; by right].
        * intros D' [HD'|[-> |HD']%elem_of_cons]; [apply I2; by left| |apply I2; by right].
          destruct (I2 s0) as (s & ? & ?); [by left|]. exists s. split; [done|]. etransitivity; [exact H0|]. apply Hlt. }
  destruct (H (choices evil) []) as [H1 H2]. split.
  - intros D HD. destruct (H1 D HD) as [?%elem_of_nil|?]; done.
  - intros D HD. apply H2. by right.
Qed.
Lemma random_deletion_hits pick evil : hits evil (random_deletion pick evil).
Proof.
  unfold random_deletion.
  assert (H : forall l D, D ⊆ foldl (fun D (e : cq * cq) => if decide (e.1 ∈ D \/ e.2 ∈ D) then D else {[if pick e then e.1 else e.2]} ∪ D) D l /\
    hits l (foldl (fun D (e : cq * cq) => if decide (e.1 ∈ D \/ e.2 ∈ D) then D else {[if pick e then e.1 else e.2]} ∪ D) D l)).
  { induction l as [|e l IH]; intros D; simpl; [split; [done|intros e He; by apply elem_of_nil in He]|].
    set (D' := if decide _ then D else _). destruct (IH D') as [I1 I2].
    assert (HD' : D ⊆ D' /\ (e.1 ∈ D' \/ e.2 ∈ D')).
    { unfold D'. destruct (decide _) as [?|?]; [done|]. split; [apply union_subseteq_r|]. destruct (pick e); [left|right]; apply elem_of_union_l, elem_of_singleton_2; done. }
    destruct HD' as [S1 S2]. split; [by etransitivity|].
    intros e' [-> |He']%elem_of_cons; [destruct S2; [left|right]; by apply I1|by apply I2]. }
  apply H.
Qed.

(** ** The missing couplers *)
Section proc.
  Context (M N L limit : nat) (edges : list (nat * nat)) (HN : 0 < N) (HL : 0 < L).
  Notation p := (make_proc M N L limit edges).
  Notation P0 := (mkEden M N L (pr_edges p)).
  Notation lin := (poly_to_linear N L).

  Lemma sub_coupler D a b : has_coupler (subprocessor p D) a b = true <-> has_coupler P0 a b = true /\ a ∉ D /\ b ∉ D.
  Proof using HN HL. unfold has_coupler. rewrite !bool_decide_eq_true. simpl. rewrite !elem_of_list_filter. simpl. tauto. Qed.
  Lemma coupler_edge a b : has_coupler P0 a b = true -> has_edge edges (lin a) (lin b).
  Proof using HN HL.
    unfold has_coupler. rewrite bool_decide_eq_true. simpl. rewrite !elem_of_list_fmap.
    intros [([e1 e2] & E & H)|([e1 e2] & E & H)]; injection E as -> ->; rewrite !lin_chimera by done; [by left|by right].
  Qed.
  Lemma edge_coupler a b : has_edge edges a b -> has_coupler P0 (poly_to_chimera N L a) (poly_to_chimera N L b) = true.
  Proof using HN HL.
    intros H. unfold has_coupler. apply bool_decide_eq_true. simpl. rewrite !elem_of_list_fmap.
    destruct H as [H|H]; [left; by exists (a, b)|right; by exists (b, a)].
  Qed.
  Lemma sub_sub_graph D : sub_graph (subprocessor p D) edges.
  Proof using HN HL. intros a b H. apply sub_coupler in H as [H _]. by apply coupler_edge. Qed.
  Lemma qubit_ends a : has_qubit P0 a = true -> lin a ∈ ends edges.
  Proof using HN HL. intros [b H]%has_qubit_coupler. by apply coupler_edge, has_edge_ends in H as [? _]. Qed.
  Lemma ends_qubit a : a ∈ ends edges -> has_qubit P0 (poly_to_chimera N L a) = true.
  Proof using HN HL.
    intros H. assert (exists b, has_edge edges a b) as [b Hb].
    { unfold ends in H. rewrite elem_of_app, !elem_of_list_fmap in H. destruct H as [([u v] & -> & H)|([u v] & -> & H)]; [exists v; by left|exists u; by right]. }
    by apply edge_coupler, has_coupler_qubits in Hb as [? _].
  Qed.
  Lemma lin_qubit_iff x y u k : y < N -> k < L -> qubit N L x y u k ∈ ends edges <-> has_qubit P0 (x, y, u, k) = true.
  Proof using HN HL.
    intros Hy Hk. rewrite <- to_linear_qubit. split; [|apply qubit_ends]. intros H. apply ends_qubit in H. by rewrite chimera_lin in H.
  Qed.
  Lemma lin_edge_iff x y u k x' y' u' k' : y < N -> k < L -> y' < N -> k' < L ->
    has_edge edges (qubit N L x y u k) (qubit N L x' y' u' k') <-> has_coupler P0 (x, y, u, k) (x', y', u', k') = true.
  Proof using HN HL.
    intros. rewrite <- !to_linear_qubit. split; [|apply coupler_edge]. intros H'. apply edge_coupler in H'. by rewrite !chimera_lin in H'.
  Qed.
  Lemma elem_of_evil a b : (a, b) ∈ find_evil p <-> exists x y k l, x < M /\ y < N /\ k < L /\ l < L /\ a = (x, y, false, k) /\ b = (x, y, true, l) /\
    has_qubit P0 a = true /\ has_qubit P0 b = true /\ has_coupler P0 a b = false.
  Proof using HN HL.
    unfold find_evil. split.
    - intros (x & (y & (k & (l & H & Hl)%elem_of_list_bind & Hk)%elem_of_list_bind & Hy)%elem_of_list_bind & Hx)%elem_of_list_bind.
      apply elem_of_seq in Hx, Hy, Hk, Hl. simpl in Hx, Hy, Hk, Hl. change (mkEden (pr_M p) (pr_N p) (pr_L p) (pr_edges p)) with P0 in H.
      destruct (has_qubit P0 (x, y, false, k)) eqn:E1; [|by apply elem_of_nil in H].
      destruct (has_qubit P0 (x, y, true, l)) eqn:E2; [|by apply elem_of_nil in H].
      destruct (has_coupler P0 (x, y, false, k) (x, y, true, l)) eqn:E3; [by apply elem_of_nil in H|].
      simpl in H. apply elem_of_list_singleton in H. injection H as -> ->. exists x, y, k, l. split_and!; try lia; done.
    - intros (x & y & k & l & Hx & Hy & Hk & Hl & -> & -> & E1 & E2 & E3).
      apply elem_of_list_bind. exists x. split; [|apply elem_of_seq; simpl; lia].
      apply elem_of_list_bind. exists y. split; [|apply elem_of_seq; simpl; lia].
      apply elem_of_list_bind. exists k. split; [|apply elem_of_seq; simpl; lia].
      apply elem_of_list_bind. exists l. split; [|apply elem_of_seq; simpl; lia].
      change (mkEden (pr_M p) (pr_N p) (pr_L p) (pr_edges p)) with P0. rewrite E1, E2, E3. left.
  Qed.
  Lemma evil_missing a b : (a, b) ∈ find_evil p -> missing_coupler M N L (ends edges) edges (lin a) (lin b).
  Proof using HN HL.
    intros (x & y & k & l & Hx & Hy & Hk & Hl & -> & -> & E1 & E2 & E3)%elem_of_evil.
    exists x, y, k, l. rewrite !to_linear_qubit. split_and!; try done.
    - by apply lin_qubit_iff.
    - by apply lin_qubit_iff.
    - rewrite lin_edge_iff by done. by rewrite E3.
  Qed.
  Lemma sub_cell_ok D : hits (find_evil p) D -> cell_ok (subprocessor p D).
  Proof using HN HL.
    intros Hh x y k l Hx Hy Hk Hl Ha Hb. simpl in Hx, Hy, Hk, Hl.
    apply has_qubit_coupler in Ha as [a' Ha], Hb as [b' Hb]. apply sub_coupler in Ha as (Ha & Ha1 & _), Hb as (Hb & Hb1 & _).
    apply has_coupler_qubits in Ha as [Ha _], Hb as [Hb _].
    apply sub_coupler. split; [|done]. destruct (has_coupler P0 (x, y, false, k) (x, y, true, l)) eqn:E; [done|].
    exfalso. destruct (Hh ((x, y, false, k), (x, y, true, l))) as [?|?]; [|done|done]. apply elem_of_evil. exists x, y, k, l. done.
  Qed.

  (** which subprocessors are looked at *)
  Section subs.
    Context (samp : nat -> list (gset cq) -> list (gset cq)) (picks : nat -> cq * cq -> bool).
    Context (Hsamp : forall k l, k <= length l -> length (samp k l) = k /\ forall x, x ∈ samp k l -> x ∈ l).
    Lemma subs_hit P : P ∈ subprocessors samp picks p -> exists D, P = subprocessor p D /\ hits (find_evil p) D.
    Proof using HN HL Hsamp.
      destruct (all_deletions_ok (find_evil p)) as [A1 _].
      assert (HA : forall P, P ∈ subprocessor p <$> all_deletions (find_evil p) -> exists D, P = subprocessor p D /\ hits (find_evil p) D).
      { intros P' (D & -> & HD)%elem_of_list_fmap. exists D. split; [done|]. by apply elem_of_choices, A1. }
      unfold subprocessors. destruct (_ <=? _); [apply HA|]. destruct (_ <=? _); [|].
      - destruct (Nat.ltb_spec (pr_limit p) (length (all_deletions (find_evil p)))) as [Hlt|Hge]; [|apply HA].
        intros (D & -> & HD)%elem_of_list_fmap. apply HA, elem_of_list_fmap. exists D. split; [done|]. eapply Hsamp; [|done]. lia.
      - intros (i & -> & _)%elem_of_list_fmap. eexists. split; [done|]. apply random_deletion_hits.
    Qed.
    Lemma subs_nonempty : 0 < limit -> subprocessors samp picks p <> [].
    Proof using HN HL Hsamp.
      intros Hl. destruct (all_deletions_ok (find_evil p)) as [_ A2].
      assert (HA : all_deletions (find_evil p) <> []).
      { destruct (choices_within (find_evil p) (fun _ => True)) as (D & HD & _); [tauto|]. destruct (A2 D HD) as (s & Hs & _). intros E. rewrite E in Hs. by apply elem_of_nil in Hs. }
      unfold subprocessors. destruct (_ <=? _); [by destruct (all_deletions (find_evil p))|]. destruct (_ <=? _).
      - simpl pr_limit. destruct (Nat.ltb_spec limit (length (all_deletions (find_evil p)))); [|by destruct (all_deletions (find_evil p))].
        destruct (Hsamp limit (all_deletions (find_evil p))) as [Hlen _]; [lia|]. intros E%fmap_nil_inv. rewrite E in Hlen. simpl in Hlen. lia.
      - simpl. destruct limit; [lia|done].
    Qed.
    Lemma evil_few : few_missing M N L edges limit -> 2 ^ length (find_evil p) <= limit.
    Proof using HN HL Hsamp.
      intros Hf. assert (Hnd : NoDup (find_evil p)).
      { unfold find_evil. change (mkEden (pr_M p) (pr_N p) (pr_L p) (pr_edges p)) with P0.
        assert (Hb : forall {A B} (f : A -> list B) l, NoDup l -> (forall a, a ∈ l -> NoDup (f a)) -> (forall a a' b, b ∈ f a -> b ∈ f a' -> a = a') -> NoDup (l ≫= f)).
        { intros A B f l Hl Hf1 Hf2. induction Hl as [|a l Ha Hl IH]; [constructor|]. rewrite bind_cons. apply NoDup_app. split; [apply Hf1; left|].
          split; [|apply IH; intros; apply Hf1; by right]. intros b Hb (a' & Hb' & Ha')%elem_of_list_bind. by rewrite (Hf2 a a' b Hb Hb') in Ha. }
        assert (Hin : forall x y k l e, e ∈ (if has_qubit P0 (x, y, false, k) && has_qubit P0 (x, y, true, l) && negb (has_coupler P0 (x, y, false, k) (x, y, true, l)) then [((x, y, false, k), (x, y, true, l))] else []) -> e = ((x, y, false, k), (x, y, true, l))).
        { intros x y k l e. destruct (_ && _); [by intros ?%elem_of_list_singleton|by intros ?%elem_of_nil]. }
        apply Hb; [apply NoDup_seq|intros x _; apply Hb; [apply NoDup_seq|intros y _; apply Hb; [apply NoDup_seq|intros k _; apply Hb; [apply NoDup_seq| |]|]|]|].
        - intros l _. destruct (_ && _); [apply NoDup_singleton|constructor].
        - intros l l' e H1%Hin H2%Hin. congruence.
        - intros k k' e (l & H1%Hin & _)%elem_of_list_bind (l' & H2%Hin & _)%elem_of_list_bind. congruence.
        - intros y y' e (k & (l & H1%Hin & _)%elem_of_list_bind & _)%elem_of_list_bind (k' & (l' & H2%Hin & _)%elem_of_list_bind & _)%elem_of_list_bind. congruence.
        - intros x x' e (y & (k & (l & H1%Hin & _)%elem_of_list_bind & _)%elem_of_list_bind & _)%elem_of_list_bind (y' & (k' & (l' & H2%Hin & _)%elem_of_list_bind & _)%elem_of_list_bind & _)%elem_of_list_bind. congruence. }
      rewrite <- (fmap_length (fun e => (lin e.1, lin e.2))). apply Hf.
      - apply NoDup_fmap_2_strong; [|done]. intros [a b] [a' b'] H1 H2 E. injection E as E1 E2.
        apply elem_of_evil in H1 as (x & y & k & l & ? & ? & ? & ? & -> & -> & _), H2 as (x' & y' & k' & l' & ? & ? & ? & ? & -> & -> & _).
        f_equal; (eapply (lin_inj P0); [simpl; lia|simpl; lia|done]).
      - intros a b ([a' b'] & E & H)%elem_of_list_fmap. injection E as -> ->. by apply evil_missing.
    Qed.
    Lemma subs_cover R : few_missing M N L edges limit -> covers M N L edges R ->
      exists D, subprocessor p D ∈ subprocessors samp picks p /\ hits (find_evil p) D /\ forall q, q ∈ D -> lin q ∈ R.
    Proof using HN HL Hsamp.
      intros Hf Hc. destruct (all_deletions_ok (find_evil p)) as [A1 A2].
      destruct (choices_within (find_evil p) (fun q => lin q ∈ R)) as (D & HD & HR).
      { intros [a b] He. apply Hc. by apply evil_missing. }
      destruct (A2 D HD) as (s & Hs & Hsub). exists s. split; [|split].
      - unfold subprocessors. simpl pr_limit. rewrite (proj2 (Nat.leb_le _ _) (evil_few Hf)). by apply elem_of_list_fmap_1.
      - by apply elem_of_choices, A1.
      - intros q Hq. apply HR. set_solver.
    Qed.
  End subs.

  (** ** Capacities *)
  Lemma sub_intact D : (forall q, q ∈ ends edges -> q < nqubits M N L) -> lines_intact M N L edges -> intact (subprocessor p D).
  Proof using HN HL.
    intros Hr Hi u w z k Ha Hb.
    apply has_qubit_coupler in Ha as [a' Ha], Hb as [b' Hb]. apply sub_coupler in Ha as (Ha & Ha1 & _), Hb as (Hb & Hb1 & _).
    apply has_coupler_qubits in Ha as [Ha _], Hb as [Hb _]. apply sub_coupler. split; [|done].
    (* all coordinates are in range *)
    assert (Hrange : forall x y u k, has_qubit P0 (x, y, u, k) = true -> x < M /\ y < N /\ k < L).
    { intros x y u0 k0 H. assert (Hyk : y < N /\ k0 < L).
      { unfold has_qubit in H. rewrite bool_decide_eq_true in H. simpl in H. rewrite !elem_of_list_fmap in H.
        destruct H as [(e & E & He)|(e & E & He)]; apply elem_of_list_fmap in He as (e' & -> & _); simpl in E;
          [pose proof (chimera_inr N L e'.1 HN HL) as Hc|pose proof (chimera_inr N L e'.2 HN HL) as Hc]; by rewrite <- E in Hc. }
      split; [|done]. apply lin_qubit_iff, Hr in H; [|tauto|tauto]. unfold qubit, nqubits in H. destruct Hyk.
      destruct (decide (x < M)); [done|]. exfalso. clear -H n. assert (Hx : M * N * 2 * L <= x * N * 2 * L) by (apply Nat.mul_le_mono_r, Nat.mul_le_mono_r, Nat.mul_le_mono_r; lia). nia. }
    destruct u; simpl in *.
    - destruct (Hrange _ _ _ _ Ha) as (? & ? & ?), (Hrange _ _ _ _ Hb) as (? & ? & ?).
      apply lin_edge_iff; try done. apply (Hi true w z k); simpl; try lia; by apply lin_qubit_iff.
    - destruct (Hrange _ _ _ _ Ha) as (? & ? & ?), (Hrange _ _ _ _ Hb) as (? & ? & ?).
      apply lin_edge_iff; try done. apply (Hi false w z k); simpl; try lia; by apply lin_qubit_iff.
  Qed.
  Lemma line_qubit_lin u w z k : line_qubit N L u w z k = lin (lq u w z k).
  Proof using HN HL. destruct u; simpl line_qubit; simpl lq; by rewrite to_linear_qubit. Qed.
  (** couplers outside of [R] are in the subprocessor *)
  Lemma without_coupler R D (u : bool) w z k (u' : bool) w' z' k' : (forall q, q ∈ D -> lin q ∈ R) ->
    (if u then z else w) < N -> k < L -> (if u' then z' else w') < N -> k' < L ->
    has_edge (edges_without R edges) (line_qubit N L u w z k) (line_qubit N L u' w' z' k') -> has_coupler (subprocessor p D) (lq u w z k) (lq u' w' z' k') = true.
  Proof using HN HL.
    intros HD Hr1 Hk Hr2 Hk' H. rewrite !line_qubit_lin in H.
    assert (Hx : has_edge edges (lin (lq u w z k)) (lin (lq u' w' z' k')) /\ lin (lq u w z k) ∉ R /\ lin (lq u' w' z' k') ∉ R).
    { unfold has_edge, edges_without in H |- *. rewrite !elem_of_list_filter in H. simpl in H. tauto. }
    destruct Hx as (He & H1 & H2). apply sub_coupler. split; [|split; intros Hin; by apply HD in Hin].
    rewrite <- !line_qubit_lin in He. destruct u, u'; simpl in *; by apply lin_edge_iff.
  Qed.
  Lemma segment_seg R D u w z0 z1 k : (forall q, q ∈ D -> lin q ∈ R) -> z0 <= z1 -> k < L -> w < nlines M N u -> z1 < npositions M N u ->
    segment_present N L (without R (ends edges)) (edges_without R edges) u w z0 z1 k ->
    (exists z, z0 <= z <= z1 /\ has_qubit (subprocessor p D) (lq u w z k) = true) -> seg (subprocessor p D) u w z0 z1 k.
  Proof using HN HL.
    intros HD Hle Hk Hw Hz [S1 S2] (zc & Hzc & Hc).
    assert (Hcoup : forall z, z0 <= z < z1 -> has_coupler (subprocessor p D) (lq u w z k) (lq u w (S z) k) = true).
    { intros z Hz'. eapply (without_coupler R); try done; [destruct u; simpl in *; lia|destruct u; simpl in *; lia|by apply S2]. }
    split; [|done]. intros z Hz'. destruct (decide (z0 = z1)) as [-> |Hne]; [by replace z with zc by lia|].
    destruct (decide (z < z1)).
    - by destruct (has_coupler_qubits _ _ _ (Hcoup z ltac:(lia))).
    - destruct z as [|z']; [lia|]. by destruct (has_coupler_qubits _ _ _ (Hcoup z' ltac:(lia))).
  Qed.
  (** crossing lines give each other's qubits *)
  Lemma crossing R D x y k l : covers M N L edges R -> (forall q, q ∈ D -> lin q ∈ R) -> x < M -> y < N -> k < L -> l < L ->
    qubit N L x y false k ∈ without R (ends edges) -> qubit N L x y true l ∈ without R (ends edges) ->
    has_qubit (subprocessor p D) (x, y, false, k) = true /\ has_qubit (subprocessor p D) (x, y, true, l) = true.
  Proof using HN HL.
    intros Hc HD Hx Hy Hk Hl [Ha1 Ha2]%elem_of_list_filter [Hb1 Hb2]%elem_of_list_filter.
    assert (He : has_coupler P0 (x, y, false, k) (x, y, true, l) = true).
    { destruct (has_coupler P0 (x, y, false, k) (x, y, true, l)) eqn:E; [done|]. exfalso.
      destruct (Hc (qubit N L x y false k) (qubit N L x y true l)) as [?|?]; [|done|done].
      exists x, y, k, l. split_and!; try done. rewrite lin_edge_iff by done. by rewrite E. }
    apply has_coupler_qubits. apply sub_coupler. split; [done|]. rewrite <- to_linear_qubit in Ha1, Hb1. split; intros Hin; by apply HD in Hin.
  Qed.
  Lemma count_le (Q : nat -> Prop) c P u w z0 z1 : ed_L P = L -> count_of (fun k => k < L /\ Q k) c -> (forall k, k < L -> Q k -> seg P u w z0 z1 k) -> c <= nsegs P u w z0 z1.
  Proof using HN HL.
    intros HP (l & Hnd & <- & Hl) HQ. unfold nsegs. apply submseteq_length. apply NoDup_submseteq; [done|].
    intros k [Hk HQk]%Hl. apply elem_of_list_filter. split; [by apply HQ|]. apply elem_of_seq. lia.
  Qed.
  Lemma count_pos (Q : nat -> Prop) c : count_of Q c -> 0 < c -> exists k, Q k.
  Proof using HN HL. intros ([|k l] & _ & <- & Hl) Hc; [simpl in Hc; lia|]. exists k. apply Hl. left. Qed.
  Lemma capacity_le R D e c : covers M N L edges R -> (forall q, q ∈ D -> lin q ∈ R) -> ell_in M N e ->
    ell_capacity N L (without R (ends edges)) (edges_without R edges) e c -> c <= cap (subprocessor p D) e.
  Proof using HN HL.
    intros Hcov HD Hin (a & b & Ha & Hb & ->). destruct Hin as (Hr & Hcc & H1 & H2).
    destruct (decide (0 < a)) as [Hpa|]; [|lia]. destruct (decide (0 < b)) as [Hpb|]; [|lia].
    destruct (count_pos _ _ Ha Hpa) as (ka & Hka & Sa). destruct (count_pos _ _ Hb Hpb) as (kb & Hkb & Sb).
    unfold cap. apply Nat.min_le_compat.
    - eapply count_le; [done|exact Ha|]. intros k Hk Sk. apply (segment_seg R); [done|lia|done|simpl; lia|simpl; lia|done|].
      exists (e_row e). split; [lia|]. simpl. eapply (proj1 (crossing R D (e_row e) (e_col e) k kb Hcov HD ltac:(lia) ltac:(lia) Hk Hkb
        (proj1 Sk (e_row e) ltac:(lia)) (proj1 Sb (e_col e) ltac:(lia)))).
    - eapply count_le; [done|exact Hb|]. intros k Hk Sk. apply (segment_seg R); [done|lia|done|simpl; lia|simpl; lia|done|].
      exists (e_col e). split; [lia|]. simpl. eapply (proj2 (crossing R D (e_row e) (e_col e) ka k Hcov HD ltac:(lia) ltac:(lia) Hka Hk
        (proj1 Sa (e_row e) ltac:(lia)) (proj1 Sk (e_col e) ltac:(lia)))).
  Qed.
  Lemma capacity_isum R D len Ls c : covers M N L edges R -> (forall q, q ∈ D -> lin q ∈ R) -> is_ells M N len Ls ->
    capacity N L (without R (ends edges)) (edges_without R edges) Ls c -> c <= isum (subprocessor p D) Ls.
  Proof using HN HL.
    intros Hcov HD [Hin _] (l & HF & ->). unfold isum. induction HF as [|e c Ls l Hc HF IH]; [done|]. rewrite fmap_cons. cbn [sum_list].
    assert (c <= cap (subprocessor p D) e) by (eapply capacity_le; [done|done|apply Hin; left|done]).
    assert (sum_list l <= sum_list (cap (subprocessor p D) <$> Ls)) by (apply IH; intros; apply Hin; by right). by apply Nat.add_le_mono.
  Qed.
End proc.

(** ** The best over the subprocessors *)
Lemma map_processors_ok {B} (ps : list eden) (f : eden -> nat -> res (B * nat)) (better : B -> B -> bool) (Post : eden -> B -> Prop) (le : B -> B -> Prop) g :
  ps <> [] -> (forall P g, P ∈ ps -> exists b g', f P g = Ok (b, g') /\ Post P b) ->
  (forall s, le s s) -> (forall a b c, le a b -> le b c -> le a c) -> (forall s x, better s x = true -> le s x) -> (forall s x, better s x = false -> le x s) ->
  exists b g', map_to_processors ps f better g = Ok (b, g') /\ (exists P, P ∈ ps /\ Post P b) /\ (forall P, P ∈ ps -> exists b', Post P b' /\ le b' b).
Proof.
  intros Hne Hf Hrefl Htrans Hb1 Hb2. destruct ps as [|p ps]; [done|]. clear Hne. simpl.
  destruct (Hf p g) as (b & g' & -> & Hpost); [left|]. cbn [rbind].
  assert (H : forall qs pre s, (forall P, P ∈ qs -> P ∈ p :: ps) -> (exists P, P ∈ p :: ps /\ Post P s.1) -> (forall P, P ∈ pre -> exists b', Post P b' /\ le b' s.1) ->
    exists s', foldM (fun (s : B * nat) p => let! x := f p s.2 in Ok (if better s.1 x.1 then x.1 else s.1, x.2)) qs s = Ok s' /\
      (exists P, P ∈ p :: ps /\ Post P s'.1) /\ (forall P, P ∈ pre ++ qs -> exists b', Post P b' /\ le b' s'.1)).
  { induction qs as [|q qs IH]; intros pre s Hin Hex Hpre; cbn [foldM].
    - exists s. rewrite app_nil_r. done.
    - destruct (Hf q s.2) as (x & g1 & -> & Hx); [apply Hin; left|]. cbn [rbind]. simpl fst. simpl snd.
      destruct (IH (pre ++ [q]) (if better s.1 x then x else s.1, g1)) as (s' & Hs' & Hex' & Hall).
      + intros; apply Hin; by right.
      + simpl. destruct (better s.1 x); [|done]. exists q. split; [apply Hin; left|done].
      + simpl. intros P [HP|HP%elem_of_list_singleton]%elem_of_app.
        * destruct (Hpre P HP) as (b' & Hb' & Hle). exists b'. split; [done|]. destruct (better s.1 x) eqn:E; [|done]. eapply Htrans; [done|by apply Hb1].
        * subst. exists x. split; [done|]. destruct (better s.1 x) eqn:E; [apply Hrefl|by apply Hb2].
      + exists s'. split; [done|]. split; [done|]. by rewrite <- app_assoc in Hall. }
  destruct (H ps [p] (b, g')) as ([b' g''] & -> & Hex & Hall).
  - intros; by right.
  - exists p. split; [left|done].
  - intros P ->%elem_of_list_singleton. exists b. split; [done|apply Hrefl].
  - exists b', g''. done.
Qed.
