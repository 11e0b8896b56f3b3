(** The masked topologies (C39): each removes an end of every missing internal coupler, and
    nothing but such ends; when few couplers are missing every choice of ends comes up. *)
From stdpp Require Import base list list_numbers numbers gmap.
From Verif Require Import Base BusModel SpecBus CoordProofs BitProofs BundleProofs MaskProofs MaskProofs2.

(** [R] consists of ends of the edges in [bad], and takes an end of each *)
Definition picks (bad : list (nat * nat)) (R : list nat) : Prop :=
  (forall q, q ∈ R -> exists e, e ∈ bad /\ (q = e.1 \/ q = e.2)) /\
  (forall e, e ∈ bad -> e.1 ∈ R \/ e.2 ∈ R).

Lemma picks_perm bad bad' R : bad ≡ₚ bad' -> picks bad R -> picks bad' R.
Proof.
  intros P [H1 H2]. split.
  - intros q (e & He & Hq)%H1. exists e. by rewrite <- P.
  - intros e He. apply H2. by rewrite P.
Qed.

Lemma elem_of_pick_exhaustive bad n q : q ∈ pick_exhaustive bad n <->
  exists i e, bad !! i = Some e /\ q = if N.testbit n (N.of_nat i) then e.1 else e.2.
Proof.
  unfold pick_exhaustive. rewrite elem_of_list_In, <- in_rev, <- elem_of_list_In, elem_of_list_lookup.
  setoid_rewrite list_lookup_imap. split.
  - intros (i & (e & E & ->)%fmap_Some_1). by exists i, e.
  - intros (i & e & E & ->). exists i. by rewrite E.
Qed.

Lemma pick_exhaustive_ok bad n : picks bad (pick_exhaustive bad n).
Proof.
  split.
  - intros q (i & e & E & ->)%elem_of_pick_exhaustive. exists e. split; [by eapply elem_of_list_lookup_2|].
    destruct (N.testbit _ _); auto.
  - intros e [i E]%elem_of_list_lookup.
    assert (H : (if N.testbit n (N.of_nat i) then e.1 else e.2) ∈ pick_exhaustive bad n).
    { apply elem_of_pick_exhaustive. by exists i, e. }
    destruct (N.testbit _ _); auto.
Qed.

Lemma pick_greedy_ok coin bad : picks bad (pick_greedy coin bad).
Proof.
  unfold pick_greedy.
  assert (G : forall dn rest s, (forall q, q ∈ s.1.1 -> exists e, e ∈ dn /\ (q = e.1 \/ q = e.2)) ->
     (forall e, e ∈ dn -> e.1 ∈ s.1.1 \/ e.2 ∈ s.1.1) ->
     let s' := foldl (cover_step coin) s rest in
     (forall q, q ∈ s'.1.1 -> exists e, e ∈ dn ++ rest /\ (q = e.1 \/ q = e.2)) /\
     (forall e, e ∈ dn ++ rest -> e.1 ∈ s'.1.1 \/ e.2 ∈ s'.1.1)).
  { intros dn rest. revert dn. induction rest as [|e rest IH]; intros dn s H1 H2; simpl.
    - rewrite app_nil_r. done.
    - assert (Hs : exists x, (x = e.1 \/ x = e.2) /\ (cover_step coin s e).1.1 = {[ x ]} ∪ s.1.1 \/
        (e.1 ∈ s.1.1 \/ e.2 ∈ s.1.1) /\ (cover_step coin s e).1.1 = s.1.1).
      { destruct s as [[cover adj] i]. unfold cover_step. simpl.
        destruct (decide (e.1 ∈ cover \/ e.2 ∈ cover)).
        - exists 0. right. done.
        - destruct (degree adj e.1 <? degree adj e.2); [exists e.2; left; by split; [right|]|].
          destruct (degree adj e.2 <? degree adj e.1); [exists e.1; left; by split; [left|]|].
          destruct (coin i); [exists e.2; left; by split; [right|]|exists e.1; left; by split; [left|]]. }
      destruct (IH (dn ++ [e]) (cover_step coin s e)) as [I1 I2].
      + destruct Hs as [x [[Hx Hc]|[Hx Hc]]]; rewrite Hc.
        * intros q [->%elem_of_singleton|Hq]%elem_of_union.
          -- exists e. split; [set_solver|done].
          -- destruct (H1 q Hq) as (e' & ? & ?). exists e'. split; [set_solver|done].
        * intros q Hq. destruct (H1 q Hq) as (e' & ? & ?). exists e'. split; [set_solver|done].
      + intros e' [He|He]%elem_of_app.
        * destruct (H2 e' He); destruct Hs as [x [[Hx Hc]|[Hx Hc]]]; rewrite Hc; set_solver.
        * apply elem_of_list_singleton in He as ->.
          destruct Hs as [x [[Hx Hc]|[Hx Hc]]]; rewrite Hc; set_solver.
      + rewrite <- app_assoc in I1, I2. done. }
  specialize (G [] bad (∅, adj_of bad, 0)). simpl in G. destruct G as [G1 G2]; [set_solver..|].
  split; intros ?; rewrite ?elem_of_elements; naive_solver.
Qed.

(** what a masked topology is, in terms of the graph *)
Definition masked (t : topo) (nodes : list nat) (edges : list (nat * nat)) (cells : list N * list N) : Prop :=
  exists R, (forall q, q ∈ R -> exists a b, is_bad t nodes edges a b /\ (q = a \/ q = b)) /\
    (forall a b, is_bad t nodes edges a b -> a ∈ R \/ b ∈ R) /\
    represents t cells.1 cells.2 (without R nodes) (edges_without R edges).

Section topo.
Context (t : topo) (Hsh : shore t <= 8) (nodes : list nat) (edges : list (nat * nat)).
Notation NQ := (dim_y t * (dim_x t * 2) * shore t).
Context (c : tcache) (Ht : tc_topo c = t).
Context (Hr : represents t (tc_nodemask c) (tc_edgemask c) nodes edges).
Context (Hb : forall a b, (a, b) ∈ tc_bad c <-> is_bad t nodes edges a b).

Lemma bad_lt a b : is_bad t nodes edges a b -> a < NQ /\ b < NQ.
Proof. intros (y & x & k & l & ? & ? & ? & ? & -> & -> & _). split; by apply chimera_linear_lt. Qed.

Lemma drop_picks bad R : bad ≡ₚ tc_bad c -> picks bad R ->
  exists m, drop_nodes t R (tc_nodemask c, tc_edgemask c) = Ok m /\ masked t nodes edges m /\
     represents t m.1 m.2 (without R nodes) (edges_without R edges).
Proof.
  intros P [H1 H2]%(picks_perm _ _ _ P).
  destruct (drop_nodes_ok t Hsh _ _ nodes edges R Hr) as (nm & em & E & HR).
  { intros q ([a b] & He & Hq)%H1. apply Hb, bad_lt in He. simpl in Hq. naive_solver. }
  exists (nm, em). split_and!; [done| |done]. exists R. split_and!; [| |done].
  - intros q ([a b] & He & Hq)%H1. exists a, b. split; [by apply Hb|done].
  - intros a b He%Hb. apply (H2 (a, b)); done.
Qed.

Lemma masked_none : tc_bad c = [] -> masked t nodes edges (tc_nodemask c, tc_edgemask c).
Proof.
  intros E.
  destruct (drop_picks [] []) as (m & E1 & ? & ?); [by rewrite E|split; [by intros ? ?%elem_of_nil|by intros ? ?%elem_of_nil]|].
  simpl in E1. injection E1 as <-. done.
Qed.

Lemma tc_next_ok bound shuf coin s : ts_bad s ≡ₚ tc_bad c -> (forall l, shuf l ≡ₚ l) ->
  exists r, tc_next c bound shuf coin s = Ok r /\
    forall s', r = Some s' -> ts_bad s' ≡ₚ tc_bad c /\ ts_num s' = (ts_num s + 1)%N /\ masked t nodes edges (ts_cells s').
Proof.
  intros P Hshuf. unfold tc_next.
  destruct (decide (ts_bad s = [])) as [E0|E0].
  { rewrite E0 in P. destruct (N.eqb_spec (ts_num s) 0) as [E|E]; eexists; (split; [done|]); [|done].
    intros s' [= <-]. simpl. split_and!; [done|lia|]. apply masked_none. by apply Permutation_nil_l in P. }
  destruct (2 ^ N.of_nat (length (ts_bad s)) <=? bound)%N.
  { destruct (ts_num s <? _)%N; [|by eexists].
    rewrite Ht. destruct (drop_picks (ts_bad s) (pick_exhaustive (ts_bad s) (ts_num s)) P) as (m & -> & Hm & _).
    { apply pick_exhaustive_ok. }
    cbn [rbind]. eexists. split; [done|]. intros s' [= <-]. by split_and!. }
  destruct (ts_num s <? bound)%N; [|by eexists].
  rewrite Ht. destruct (drop_picks (shuf (ts_bad s)) (pick_greedy coin (shuf (ts_bad s)))) as (m & -> & Hm & _).
  { by rewrite Hshuf. } { apply pick_greedy_ok. }
  cbn [rbind]. eexists. split; [done|]. intros s' [= <-]. split_and!; [|done..]. simpl. by rewrite Hshuf.
Qed.

(** how many masks a run visits *)
Definition mask_count (bound : N) : N :=
  match tc_bad c with
  | [] => 1
  | _ => if (2 ^ N.of_nat (length (tc_bad c)) <=? bound)%N then 2 ^ N.of_nat (length (tc_bad c)) else bound
  end%N.

Lemma tc_next_stop bound shuf coin s : ts_bad s ≡ₚ tc_bad c ->
  (mask_count bound <= ts_num s)%N <-> tc_next c bound shuf coin s = Ok None.
Proof.
  intros P. unfold tc_next, mask_count. rewrite (Permutation_length P).
  destruct (decide (ts_bad s = [])) as [E0|E0].
  { rewrite E0 in P. apply Permutation_nil_l in P. rewrite <- P.
    destruct (N.eqb_spec (ts_num s) 0) as [E|E]; split; try done; lia. }
  destruct (tc_bad c) eqn:E1; [by apply Permutation_nil_r in P|]. rewrite <- E1 in *.
  destruct (2 ^ N.of_nat (length (tc_bad c)) <=? bound)%N.
  - destruct (N.ltb_spec (ts_num s) (2 ^ N.of_nat (length (tc_bad c)))).
    + split; [lia|]. destruct (drop_nodes _ _ _); done.
    + split; [done|]. lia.
  - destruct (N.ltb_spec (ts_num s) bound).
    + split; [lia|]. destruct (drop_nodes _ _ _); done.
    + split; [done|]. lia.
Qed.

Lemma mask_run_ok bound shuf coin fuel i s : ts_bad s ≡ₚ tc_bad c -> (forall i l, shuf i l ≡ₚ l) ->
  N.to_nat (mask_count bound - ts_num s) < fuel ->
  exists l, mask_run fuel c bound shuf coin i s = Ok l /\ Forall (masked t nodes edges) l /\
    length l = N.to_nat (mask_count bound - ts_num s).
Proof.
  intros P Hshuf. revert i s P. induction fuel as [|fuel IH]; intros i s P HF; [lia|]. cbn [mask_run].
  destruct (tc_next_ok bound (shuf i) (coin i) s P (Hshuf i)) as (r & E & H).
  pose proof (tc_next_stop bound (shuf i) (coin i) s P) as Hstop.
  rewrite E in Hstop |- *. cbn [rbind]. destruct r as [s'|].
  - destruct (H s') as (P' & En & Hm); [done|].
    assert (Hlt : ~ (mask_count bound <= ts_num s)%N) by (rewrite Hstop; naive_solver).
    destruct (IH (S i) s' P') as (l & -> & HF' & HL).
    { rewrite En. lia. }
    cbn [rbind]. eexists. split; [done|]. split; [by constructor|]. simpl. rewrite HL, En. lia.
  - eexists. split; [done|]. split; [done|]. simpl. assert (mask_count bound <= ts_num s)%N by (by apply Hstop). lia.
Qed.

(** in the exhaustive regime the [j]-th mask is the one of the binary number [j] *)
Lemma mask_run_exhaustive bound shuf coin fuel i s : ts_bad s ≡ₚ tc_bad c ->
  tc_bad c <> [] -> (2 ^ N.of_nat (length (tc_bad c)) <= bound)%N ->
  N.to_nat (mask_count bound - ts_num s) < fuel ->
  exists l, mask_run fuel c bound shuf coin i s = Ok l /\
    forall j, (ts_num s <= j < 2 ^ N.of_nat (length (tc_bad c)))%N ->
      exists m, l !! N.to_nat (j - ts_num s) = Some m /\
        represents t m.1 m.2 (without (pick_exhaustive (ts_bad s) j) nodes) (edges_without (pick_exhaustive (ts_bad s) j) edges).
Proof.
  intros P Hne Hbd.
  assert (Hc : mask_count bound = (2 ^ N.of_nat (length (tc_bad c)))%N).
  { unfold mask_count. destruct (tc_bad c) eqn:E; [done|]. rewrite <- E in *.
    destruct (N.leb_spec (2 ^ N.of_nat (length (tc_bad c))) bound); [done|lia]. }
  rewrite Hc. revert i s P. induction fuel as [|fuel IH]; intros i s P HF; [lia|]. cbn [mask_run].
  unfold tc_next.
  destruct (decide (ts_bad s = [])) as [E0|E0].
  { rewrite E0 in P. by apply Permutation_nil_l in P. }
  rewrite (Permutation_length P).
  destruct (N.leb_spec (2 ^ N.of_nat (length (tc_bad c))) bound); [|lia].
  destruct (N.ltb_spec (ts_num s) (2 ^ N.of_nat (length (tc_bad c)))) as [Hlt|Hge].
  - rewrite Ht. destruct (drop_picks (ts_bad s) (pick_exhaustive (ts_bad s) (ts_num s)) P) as (m & -> & Hm & Hrep).
    { apply pick_exhaustive_ok. }
    cbn [rbind]. set (s' := mkTS (ts_num s + 1) (ts_bad s) m).
    destruct (IH (S i) s' P) as (l & -> & Hl).
    { unfold s'. simpl. lia. }
    cbn [rbind]. eexists. split; [done|]. intros j Hj.
    destruct (decide (j = ts_num s)) as [->|Hn].
    + exists m. rewrite N.sub_diag. done.
    + destruct (Hl j) as (m' & E' & Hm'). { unfold s'. simpl. lia. }
      exists m'. split; [|done]. unfold s' in E'. simpl in E'.
      replace (N.to_nat (j - ts_num s)) with (S (N.to_nat (j - (ts_num s + 1)))) by lia. done.
  - cbn [rbind]. eexists. split; [done|]. intros j Hj. lia.
Qed.
End topo.

(** every choice of one end per bad edge is a binary number *)
Lemma choice_number (bad : list (nat * nat)) (ch : nat -> bool) :
  exists j, (j < 2 ^ N.of_nat (length bad))%N /\ forall i, i < length bad -> N.testbit j (N.of_nat i) = ch i.
Proof.
  revert ch. induction bad as [|e bad IH]; intros ch; simpl length.
  - exists 0%N. split; [done|]. lia.
  - destruct (IH (fun i => ch (S i))) as (j & Hj & H).
    exists (if ch 0%nat then 2 * j + 1 else 2 * j)%N. split.
    + rewrite Nat2N.inj_succ, N.pow_succ_r by lia. destruct (ch 0); lia.
    + intros [|i] Hi.
      * change (N.of_nat 0) with 0%N. destruct (ch 0); [apply N.testbit_odd_0|apply N.testbit_even_0].
      * rewrite Nat2N.inj_succ. destruct (ch 0).
        -- rewrite N.testbit_odd_succ by lia. apply H. lia.
        -- rewrite N.testbit_even_succ by lia. apply H. lia.
Qed.
