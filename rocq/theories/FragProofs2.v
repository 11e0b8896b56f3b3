(** From chains of fragments to chains of qubits: replacing each fragment by the qubit it belongs to keeps
    nested ells connected, disjoint and coupled. *)
From stdpp Require Import base list list_numbers numbers gmap relations.
From Verif Require Import Base BusModel CliqueModel FragModel SpecBus CoordProofs BitProofs BundleProofs MaskProofs MaskProofs2 TopoProofs
  CliqueProofs1 CliqueProofs2 CliqueProofs3 CliqueProofs4 CliqueProofs5 CliqueProofs6 FragProofs1.

Section contract.
Context (fs : fspec) (D sh nz : nat) (off : bool -> nat -> nat -> nat) (coupler : nat -> nat -> Prop).
Context (St : striped fs D sh nz off coupler).
Context (nodes : list nat) (edges : list (nat * nat)) (HLt : lattice D sh nz coupler nodes edges).
Notation L := (fs_len fs).
Notation num := (fun u w k j => linemajor_linear u w k j D sh nz).
Notation t := (fs_topo fs).
Notation lq := (line_qubit D sh).
Notation fn := (fnodes fs D sh nodes).
Notation fe := (fedges fs D sh nodes edges).

Lemma norm_has (e : nat * nat) p q : e ∈ edges -> norm e = (p, q) -> has_edge edges p q.
Proof.
  destruct e as [a b]. unfold norm, has_edge. cbn [fst snd]. intros H. destruct (b <? a); intros [= <- <-]; tauto.
Qed.

Lemma fedge_cases a b : (a, b) ∈ fe ->
  (exists u w k j i, w < D /\ k < sh /\ j < nz /\ S i < L /\ a = lq u w (off u w k + L * j + i) k /\ b = lq u w (S (off u w k + L * j + i)) k) \/
  (exists u w k j, w < D /\ k < sh /\ S j < nz /\ a = lq u w (off u w k + L * j + (L - 1)) k /\ b = lq u w (S (off u w k + L * j + (L - 1))) k /\
     has_edge edges (num u w k j) (num u w k (S j))) \/
  (exists w k j w' k' j', w < D /\ k < sh /\ j < nz /\ w' < D /\ k' < sh /\ j' < nz /\ a = lq false w w' k /\ b = lq true w' w k' /\
     off false w k + L * j <= w' < off false w k + L * S j /\ off true w' k' + L * j' <= w < off true w' k' + L * S j' /\
     has_edge edges (num false w k j) (num true w' k' j')).
Proof.
  destruct HLt as (Hn & He & Hg). unfold fedges. rewrite elem_of_app, !elem_of_list_bind. intros [(r & Hf & Hr)|(e & Hf & Hin)].
  - left. destruct (place D sh nz r (Hn r Hr)) as (u & w & k & j & Hw & Hk & Hj & ->). rewrite (inner_num _ _ _ _ _ _ St) in Hf by done.
    apply elem_of_list_fmap in Hf as (i & E & Hi%elem_of_seq). injection E as -> ->. exists u, w, k, j, i. split_and!; done || lia.
  - right. pose proof (edge_kind _ _ _ _ _ _ St edges e Hg Hin) as Hk.
    destruct (efrags_kind _ _ _ _ _ _ St e Hk) as [(u & w & k & j & Hw & Hkk & Hj & E & Ef)|[[_ Ef]|(w & k & j & w' & k' & j' & Hw & Hkk & Hj & Hw' & Hk' & Hj' & E & H1 & H2 & Ef)]];
      rewrite Ef in Hf.
    + left. apply elem_of_list_singleton in Hf. injection Hf as -> ->. exists u, w, k, j. split_and!; try done. by eapply norm_has.
    + by apply elem_of_nil in Hf.
    + right. apply elem_of_list_singleton in Hf. injection Hf as -> ->. exists w, k, j, w', k', j'. split_and!; try done; try lia. by eapply norm_has.
Qed.

(** the qubit a fragment belongs to *)
Definition own (u : bool) (w z k : nat) : nat := num u w k ((z - off u w k) / L).
Lemma place_div u w k j z : off u w k + L * j <= z < off u w k + L * S j -> (z - off u w k) / L = j.
Proof.
  intros H. symmetry. apply (Nat.div_unique _ L j (z - off u w k - L * j)); lia.
Qed.
Definition owned (u : bool) (w z k : nat) : Prop := off u w k <= z /\ (z - off u w k) / L < nz /\ own u w z k ∈ nodes.
Lemma own_node u w z k : w < D -> z < D -> k < sh -> lq u w z k ∈ fn -> owned u w z k.
Proof.
  intros Hw Hz Hk H. apply (frag_member _ _ _ _ _ _ St) in H as (j & Hj & Hb & Hin); [|by apply HLt|done..].
  unfold owned, own. rewrite (place_div _ _ _ j) by done. split_and!; [lia|done|done].
Qed.
Lemma lq_grid_inj u w z k u' w' z' k' : w < D -> z < D -> k < sh -> w' < D -> z' < D -> k' < sh ->
  lq u w z k = lq u' w' z' k' -> (u, w, z, k) = (u', w', z', k').
Proof. apply (lq_inj _ _ _ _ _ _ St). Qed.

Lemma own_adj u w z k : w < D -> S z < D -> k < sh -> has_edge fe (lq u w z k) (lq u w (S z) k) ->
  own u w z k = own u w (S z) k \/ has_edge edges (own u w z k) (own u w (S z) k).
Proof.
  intros Hw Hz Hk H. pose proof (st_len _ _ _ _ _ _ St) as HL.
  assert (G : forall a b, (a, b) ∈ fe -> a = lq u w z k /\ b = lq u w (S z) k \/ b = lq u w z k /\ a = lq u w (S z) k ->
    own u w z k = own u w (S z) k \/ has_edge edges (own u w z k) (own u w (S z) k)).
  { intros a b Hab Ho.
    destruct (fedge_cases a b Hab) as [(u' & w' & k' & j & i & Hw' & Hk' & Hj & Hi & -> & ->)|[(u' & w' & k' & j & Hw' & Hk' & Hj & -> & -> & He)|
      (w1 & k1 & j1 & w2 & k2 & j2 & ? & ? & ? & ? & ? & ? & -> & -> & _)]].
    - assert (off u' w' k' + L * j + S i < D) by (apply (fit _ _ _ _ _ _ St); done).
      destruct Ho as [[E1 E2]|[E1 E2]]; apply lq_grid_inj in E1; try lia; apply lq_grid_inj in E2; try lia; simplify_eq.
      + left. unfold own. rewrite !(place_div _ _ _ j) by lia. done.
      + lia.
    - assert (off u' w' k' + L * S j + 0 < D) by (apply (fit _ _ _ _ _ _ St); lia).
      destruct Ho as [[E1 E2]|[E1 E2]]; apply lq_grid_inj in E1; try lia; apply lq_grid_inj in E2; try lia; simplify_eq.
      + right. unfold own. rewrite (place_div _ _ _ j), (place_div _ _ _ (S j)) by lia. done.
      + lia.
    - destruct Ho as [[E1 E2]|[E1 E2]]; apply lq_grid_inj in E1; try lia; apply lq_grid_inj in E2; try lia; simplify_eq. }
  destruct H as [H|H]; eapply G; [exact H|by left|exact H|by right].
Qed.

Lemma own_cross x y k l : x < D -> y < D -> k < sh -> l < sh -> has_edge fe (lq false x y k) (lq true y x l) ->
  has_edge edges (own false x y k) (own true y x l).
Proof.
  intros Hx Hy Hk Hl H. pose proof (st_len _ _ _ _ _ _ St) as HL.
  assert (G : forall a b, (a, b) ∈ fe -> a = lq false x y k /\ b = lq true y x l \/ b = lq false x y k /\ a = lq true y x l ->
    has_edge edges (own false x y k) (own true y x l)).
  { intros a b Hab Ho.
    destruct (fedge_cases a b Hab) as [(u' & w' & k' & j & i & Hw' & Hk' & Hj & Hi & -> & ->)|[(u' & w' & k' & j & Hw' & Hk' & Hj & -> & -> & He)|
      (w1 & k1 & j1 & w2 & k2 & j2 & ? & ? & ? & ? & ? & ? & -> & -> & H1 & H2 & He)]].
    - assert (off u' w' k' + L * j + S i < D) by (apply (fit _ _ _ _ _ _ St); done).
      destruct Ho as [[E1 E2]|[E1 E2]]; apply lq_grid_inj in E1; try lia; apply lq_grid_inj in E2; try lia; simplify_eq.
    - assert (off u' w' k' + L * S j + 0 < D) by (apply (fit _ _ _ _ _ _ St); lia).
      destruct Ho as [[E1 E2]|[E1 E2]]; apply lq_grid_inj in E1; try lia; apply lq_grid_inj in E2; try lia; simplify_eq.
    - destruct Ho as [[E1 E2]|[E1 E2]]; apply lq_grid_inj in E1; try lia; apply lq_grid_inj in E2; try lia; simplify_eq.
      unfold own. rewrite (place_div false _ _ j1), (place_div true _ _ j2) by lia. done. }
  destruct H as [H|H]; eapply G; [exact H|by left|exact H|by right].
Qed.

Lemma own_inj u w z k u' w' z' k' : w < D -> k < sh -> w' < D -> k' < sh -> owned u w z k -> owned u' w' z' k' ->
  own u w z k = own u' w' z' k' -> (u, w, k) = (u', w', k').
Proof.
  intros ? ? ? ? (_ & ? & _) (_ & ? & _) E. unfold own in E. apply snum_inj in E; try done. congruence.
Qed.

(** ** lines *)
Context (R : list nat) (Hfull : full t (without R fn) (edges_without R fe)).
Notation present := (segment_present D sh (without R fn) (edges_without R fe)).
Notation line := (fs_line fs).

Lemma present_owned u w z0 z1 k z : w < D -> z1 < D -> k < sh -> present u w z0 z1 k -> z0 <= z <= z1 -> owned u w z k.
Proof.
  intros Hw Hz1 Hk [Hp _] Hz. apply own_node; [done|lia|done|]. eapply without_sub. by apply Hp.
Qed.
Lemma rline_elem u w z0 z1 k q : w < D -> z0 <= z1 -> z1 < D -> k < sh -> present u w z0 z1 k ->
  q ∈ line u w z0 z1 k <-> exists z, z0 <= z <= z1 /\ q = own u w z k.
Proof.
  intros Hw Hz Hz1 Hk Hp. pose proof (st_len _ _ _ _ _ _ St) as HL.
  destruct (present_owned u w z0 z1 k z0 Hw Hz1 Hk Hp) as (Ho & _); [lia|].
  rewrite (st_line _ _ _ _ _ _ St) by done. rewrite elem_of_list_fmap. setoid_rewrite elem_of_seq. set (o := off u w k) in *.
  pose proof (Nat.div_mod (z0 - o) L ltac:(lia)) as D0. pose proof (Nat.div_mod (z1 - o) L ltac:(lia)) as D1.
  pose proof (Nat.mod_upper_bound (z0 - o) L ltac:(lia)) as M0. pose proof (Nat.mod_upper_bound (z1 - o) L ltac:(lia)) as M1.
  assert (Hle : (z0 - o) / L <= (z1 - o) / L) by (apply Nat.div_le_mono; lia).
  split.
  - intros (j & -> & Hj). exists (z0 `max` (o + L * j)). split.
    + split; [lia|]. apply Nat.max_lub; [done|]. assert (L * j <= L * ((z1 - o) / L)) by (apply Nat.mul_le_mono_l; lia). lia.
    + unfold own. fold o. f_equal. symmetry. destruct (decide (j = (z0 - o) / L)) as [->|Hne].
      * rewrite Nat.max_l by lia. done.
      * assert (L * S ((z0 - o) / L) <= L * j) by (apply Nat.mul_le_mono_l; lia). rewrite Nat.max_r by lia.
        apply (place_div u w k); fold o; lia.
  - intros (z & Hzz & ->). exists ((z - o) / L). split; [done|].
    assert ((z0 - o) / L <= (z - o) / L) by (apply Nat.div_le_mono; lia).
    assert ((z - o) / L <= (z1 - o) / L) by (apply Nat.div_le_mono; lia). lia.
Qed.
Lemma rline_length u w z0 z1 k : w < D -> z0 <= z1 -> z1 < D -> k < sh -> present u w z0 z1 k ->
  1 <= length (line u w z0 z1 k) <= (z1 - z0 + (L - 1)) / L + 1.
Proof.
  intros Hw Hz Hz1 Hk Hp. pose proof (st_len _ _ _ _ _ _ St) as HL.
  destruct (present_owned u w z0 z1 k z0 Hw Hz1 Hk Hp) as (Ho & _); [lia|].
  rewrite (st_line _ _ _ _ _ _ St), fmap_length, seq_length by done. set (o := off u w k) in *.
  assert (Hle : (z0 - o) / L <= (z1 - o) / L) by (apply Nat.div_le_mono; lia). split; [lia|].
  enough ((z1 - o) / L <= (z0 - o) / L + (z1 - z0 + (L - 1)) / L) by lia.
  pose proof (Nat.div_mod (z0 - o) L ltac:(lia)) as D0. pose proof (Nat.mod_upper_bound (z0 - o) L ltac:(lia)) as M0.
  apply Nat.div_le_mono with (c := L) in Hz as _; [|lia].
  transitivity ((z1 - z0 + (L - 1) + (z0 - o) / L * L) / L); [apply Nat.div_le_mono; lia|].
  rewrite Nat.div_add by lia. lia.
Qed.
Lemma rline_nodup u w z0 z1 k : w < D -> z0 <= z1 -> z1 < D -> k < sh -> present u w z0 z1 k -> NoDup (line u w z0 z1 k).
Proof.
  intros Hw Hz Hz1 Hk Hp.
  destruct (present_owned u w z0 z1 k z0 Hw Hz1 Hk Hp) as (Ho & _); [lia|].
  destruct (present_owned u w z0 z1 k z1 Hw Hz1 Hk Hp) as (Ho1 & Hn1 & _); [lia|].
  rewrite (st_line _ _ _ _ _ _ St) by done. apply NoDup_fmap_2_strong.
  - intros a b Ha%elem_of_seq Hb%elem_of_seq E. apply snum_inj in E; try done; try lia. congruence.
  - rewrite NoDup_ListNoDup. apply seq_NoDup.
Qed.

Notation step c := (fun a b => a ∈ c /\ b ∈ c /\ has_edge edges a b).
Lemma rline_reach (c : list nat) u w z0 z1 k z : w < D -> z1 < D -> k < sh -> present u w z0 z1 k ->
  (forall q, q ∈ line u w z0 z1 k -> q ∈ c) -> z0 <= z <= z1 -> rtc (step c) (own u w z0 k) (own u w z k).
Proof.
  intros Hw Hz1 Hk Hp Hc Hz. assert (Hc' : forall z, z0 <= z <= z1 -> own u w z k ∈ c).
  { intros z' Hz'. apply Hc. apply rline_elem; try done; [lia|]. by exists z'. }
  destruct Hp as [_ He]. replace z with (z0 + (z - z0)) by lia. assert (Hd : z0 + (z - z0) <= z1) by lia. revert Hd.
  generalize (z - z0) as d. clear z Hz Hc. induction d as [|d IH]; intros Hd.
  - rewrite Nat.add_0_r. done.
  - rewrite Nat.add_succ_r in *. etrans; [apply IH; lia|].
    specialize (He (z0 + d) ltac:(lia)). apply has_edge_without in He as [He _].
    apply own_adj in He as [E|E]; [rewrite E; done| |done|lia|done].
    apply rtc_once. split_and!; [apply Hc'; lia|apply Hc'; lia|done].
Qed.

(** ** ells *)
Definition rell_ok (e : ell) (k0 k1 : nat) : Prop :=
  k0 < sh /\ k1 < sh /\ present false (e_col e) (e_top e) (e_bot e) k0 /\ present true (e_row e) (e_left e) (e_right e) k1.
Definition rell_chain (e : ell) (k0 k1 : nat) : list nat :=
  line false (e_col e) (e_top e) (e_bot e) k0 ++ line true (e_row e) (e_left e) (e_right e) k1.

Lemma rell_elem e k0 k1 q : ell_in D D e -> rell_ok e k0 k1 -> q ∈ rell_chain e k0 k1 <->
  (exists z, e_top e <= z <= e_bot e /\ q = own false (e_col e) z k0) \/ (exists z, e_left e <= z <= e_right e /\ q = own true (e_row e) z k1).
Proof.
  intros (Hr & Hc & H1 & H2) (K0 & K1 & P0 & P1). unfold rell_chain. rewrite elem_of_app.
  rewrite (rline_elem false), (rline_elem true) by (done || lia). done.
Qed.
Lemma rell_owned_v e k0 k1 z : ell_in D D e -> rell_ok e k0 k1 -> e_top e <= z <= e_bot e -> owned false (e_col e) z k0.
Proof. intros (Hr & Hc & H1 & H2) (K0 & K1 & P0 & P1) Hz. eapply (present_owned _ _ (e_top e) (e_bot e)); try done; lia. Qed.
Lemma rell_owned_h e k0 k1 z : ell_in D D e -> rell_ok e k0 k1 -> e_left e <= z <= e_right e -> owned true (e_row e) z k1.
Proof. intros (Hr & Hc & H1 & H2) (K0 & K1 & P0 & P1) Hz. eapply (present_owned _ _ (e_left e) (e_right e)); try done; lia. Qed.

Lemma rcrossing e e' k0 k1 k0' k1' : ell_in D D e -> ell_in D D e' -> rell_ok e k0 k0' -> rell_ok e' k1' k1 ->
  e_top e <= e_row e' <= e_bot e -> e_left e' <= e_col e <= e_right e' ->
  has_edge edges (own false (e_col e) (e_row e') k0) (own true (e_row e') (e_col e) k1).
Proof.
  intros (_ & _ & He1 & He2) (_ & _ & Hf1 & Hf2) (? & ? & [P1 _] & _) (? & ? & _ & [P2 _]) Hy Hx.
  apply own_cross; [lia|lia|done|done|].
  assert (HX : has_edge (edges_without R fe) (qubit (dim_x t) (shore t) (e_row e') (e_col e) false k0) (qubit (dim_x t) (shore t) (e_row e') (e_col e) true k1)).
  { apply Hfull; rewrite ?(t_x _ _ _ _ _ _ St), ?(t_y _ _ _ _ _ _ St), ?(t_s _ _ _ _ _ _ St); try done; try lia.
    - apply (P1 (e_row e')). lia.
    - apply (P2 (e_col e)). lia. }
  rewrite (t_x _ _ _ _ _ _ St), (t_s _ _ _ _ _ _ St) in HX. by apply has_edge_without in HX as [HX _].
Qed.

Lemma rell_good e k0 k1 : ell_in D D e -> rell_ok e k0 k1 -> good_chain nodes edges (rell_chain e k0 k1).
Proof.
  intros Hin Hok. pose proof Hin as (Hr & Hc & H1 & H2). pose proof Hok as (K0 & K1 & P0 & P1).
  assert (Ir : e_top e <= e_row e <= e_bot e) by (destruct Hr; lia).
  assert (Ic : e_left e <= e_col e <= e_right e) by (destruct Hc; lia).
  split_and!.
  - intros E. unfold rell_chain in E. apply app_eq_nil in E as [E _]. apply (f_equal length) in E.
    pose proof (rline_length false (e_col e) (e_top e) (e_bot e) k0 ltac:(lia) ltac:(lia) ltac:(lia) K0 P0). simpl in E. lia.
  - unfold rell_chain. apply NoDup_app. split_and!; [apply rline_nodup; done || lia| |apply rline_nodup; done || lia].
    intros q Hq Hq'. rewrite rline_elem in Hq by (done || lia). rewrite rline_elem in Hq' by (done || lia).
    destruct Hq as (z & Hz & ->). destruct Hq' as (z' & Hz' & E). apply own_inj in E; try done; try lia.
    + by eapply rell_owned_v.
    + by eapply rell_owned_h.
  - intros q Hq. rewrite rell_elem in Hq by done. destruct Hq as [(z & Hz & ->)|(z & Hz & ->)].
    + by eapply rell_owned_v.
    + by eapply rell_owned_h.
  - set (c := rell_chain e k0 k1).
    assert (V : forall z, e_top e <= z <= e_bot e -> rtc (step c) (own false (e_col e) (e_top e) k0) (own false (e_col e) z k0)).
    { intros z Hz. eapply (rline_reach c false); [..|exact P0| |done]; try done; try lia. intros q Hq. unfold c, rell_chain. apply elem_of_app. by left. }
    assert (H : forall z, e_left e <= z <= e_right e -> rtc (step c) (own true (e_row e) (e_left e) k1) (own true (e_row e) z k1)).
    { intros z Hz. eapply (rline_reach c true); [..|exact P1| |done]; try done; try lia. intros q Hq. unfold c, rell_chain. apply elem_of_app. by right. }
    assert (X : rtc (step c) (own false (e_col e) (e_top e) k0) (own true (e_row e) (e_left e) k1)).
    { etrans; [apply (V (e_row e) Ir)|]. etrans; [|apply step_sym, (H (e_col e) Ic)]. apply rtc_once. split_and!.
      - apply rell_elem; [done..|]. left. by exists (e_row e).
      - apply rell_elem; [done..|]. right. by exists (e_col e).
      - by eapply (rcrossing e e). }
    assert (A : forall q, q ∈ c -> rtc (step c) (own false (e_col e) (e_top e) k0) q).
    { intros q Hq. unfold c in Hq. rewrite rell_elem in Hq by done. destruct Hq as [(z & Hz & ->)|(z & Hz & ->)]; [by apply V|]. etrans; [exact X|]. by apply H. }
    intros p q Hp Hq. etrans; [apply step_sym, A, Hp|apply A, Hq].
Qed.

(** two chains on different lines are disjoint *)
Lemma rell_disjoint a b k0 k1 l0 l1 : ell_in D D a -> ell_in D D b -> rell_ok a k0 k1 -> rell_ok b l0 l1 ->
  (e_col a, k0) <> (e_col b, l0) -> (e_row a, k1) <> (e_row b, l1) -> rell_chain a k0 k1 ## rell_chain b l0 l1.
Proof.
  intros Ha Hb Ka Kb N0 N1 q Hq Hq'. rewrite rell_elem in Hq by done. rewrite rell_elem in Hq' by done.
  pose proof Ha as (Hra & Hca & ? & ?). pose proof Hb as (Hrb & Hcb & ? & ?). pose proof Ka as (? & ? & _). pose proof Kb as (? & ? & _).
  destruct Hq as [(z & Hz & ->)|(z & Hz & ->)], Hq' as [(z' & Hz' & E)|(z' & Hz' & E)];
    (apply own_inj in E; [|lia|done|lia|done|by (eapply rell_owned_v || eapply rell_owned_h)|by (eapply rell_owned_v || eapply rell_owned_h)]); congruence.
Qed.

Lemma rsame_ell e k0 k1 k0' k1' : ell_in D D e -> rell_ok e k0 k1 -> rell_ok e k0' k1' -> k0 <> k0' -> k1 <> k1' ->
  apart edges (rell_chain e k0 k1) (rell_chain e k0' k1').
Proof.
  intros Hin Hok Hok' N0 N1. pose proof Hin as (Hr & Hc & H1 & H2).
  split; [apply rell_disjoint; try done; congruence|].
  exists (own false (e_col e) (e_row e) k0), (own true (e_row e) (e_col e) k1'). split_and!.
  - apply rell_elem; [done..|]. left. exists (e_row e). split; [destruct Hr; lia|done].
  - apply rell_elem; [done..|]. right. exists (e_col e). split; [destruct Hc; lia|done].
  - eapply (rcrossing e e); try done; [destruct Hr; lia|destruct Hc; lia].
Qed.
Lemma rnested_ells a b k0 k1 l0 l1 : ell_in D D a -> ell_in D D b -> nested a b ->
  rell_ok a k0 k1 -> rell_ok b l0 l1 -> apart edges (rell_chain a k0 k1) (rell_chain b l0 l1).
Proof.
  intros Ha Hb (N1 & N2 & N3 & N4 & N5 & N6) Ka Kb.
  pose proof Ha as (Hr & Hc & H1 & H2). pose proof Hb as (Hr' & Hc' & H1' & H2').
  assert (Ir : e_top a <= e_row a <= e_bot a) by (destruct Hr; lia).
  assert (Ic : e_left a <= e_col a <= e_right a) by (destruct Hc; lia).
  assert (Ir' : e_top b <= e_row b <= e_bot b) by (destruct Hr'; lia).
  assert (Ic' : e_left b <= e_col b <= e_right b) by (destruct Hc'; lia).
  clear Hr Hc Hr' Hc'. split.
  - apply rell_disjoint; try done; intros [= E _]; lia.
  - exists (own false (e_col a) (e_row b) k0), (own true (e_row b) (e_col a) l1). split_and!.
    + apply rell_elem; [done..|]. left. exists (e_row b). split; [lia|done].
    + apply rell_elem; [done..|]. right. exists (e_col a). split; [lia|done].
    + eapply (rcrossing a b); try done; lia.
Qed.

Lemma rell_chains_map e k0s k1s : ell_chains line (e_row e) (e_col e) (e_top e) (e_bot e) (e_left e) (e_right e) k0s k1s =
  map (fun k => rell_chain e k.1 k.2) (zip k0s k1s).
Proof. unfold ell_chains. rewrite zip_with_zip. change (@map (nat * nat) (list nat)) with (@fmap list _ (nat*nat) (list nat)). apply list_fmap_ext. intros i [a b] _. done. Qed.

Lemma rells_embedding (Ls : list (ell * list nat * list nat)) :
  (forall e a b, (e, a, b) ∈ Ls -> ell_in D D e /\ NoDup a /\ NoDup b /\ forall k0 k1, k0 ∈ a -> k1 ∈ b -> rell_ok e k0 k1) ->
  pairs nested (map (fun x => x.1.1) Ls) ->
  clique_embedding nodes edges
    (concat (map (fun x => ell_chains line (e_row x.1.1) (e_col x.1.1) (e_top x.1.1) (e_bot x.1.1) (e_left x.1.1) (e_right x.1.1) x.1.2 x.2) Ls)).
Proof.
  intros HL HN. apply clique_of_pairs.
  - intros c Hc. apply elem_of_list_In, in_concat in Hc as (l & Hl & Hc).
    apply in_map_iff in Hl as ([[e a] b] & <- & Hx). cbn [fst snd] in Hc. rewrite rell_chains_map in Hc.
    apply in_map_iff in Hc as ([k0 k1] & <- & Hk). apply elem_of_list_In in Hk, Hx.
    destruct (HL e a b Hx) as (Hin & _ & _ & Hok). apply rell_good; [done|].
    apply Hok; [by eapply elem_of_zip_l|by eapply elem_of_zip_r].
  - apply pairs_concat.
    + intros l Hl. apply elem_of_list_In, in_map_iff in Hl as ([[e a] b] & <- & Hx). cbn [fst snd]. rewrite rell_chains_map.
      apply elem_of_list_In in Hx. destruct (HL e a b Hx) as (Hin & Na & Nb & Hok).
      apply pairs_map. eapply pairs_impl; [|by apply zip_pairs].
      intros [x y] [x' y'] Hxy Hxy' [N1 N2]. cbn [fst snd] in *. apply rsame_ell; try done.
      * apply Hok; [by eapply elem_of_zip_l|by eapply elem_of_zip_r].
      * apply Hok; [by eapply elem_of_zip_l|by eapply elem_of_zip_r].
    + apply pairs_map.
      assert (HN' : pairs (fun x y => nested x.1.1 y.1.1) Ls).
      { clear HL. induction Ls as [|x Ls IH]; [constructor|]. inversion HN as [|? ? Hx HN']; subst. constructor; [|by apply IH].
        intros y Hy. apply Hx. apply elem_of_list_In, in_map_iff. exists y. split; [done|]. by apply elem_of_list_In. }
      eapply pairs_impl; [|exact HN']. intros [[e a] b] [[e' a'] b'] Hx Hx' Hn c c'. cbn [fst snd] in *. rewrite !rell_chains_map.
      intros Hc Hc'. apply elem_of_list_In, in_map_iff in Hc as ([k0 k1] & <- & Hk). apply elem_of_list_In, in_map_iff in Hc' as ([k0' k1'] & <- & Hk').
      apply elem_of_list_In in Hk, Hk'. destruct (HL _ _ _ Hx) as (Hin & _ & _ & Hok). destruct (HL _ _ _ Hx') as (Hin' & _ & _ & Hok').
      apply rnested_ells; try done.
      * apply Hok; [by eapply elem_of_zip_l|by eapply elem_of_zip_r].
      * apply Hok'; [by eapply elem_of_zip_l|by eapply elem_of_zip_r].
Qed.
End contract.
