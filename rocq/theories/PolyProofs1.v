(** Lines and bundles in the model of polynomialembedder. *)
From stdpp Require Import base list numbers gmap.
From Verif Require Import Base NxModel PyCacheModel PolyModel.

(** the qubit at position [z] of a line *)
Definition lq (u : bool) (w z k : nat) : cq := if u then (w, z, true, k) else (z, w, false, k).
Definition seg (P : eden) (u : bool) (w z0 z1 k : nat) : Prop :=
  (forall z, z0 <= z <= z1 -> has_qubit P (lq u w z k) = true) /\
  (forall z, z0 <= z < z1 -> has_coupler P (lq u w z k) (lq u w (S z) k) = true).
#[global] Instance seg_dec P u w z0 z1 k : Decision (seg P u w z0 z1 k).
Proof.
  refine (cast_if (decide (Forall (fun z => has_qubit P (lq u w z k) = true) (seq z0 (S z1 - z0)) /\
     Forall (fun z => has_coupler P (lq u w z k) (lq u w (S z) k) = true) (seq z0 (z1 - z0))))).
  - destruct a as [H1 H2]. rewrite Forall_forall in H1. rewrite Forall_forall in H2. split; intros z Hz; [apply H1|apply H2]; apply elem_of_seq; lia.
  - intros [H1 H2]. apply n. split; apply Forall_forall; intros z Hz%elem_of_seq; [apply H1|apply H2]; lia.
Defined.
(** no coupler between neighbours on a line is missing *)
Definition intact (P : eden) : Prop := forall u w z k,
  has_qubit P (lq u w z k) = true -> has_qubit P (lq u w (S z) k) = true -> has_coupler P (lq u w z k) (lq u w (S z) k) = true.

Lemma has_coupler_sym P p q : has_coupler P p q = has_coupler P q p.
Proof. apply bool_decide_ext. tauto. Qed.
Lemma has_coupler_qubits P p q : has_coupler P p q = true -> has_qubit P p = true /\ has_qubit P q = true.
Proof.
  unfold has_coupler, has_qubit. rewrite !bool_decide_eq_true. rewrite !elem_of_list_fmap.
  intros [H|H]; split; [left|right|right|left]; by eexists; split; [|exact H].
Qed.

(** ** The loop for the line scores *)
Section scores.
  Context (pres link : nat -> bool).
  Definition run s y : Prop := (forall z, s <= z <= y -> pres z = true) /\ (forall z, s < z <= y -> link z = true).
  Lemma last_start_none y : last_start pres link y = None <-> pres y = false.
  Proof. destruct y as [|y]; simpl; destruct (pres _); simpl; try done; destruct (last_start pres link y); try done; by destruct (link (S y)). Qed.
  Lemma last_start_some y s : last_start pres link y = Some s ->
    s <= y /\ run s y /\ (forall s', s' < s -> ~ run s' y).
  Proof.
    revert s. induction y as [|y IH]; intros s; simpl.
    - destruct (pres 0) eqn:H; simpl; [|done]. intros [= <-]. split; [lia|]. split; [|lia].
      split; intros z Hz; [by replace z with 0 by lia|lia].
    - destruct (pres (S y)) eqn:H; simpl; [|done].
      destruct (last_start pres link y) as [s0|] eqn:E.
      + destruct (IH s0 eq_refl) as (Hle & [R1 R2] & Hmin). destruct (link (S y)) eqn:Hl; intros [= <-].
        * split; [lia|]. split; [split; intros z Hz; destruct (decide (z = S y)) as [->|]; try done; [apply R1|apply R2]; lia|].
          intros s' Hs' [Q1 Q2]. apply (Hmin s' Hs'). split; intros z Hz; [apply Q1|apply Q2]; lia.
        * split; [lia|]. split; [split; intros z Hz; [by replace z with (S y) by lia|lia]|].
          intros s' Hs' [Q1 Q2]. rewrite Q2 in Hl; [done|lia].
      + intros [= <-]. split; [lia|]. split; [split; intros z Hz; [by replace z with (S y) by lia|lia]|].
        intros s' Hs' [Q1 Q2]. apply last_start_none in E. rewrite Q1 in E; [done|lia].
  Qed.
  Lemma adds_run y y1 : y1 <= y -> adds pres link y y1 = true -> run y1 y.
  Proof.
    intros Hle. unfold adds. destruct y as [|y].
    - destruct (pres 0) eqn:H; simpl; [|done]. intros _. split; intros z Hz; [by replace z with 0 by lia|lia].
    - destruct (pres (S y)) eqn:H; simpl; [|done].
      destruct (last_start pres link y) as [s0|] eqn:E.
      + destruct (last_start_some _ _ E) as (Hle0 & [R1 R2] & _). destruct (link (S y)) eqn:Hl; [|done].
        intros [H1 H2]%andb_true_iff. apply Nat.leb_le in H1, H2.
        split; intros z Hz; destruct (decide (z = S y)) as [->|]; try done; [apply R1|apply R2]; lia.
      + intros Heq. apply Nat.eqb_eq in Heq as ->.
        split; intros z Hz; [by replace z with (S y) by lia|lia].
  Qed.
  Lemma run_adds y y1 : y1 <= y -> run y1 y -> (forall z, pres z = true -> pres (S z) = true -> link (S z) = true) -> adds pres link y y1 = true.
  Proof.
    intros Hle [R1 R2] Hok. unfold adds. destruct y as [|y].
    - rewrite R1 by lia. simpl. apply Nat.eqb_eq. lia.
    - rewrite R1 by lia. simpl. destruct (last_start pres link y) as [s0|] eqn:E.
      + destruct (last_start_some _ _ E) as (Hle0 & [Q1 Q2] & Hmin).
        rewrite Hok; [|apply Q1; lia|apply R1; lia].
        apply andb_true_iff; split; apply Nat.leb_le; [|lia].
        destruct (decide (y1 < s0)); [|lia]. exfalso. apply (Hmin y1 l). split; intros z Hz; [apply R1|apply R2]; lia.
      + apply last_start_none in E. destruct (decide (y1 = S y)) as [->|]; [by apply Nat.eqb_eq|]. rewrite R1 in E; [done|lia].
  Qed.
End scores.

Lemma filter_length_le {A} (Q1 Q2 : A -> Prop) `{!forall x, Decision (Q1 x), !forall x, Decision (Q2 x)} l :
  (forall x, x ∈ l -> Q1 x -> Q2 x) -> length (filter Q1 l) <= length (filter Q2 l).
Proof.
  induction l as [|a l IH]; [done|]. intros HH. rewrite !filter_cons.
  assert (IH' : length (filter Q1 l) <= length (filter Q2 l)) by (apply IH; intros; apply HH; [by right|done]).
  destruct (decide (Q1 a)) as [q|]; destruct (decide (Q2 a)); simpl; try lia. exfalso. apply n, HH; [left|done].
Qed.
Lemma filter_map_len {A B} (Q : B -> Prop) `{!forall x, Decision (Q x)} (f : A -> B) l :
  length (filter Q (f <$> l)) = length (filter (fun a => Q (f a)) l).
Proof. induction l as [|a l IH]; [done|]. rewrite fmap_cons, !filter_cons. destruct (decide _); simpl; congruence. Qed.

(** the number of complete lines *)
Definition nsegs (P : eden) (u : bool) (w z0 z1 : nat) : nat := length (filter (seg P u w z0 z1) (seq 0 (ed_L P))).
Definition score_ok (P : eden) (u : bool) (w z0 z1 c : nat) : Prop :=
  c <= nsegs P u w z0 z1 /\ (intact P -> c = nsegs P u w z0 z1).

Lemma line_score_ok P u w z0 z1 : z0 <= z1 ->
  score_ok P u w z0 z1 (line_score (ed_L P) (fun k z => has_qubit P (lq u w z k)) (fun k z => has_coupler P (lq u w (pred z) k) (lq u w z k)) z0 z1).
Proof.
  intros Hle. unfold score_ok, nsegs, line_score.
  assert (Hrun : forall k, run (fun z => has_qubit P (lq u w z k)) (fun z => has_coupler P (lq u w (pred z) k) (lq u w z k)) z0 z1 <-> seg P u w z0 z1 k).
  { intros k. split; intros [H1 H2]; (split; [done|]).
    - intros z Hz. apply (H2 (S z)). lia.
    - intros [|z] Hz; [lia|]. apply H2. lia. }
  assert (Hfw : length (filter (fun k => adds (fun z => has_qubit P (lq u w z k)) (fun z => has_coupler P (lq u w (pred z) k) (lq u w z k)) z1 z0 = true) (seq 0 (ed_L P)))
    <= length (filter (seg P u w z0 z1) (seq 0 (ed_L P)))).
  { apply filter_length_le. intros k _ H. apply Hrun. by apply adds_run. }
  split; [exact Hfw|]. intros Hi. apply Nat.le_antisymm; [exact Hfw|].
  apply filter_length_le. intros k _ H. apply run_adds; [done|by apply Hrun|]. intros z. apply Hi.
Qed.
Lemma hline_score_ok P y x0 x1 : (0 <= y < Z.of_nat (ed_N P))%Z -> (0 <= x0 <= x1)%Z -> (x1 < Z.of_nat (ed_M P))%Z ->
  exists c, hline_score P y x0 x1 = Ok c /\ score_ok P false (Z.to_nat y) (Z.to_nat x0) (Z.to_nat x1) c.
Proof.
  intros Hy Hx Hx1. unfold hline_score.
  rewrite (proj2 (Z.leb_le 0 y)) by lia. rewrite (proj2 (Z.ltb_lt y _)) by lia. rewrite (proj2 (Z.leb_le 0 x0)) by lia.
  rewrite (proj2 (Z.leb_le x0 x1)) by lia. rewrite (proj2 (Z.ltb_lt x1 _)) by lia.
  eexists. split; [reflexivity|]. apply (line_score_ok P false). lia.
Qed.
Lemma vline_score_ok P x y0 y1 : (0 <= x < Z.of_nat (ed_M P))%Z -> (0 <= y0 <= y1)%Z -> (y1 < Z.of_nat (ed_N P))%Z ->
  exists c, vline_score P x y0 y1 = Ok c /\ score_ok P true (Z.to_nat x) (Z.to_nat y0) (Z.to_nat y1) c.
Proof.
  intros Hy Hx Hx1. unfold vline_score.
  rewrite (proj2 (Z.leb_le 0 x)) by lia. rewrite (proj2 (Z.ltb_lt x _)) by lia. rewrite (proj2 (Z.leb_le 0 y0)) by lia.
  rewrite (proj2 (Z.leb_le y0 y1)) by lia. rewrite (proj2 (Z.ltb_lt y1 _)) by lia.
  eexists. split; [reflexivity|]. apply (line_score_ok P true). lia.
Qed.

(** ** Lines *)
Lemma walk_lookup a b i z : walk a b !! i = Some z <->
  (Z.of_nat i <= Z.abs (b - a))%Z /\ z = (if (a <=? b)%Z then a + Z.of_nat i else a - Z.of_nat i)%Z.
Proof.
  unfold walk. destruct (Z.leb_spec a b).
  - rewrite lookup_seqZ. split; [intros [-> ?]; split; lia|intros [? ->]; split; lia].
  - split.
    + intros Hl. pose proof (lookup_lt_Some _ _ _ Hl) as Hlt. rewrite reverse_length, seqZ_length in Hlt.
      rewrite reverse_lookup in Hl by (rewrite seqZ_length; lia). rewrite seqZ_length in Hl. apply lookup_seqZ in Hl as [-> ?]. split; lia.
    + intros [? ->]. rewrite reverse_lookup by (rewrite seqZ_length; lia). rewrite seqZ_length. apply lookup_seqZ. split; lia.
Qed.
Lemma walk_length a b : length (walk a b) = S (Z.to_nat (Z.abs (b - a))).
Proof. unfold walk. destruct (Z.leb_spec a b); rewrite ?reverse_length, seqZ_length; lia. Qed.
Lemma elem_of_walk a b z : z ∈ walk a b <-> (Z.min a b <= z <= Z.max a b)%Z.
Proof.
  rewrite elem_of_list_lookup. setoid_rewrite walk_lookup. split.
  - intros (i & ? & ->). destruct (Z.leb_spec a b); lia.
  - intros ?. destruct (Z.leb_spec a b); [exists (Z.to_nat (z - a))|exists (Z.to_nat (a - z))]; split; lia.
Qed.
Lemma NoDup_walk a b : NoDup (walk a b).
Proof. apply NoDup_alt. intros i j z Hi Hj. apply walk_lookup in Hi as [? ->], Hj as [? Heq]. destruct (Z.leb_spec a b); lia. Qed.

Definition line_of (u : bool) (w : Z) (a b : Z) (k : nat) : list cq := (fun z => lq u (Z.to_nat w) (Z.to_nat z) k) <$> walk a b.
Lemma contains_line_lookup P l : contains_line P l = true <->
  (forall q, q ∈ l -> has_qubit P q = true) /\ (forall i p q, l !! i = Some p -> l !! S i = Some q -> has_coupler P p q = true).
Proof.
  unfold contains_line. rewrite andb_true_iff, !forallb_forall.
  setoid_rewrite <- elem_of_list_In. apply and_iff_compat_l. split.
  - intros H i p q Hp Hq. apply (H (p, q)). apply elem_of_list_lookup. exists i. apply lookup_zip_with_Some. exists p, q.
    split_and!; [done|done|]. by rewrite lookup_tail.
  - intros H [p q] Hpq. apply elem_of_list_lookup in Hpq as [i Hi]. apply lookup_zip_with_Some in Hi as (p' & q' & Heq & Hp & Hq).
    injection Heq as -> ->. rewrite lookup_tail in Hq. by apply (H i).
Qed.
Lemma contains_line_seg P u w a b k : (0 <= a)%Z -> (0 <= b)%Z ->
  contains_line P (line_of u w a b k) = true <-> seg P u (Z.to_nat w) (Z.to_nat (Z.min a b)) (Z.to_nat (Z.max a b)) k.
Proof.
  intros Ha Hb. rewrite contains_line_lookup. unfold line_of. split; intros [H1 H2]; split.
  - intros z Hz. apply H1. apply elem_of_list_fmap. exists (Z.of_nat z). rewrite Nat2Z.id. split; [done|]. apply elem_of_walk. lia.
  - intros z Hz. destruct (Z.leb_spec a b) as [Hab|Hab].
    + specialize (H2 (z - Z.to_nat a)). rewrite !list_lookup_fmap in H2.
      rewrite (proj2 (walk_lookup a b _ (Z.of_nat z))) in H2 by (rewrite (proj2 (Z.leb_le a b)) by lia; split; lia).
      rewrite (proj2 (walk_lookup a b _ (Z.of_nat (S z)))) in H2 by (rewrite (proj2 (Z.leb_le a b)) by lia; split; lia).
      specialize (H2 _ _ eq_refl eq_refl). by rewrite !Nat2Z.id in H2.
    + specialize (H2 (Z.to_nat a - S z)). rewrite !list_lookup_fmap in H2.
      rewrite (proj2 (walk_lookup a b _ (Z.of_nat (S z)))) in H2 by (rewrite (proj2 (Z.leb_gt a b)) by lia; split; lia).
      rewrite (proj2 (walk_lookup a b _ (Z.of_nat z))) in H2 by (rewrite (proj2 (Z.leb_gt a b)) by lia; split; lia).
      specialize (H2 _ _ eq_refl eq_refl). rewrite !Nat2Z.id in H2. by rewrite has_coupler_sym.
  - intros q (z & -> & Hz%elem_of_walk)%elem_of_list_fmap. apply H1. lia.
  - intros i p q (z & Hz & ->)%list_lookup_fmap_Some (z' & Hz' & ->)%list_lookup_fmap_Some.
    apply walk_lookup in Hz as [? ->], Hz' as [? ->]. destruct (Z.leb_spec a b).
    + replace (Z.to_nat (a + Z.of_nat (S i))) with (S (Z.to_nat (a + Z.of_nat i))) by lia. apply H2. lia.
    + replace (Z.to_nat (a - Z.of_nat i)) with (S (Z.to_nat (a - Z.of_nat (S i)))) by lia. rewrite has_coupler_sym. apply H2. lia.
Qed.

Definition bundle (P : eden) (u : bool) (w a b : Z) : list (list cq) := filter (fun l => contains_line P l = true) (line_of u w a b <$> seq 0 (ed_L P)).
Lemma hline_bundle_eq P y0 x0 x1 : hline_bundle P y0 x0 x1 = bundle P false y0 x0 x1.
Proof. reflexivity. Qed.
Lemma vline_bundle_eq P x0 y0 y1 : vline_bundle P x0 y0 y1 = bundle P true x0 y1 y0.
Proof. reflexivity. Qed.
Lemma elem_of_bundle P u w a b l : (0 <= a)%Z -> (0 <= b)%Z ->
  l ∈ bundle P u w a b <-> exists k, k < ed_L P /\ l = line_of u w a b k /\ seg P u (Z.to_nat w) (Z.to_nat (Z.min a b)) (Z.to_nat (Z.max a b)) k.
Proof.
  intros Ha Hb. unfold bundle. rewrite elem_of_list_filter, elem_of_list_fmap. split.
  - intros [Hc (k & -> & Hk%elem_of_seq)]. exists k. split; [lia|]. split; [done|]. by apply contains_line_seg.
  - intros (k & Hk & -> & Hs). split; [by apply contains_line_seg|]. exists k. split; [done|]. apply elem_of_seq. lia.
Qed.
Lemma line_of_inj u w a b k k' : line_of u w a b k = line_of u w a b k' -> k = k'.
Proof.
  intros H. assert (Hl : line_of u w a b k !! 0 = line_of u w a b k' !! 0) by congruence.
  unfold line_of in Hl. rewrite !list_lookup_fmap in Hl. rewrite (proj2 (walk_lookup a b 0 a)) in Hl by (destruct (Z.leb_spec a b); lia).
  simpl in Hl. unfold lq in Hl. destruct u; congruence.
Qed.
Lemma NoDup_bundle P u w a b : NoDup (bundle P u w a b).
Proof. apply NoDup_filter. apply NoDup_fmap_2; [intros k k'; apply line_of_inj|apply NoDup_seq]. Qed.
Lemma bundle_length P u w a b : (0 <= a)%Z -> (0 <= b)%Z ->
  length (bundle P u w a b) = nsegs P u (Z.to_nat w) (Z.to_nat (Z.min a b)) (Z.to_nat (Z.max a b)).
Proof.
  intros Ha Hb. unfold bundle, nsegs. rewrite filter_map_len. apply Nat.le_antisymm; apply filter_length_le; intros k _ Hk.
  - by apply contains_line_seg.
  - by apply contains_line_seg.
Qed.
