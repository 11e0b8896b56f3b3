(** Validity of cliques and bicliques of lines, in coordinates and in linear numbers. *)
From Coq Require Import ArithRing.
From stdpp Require Import base list numbers gmap.
From Verif Require Import Base NxModel PyCacheModel PolyModel SpecBus SpecPoly PolyProofs1 PolyProofs2 PolyProofs3.

(** ** Coordinates *)
Definition cell_ok (P : eden) : Prop := forall x y k l, x < ed_M P -> y < ed_N P -> k < ed_L P -> l < ed_L P ->
  has_qubit P (x, y, false, k) = true -> has_qubit P (x, y, true, l) = true -> has_coupler P (x, y, false, k) (x, y, true, l) = true.
Definition inr (P : eden) (q : cq) : Prop := let '(x, y, u, k) := q in x < ed_M P /\ y < ed_N P /\ k < ed_L P.
Definition cchain (P : eden) (c : list cq) : Prop :=
  c <> [] /\ NoDup c /\ (forall q, q ∈ c -> has_qubit P q = true /\ inr P q) /\
  (forall i p q, c !! i = Some p -> c !! S i = Some q -> has_coupler P p q = true).
Definition meets (P : eden) (c d : list cq) : Prop := exists p q, p ∈ c /\ q ∈ d /\ has_coupler P p q = true.
Definition crel (P : eden) (c d : list cq) : Prop := c ## d /\ meets P c d.
Definition pairwise {A} (R : A -> A -> Prop) (l : list A) : Prop := forall i j c d, i < j -> l !! i = Some c -> l !! j = Some d -> R c d.

Lemma pairwise_nil {A} (R : A -> A -> Prop) : pairwise R [].
Proof. by intros i j c d _ H. Qed.
Lemma pairwise_app {A} (R : A -> A -> Prop) l k : pairwise R l -> pairwise R k -> (forall c d, c ∈ l -> d ∈ k -> R c d) -> pairwise R (l ++ k).
Proof.
  intros Hl Hk Hlk i j c d Hij Hi Hj. apply lookup_app_Some in Hi as [Hi|[Hi1 Hi]], Hj as [Hj|[Hj1 Hj]].
  - exact (Hl i j c d Hij Hi Hj).
  - apply Hlk; eapply elem_of_list_lookup_2; eauto.
  - apply lookup_lt_Some in Hj. lia.
  - eapply (Hk (i - length l) (j - length l)); [lia|done|done].
Qed.
Lemma pairwise_cons {A} (R : A -> A -> Prop) a l : pairwise R (a :: l) -> pairwise R l /\ forall d, d ∈ l -> R a d.
Proof.
  intros H. split; [intros i j c d Hij Hi Hj; apply (H (S i) (S j)); [lia|done|done]|].
  intros d [i Hi]%elem_of_list_lookup. by apply (H 0 (S i)); [lia| |].
Qed.
Lemma pairwise_take {A} (R : A -> A -> Prop) n l : pairwise R l -> pairwise R (take n l).
Proof.
  intros H i j c d Hij Hi Hj. pose proof (lookup_lt_Some _ _ _ Hj) as Hlt. rewrite take_length in Hlt.
  rewrite lookup_take in Hi by lia. rewrite lookup_take in Hj by lia. exact (H i j c d Hij Hi Hj).
Qed.

Lemma elem_of_line u w a b k q : q ∈ line_of u w a b k <-> exists z, (Z.min a b <= z <= Z.max a b)%Z /\ q = lq u (Z.to_nat w) (Z.to_nat z) k.
Proof. unfold line_of. rewrite elem_of_list_fmap. setoid_rewrite elem_of_walk. naive_solver. Qed.
Lemma line_length u w a b k : length (line_of u w a b k) = S (Z.to_nat (Z.abs (b - a))).
Proof. unfold line_of. by rewrite fmap_length, walk_length. Qed.
Lemma lq_inj u w z z' k : lq u w z k = lq u w z' k -> z = z'.
Proof. destruct u; simpl; congruence. Qed.
Lemma NoDup_line u w a b k : (0 <= a)%Z -> (0 <= b)%Z -> NoDup (line_of u w a b k).
Proof.
  intros Ha Hb. unfold line_of. apply NoDup_fmap_2_strong; [|apply NoDup_walk].
  intros z z' Hz%elem_of_walk Hz'%elem_of_walk E%lq_inj. lia.
Qed.
Lemma line_first u w a b k : line_of u w a b k !! 0 = Some (lq u (Z.to_nat w) (Z.to_nat a) k).
Proof. unfold line_of. rewrite list_lookup_fmap, (proj2 (walk_lookup a b 0 a)); [done|]. destruct (Z.leb_spec a b); lia. Qed.
Lemma line_last u w a b k : line_of u w a b k !! Z.to_nat (Z.abs (b - a)) = Some (lq u (Z.to_nat w) (Z.to_nat b) k).
Proof. unfold line_of. rewrite list_lookup_fmap, (proj2 (walk_lookup a b _ b)); [done|]. destruct (Z.leb_spec a b); lia. Qed.
(** a complete line is a chain *)
Lemma line_cchain P u w a b k : (0 <= w)%Z -> (0 <= a)%Z -> (0 <= b)%Z -> k < ed_L P -> seg P u (Z.to_nat w) (Z.to_nat (Z.min a b)) (Z.to_nat (Z.max a b)) k ->
  (if u then w < Z.of_nat (ed_M P) /\ Z.max a b < Z.of_nat (ed_N P) else w < Z.of_nat (ed_N P) /\ Z.max a b < Z.of_nat (ed_M P))%Z ->
  cchain P (line_of u w a b k).
Proof.
  intros Hw Ha Hb Hk Hs Hr. split; [|split; [by apply NoDup_line|split]].
  - intros E. apply (f_equal length) in E. rewrite line_length in E. done.
  - intros q (z & Hz & ->)%elem_of_line. split; [apply Hs; lia|]. destruct u; simpl; lia.
  - apply contains_line_seg in Hs; [|done|done]. exact (proj2 (proj1 (contains_line_lookup _ _) Hs)).
Qed.

Lemma elem_of_chain m n e v h q : ell_in m n e -> q ∈ chain_of e v h <->
  (exists y, e_left e <= y <= e_right e /\ q = (e_row e, y, true, v)) \/ (exists x, e_top e <= x <= e_bot e /\ q = (x, e_col e, false, h)).
Proof.
  intros (Hr & Hc & H1 & H2). unfold chain_of. rewrite elem_of_app, !elem_of_line. simpl. rewrite !Nat2Z.id.
  split.
  - intros [(z & Hz & ->)|(z & Hz & ->)]; [left; exists (Z.to_nat z)|right; exists (Z.to_nat z)]; (split; [lia|done]).
  - intros [(z & Hz & ->)|(z & Hz & ->)]; [left|right]; exists (Z.of_nat z); rewrite Nat2Z.id; (split; [lia|done]).
Qed.
Lemma chain_of_ok P e v h : cell_ok P -> ell_in (ed_M P) (ed_N P) e -> v < ed_L P -> h < ed_L P ->
  seg P true (e_row e) (e_left e) (e_right e) v -> seg P false (e_col e) (e_top e) (e_bot e) h ->
  cchain P (chain_of e v h) /\ length (chain_of e v h) = ell_len e.
Proof.
  intros Hcell Hin Hv Hh Sv Sh. pose proof Hin as (Hr & Hc & H1 & H2).
  assert (Cv : cchain P (line_of true (Z.of_nat (e_row e)) (Z.of_nat (e_left e) + Z.of_nat (e_right e) - Z.of_nat (e_col e)) (Z.of_nat (e_col e)) v)).
  { apply line_cchain; [lia|lia|lia|done| |split; lia]. rewrite Nat2Z.id.
    replace (Z.to_nat _) with (e_left e) by lia. replace (Z.to_nat _) with (e_right e) by lia. done. }
  assert (Ch : cchain P (line_of false (Z.of_nat (e_col e)) (Z.of_nat (e_row e)) (Z.of_nat (e_top e) + Z.of_nat (e_bot e) - Z.of_nat (e_row e)) h)).
  { apply line_cchain; [lia|lia|lia|done| |split; lia]. rewrite Nat2Z.id.
    replace (Z.to_nat _) with (e_top e) by lia. replace (Z.to_nat _) with (e_bot e) by lia. done. }
  destruct Cv as (Cv1 & Cv2 & Cv3 & Cv4), Ch as (Ch1 & Ch2 & Ch3 & Ch4).
  split; [split; [|split; [|split]]|].
  - unfold chain_of. intros [E _]%app_eq_nil. done.
  - unfold chain_of. apply NoDup_app. split; [done|]. split; [|done].
    intros q (z & _ & ->)%elem_of_line (z' & _ & E)%elem_of_line. simpl in E. congruence.
  - unfold chain_of. intros q [Hq|Hq]%elem_of_app; auto.
  - unfold chain_of. set (lv := line_of true _ _ _ _) in *. set (lh := line_of false _ _ _ _) in *.
    intros i p q Hp Hq. apply lookup_app_Some in Hp as [Hp|[Hp1 Hp]], Hq as [Hq|[Hq1 Hq]].
    + by eapply Cv4.
    + (* the corner *)
      pose proof (lookup_lt_Some _ _ _ Hp) as Hlt.
      replace (S i - length lv) with 0 in Hq by lia. unfold lh in Hq. rewrite line_first in Hq. injection Hq as <-.
      assert (Hi : i = Z.to_nat (Z.abs (Z.of_nat (e_col e) - (Z.of_nat (e_left e) + Z.of_nat (e_right e) - Z.of_nat (e_col e))))).
      { unfold lv in Hlt, Hq1. rewrite line_length in Hlt, Hq1. lia. }
      unfold lv in Hp. rewrite Hi, line_last in Hp. injection Hp as <-. rewrite !Nat2Z.id. simpl.
      rewrite has_coupler_sym. apply Hcell; [lia|lia|done|done| |].
      * apply (proj1 Sh). lia.
      * apply (proj1 Sv). lia.
    + apply lookup_lt_Some in Hq. lia.
    + eapply (Ch4 (i - length lv)); [done|]. by replace (S (i - length lv)) with (S i - length lv) by lia.
  - unfold chain_of. rewrite app_length, !line_length. unfold ell_len. lia.
Qed.

(** an ell meets every later one *)
Definition later (a b : ell) : Prop :=
  e_top a <= e_top b /\ e_bot b <= e_bot a /\ e_row a <> e_row b /\ e_left b <= e_left a /\ e_right a <= e_right b /\ e_col a <> e_col b /\
  (e_row a < e_top b \/ e_bot b < e_row a) /\ (e_col b < e_left a \/ e_right a < e_col b).
Lemma peels_later m n a b : ell_in m n a -> ell_in m n b -> peels a b -> later a b.
Proof.
  destruct a as [r c t bo l ri], b as [r' c' t' bo' l' ri']. unfold ell_in, peels, later. simpl.
  intros (Hr & Hc & ? & ?) (Hr' & Hc' & ? & ?) [Hp1 Hp2].
  assert (A : t <= t' /\ bo' <= bo /\ (r < t' \/ bo' < r)) by (clear Hc Hc' Hp2; lia).
  assert (B : l' <= l /\ ri <= ri' /\ (c' < l \/ ri < c')) by (clear Hr Hr' Hp1; lia).
  clear Hp1 Hp2. split_and!; clear - A B Hr Hr' Hc Hc' H H0 H1 H2; lia.
Qed.
Lemma later_trans m n a b c : ell_in m n a -> ell_in m n b -> ell_in m n c -> later a b -> later b c -> later a c.
Proof.
  destruct a as [r1 c1 t1 b1 l1 i1], b as [r2 c2 t2 b2 l2 i2], c as [r3 c3 t3 b3 l3 i3]. unfold ell_in, later. simpl.
  intros (Ha & Ha' & ? & ?) (Hb & Hb' & ? & ?) (Hc & Hc' & ? & ?) (X1 & X2 & X3 & X4 & X5 & X6 & X7 & X8) (Y1 & Y2 & Y3 & Y4 & Y5 & Y6 & Y7 & Y8).
  assert (A : r1 < t3 \/ b3 < r1) by (clear - X7 Y1 Y2; lia).
  assert (B : c3 < l1 \/ i1 < c3) by (clear - Y8 X4 X5; lia).
  split_and!; [clear - X1 Y1; lia|clear - X2 Y2; lia| |clear - X4 Y4; lia|clear - X5 Y5; lia| |done|done].
  - clear X1 X2 X3 X4 X5 X6 X7 X8 Y1 Y2 Y3 Y4 Y5 Y6 Y7 Y8 B Ha Ha' Hb Hb' Hc'. lia.
  - clear X1 X2 X3 X4 X5 X6 X7 X8 Y1 Y2 Y3 Y4 Y5 Y6 Y7 Y8 A Ha Hb Hb' Hc Hc'. lia.
Qed.
Lemma ells_later m n len L : is_ells m n len L -> pairwise later L.
Proof.
  intros [H1 H2] i j a b Hij. assert (exists k, j = S (i + k)) as [k ->] by (exists (j - S i); lia). clear Hij.
  intros Ha. destruct (H1 a) as [Ea _]; [by eapply elem_of_list_lookup_2|]. revert b. induction k as [|k IH]; intros b Hb.
  - rewrite Nat.add_0_r in Hb. destruct (H1 b) as [Eb _]; [by eapply elem_of_list_lookup_2|]. eapply peels_later; [done|done|by eapply H2].
  - destruct (L !! S (i + k)) as [c|] eqn:Hc; [|apply lookup_ge_None in Hc; apply lookup_lt_Some in Hb; lia].
    specialize (IH c eq_refl). pose proof (H2 (S (i + k)) c b Hc) as Hp. rewrite Nat.add_succ_r in Hb. specialize (Hp Hb).
    destruct (H1 b) as [Eb _]; [by eapply elem_of_list_lookup_2|]. destruct (H1 c) as [Ec _]; [by eapply elem_of_list_lookup_2|].
    eapply later_trans; [| | |exact IH|eapply peels_later; [| |exact Hp]]; done.
Qed.
Lemma later_crel P a b v h v' h' : cell_ok P -> ell_in (ed_M P) (ed_N P) a -> ell_in (ed_M P) (ed_N P) b -> later a b ->
  h < ed_L P -> v' < ed_L P ->
  seg P false (e_col a) (e_top a) (e_bot a) h -> seg P true (e_row b) (e_left b) (e_right b) v' ->
  crel P (chain_of a v h) (chain_of b v' h').
Proof.
  intros Hcell Ha Hb Hl Hh Hv' Sh Sv. pose proof Ha as (? & ? & ? & ?). pose proof Hb as (? & ? & ? & ?). unfold later in Hl. split.
  - intros q. rewrite (elem_of_chain _ _ _ _ _ _ Ha), (elem_of_chain _ _ _ _ _ _ Hb).
    intros [(y & Hy & ->)|(x & Hx & ->)] [(y' & Hy' & E)|(x' & Hx' & E)]; try (injection E as ? ?); try discriminate; lia.
  - exists (e_row b, e_col a, false, h), (e_row b, e_col a, true, v').
    rewrite (elem_of_chain _ _ _ _ _ _ Ha), (elem_of_chain _ _ _ _ _ _ Hb). split_and!.
    + right. exists (e_row b). split; [lia|done].
    + left. exists (e_col a). split; [lia|done].
    + apply Hcell; [lia|lia|done|done| |]; [apply (proj1 Sh); lia|apply (proj1 Sv); lia].
Qed.
Lemma same_crel P e v h v' h' : cell_ok P -> ell_in (ed_M P) (ed_N P) e -> v <> v' -> h <> h' -> h < ed_L P -> v' < ed_L P ->
  seg P false (e_col e) (e_top e) (e_bot e) h -> seg P true (e_row e) (e_left e) (e_right e) v' ->
  crel P (chain_of e v h) (chain_of e v' h').
Proof.
  intros Hcell He Hv Hh Hhl Hvl Sh Sv. pose proof He as (? & ? & ? & ?). split.
  - intros q. rewrite !(elem_of_chain _ _ _ _ _ _ He).
    intros [(y & Hy & ->)|(x & Hx & ->)] [(y' & Hy' & E)|(x' & Hx' & E)]; congruence.
  - exists (e_row e, e_col e, false, h), (e_row e, e_col e, true, v').
    rewrite !(elem_of_chain _ _ _ _ _ _ He). split_and!.
    + right. exists (e_row e). split; [lia|done].
    + left. exists (e_col e). split; [lia|done].
    + apply Hcell; [lia|lia|done|done| |]; [apply (proj1 Sh); lia|apply (proj1 Sv); lia].
Qed.

Lemma elem_of_zip_with {A B C} (f : A -> B -> C) l k x : x ∈ zip_with f l k -> exists a b, a ∈ l /\ b ∈ k /\ x = f a b.
Proof.
  intros [i Hi]%elem_of_list_lookup. apply lookup_zip_with_Some in Hi as (a & b & -> & Ha & Hb).
  exists a, b. split_and!; [by eapply elem_of_list_lookup_2..|done].
Qed.
Lemma ells_clique P len L bs : cell_ok P -> is_ells (ed_M P) (ed_N P) len L -> Forall2 (bundle_of P) L bs ->
  (forall c, c ∈ concat bs -> cchain P c /\ length c = len) /\ pairwise (crel P) (concat bs) /\ length (concat bs) = isum P L.
Proof.
  intros Hcell HL. pose proof (ells_later _ _ _ _ HL) as Hlater. destruct HL as [HL _].
  induction 1 as [|e b L bs Hb HF IH].
  { split; [intros c Hc; by apply elem_of_nil in Hc|]. split; [apply pairwise_nil|done]. }
  apply pairwise_cons in Hlater as [Hlater He]. destruct (HL e) as [Hein Helen]; [left|].
  destruct IH as (IH1 & IH2 & IH3); [intros; apply HL; by right|done|].
  pose proof Hb as (hs & vs & Nh & Nv & Hh & Hv & Hcap & ->).
  split; [|split].
  - simpl. intros c [Hc|Hc]%elem_of_app; [|by apply IH1].
    apply elem_of_zip_with in Hc as (h & v & Hh' & Hv' & ->). destruct (Hh _ Hh'), (Hv _ Hv'). rewrite <- Helen. by apply chain_of_ok.
  - simpl. apply pairwise_app; [|done|].
    + intros i j c d Hij Hi Hj. apply lookup_zip_with_Some in Hi as (h & v & -> & Hh1 & Hv1), Hj as (h' & v' & -> & Hh2 & Hv2).
      assert (h <> h') by (intros ->; pose proof (NoDup_lookup _ _ _ _ Nh Hh1 Hh2); lia).
      assert (v <> v') by (intros ->; pose proof (NoDup_lookup _ _ _ _ Nv Hv1 Hv2); lia).
      destruct (Hh h) as [? ?]; [by eapply elem_of_list_lookup_2|]. destruct (Hv v') as [? ?]; [by eapply elem_of_list_lookup_2|].
      by apply same_crel.
    + intros c d Hc Hd. apply elem_of_zip_with in Hc as (h & v & Hh' & Hv' & ->). destruct (Hh _ Hh') as [? ?].
      assert (Hd0 : exists b', d ∈ b' /\ b' ∈ bs) by (apply elem_of_list_In, in_concat in Hd as (b' & ? & ?); exists b'; by rewrite !elem_of_list_In). destruct Hd0 as (b' & Hd1 & Hb'). clear Hd. rename Hd1 into Hd. apply elem_of_list_lookup in Hb' as [i Hi].
      destruct (Forall2_lookup_r _ _ _ _ _ HF Hi) as (e' & He' & (hs' & vs' & _ & _ & Hh2 & Hv2 & _ & ->)).
      apply elem_of_zip_with in Hd as (h' & v2 & Hh3 & Hv3 & ->). destruct (Hv2 _ Hv3) as [? ?].
      assert (Hin' : e' ∈ L) by by eapply elem_of_list_lookup_2.
      apply later_crel; [done|done|apply HL; by right|by apply He|done|done|done|done].
  - simpl. rewrite app_length, IH3, zip_with_length, Hcap. done.
Qed.

(** ** Linear numbers *)
Lemma to_linear_qubit n t x y u k : poly_to_linear n t (x, y, u, k) = qubit n t x y u k.
Proof. unfold poly_to_linear, qubit. destruct u; ring. Qed.
Lemma lin_chimera N L q : 0 < N -> 0 < L -> poly_to_linear N L (poly_to_chimera N L q) = q.
Proof.
  intros HN HL. unfold poly_to_linear, poly_to_chimera.
  rewrite !Nat.div_div by lia.
  pose proof (Nat.div_mod_eq q L) as E1. pose proof (Nat.div_mod_eq (q / L) 2) as E2. pose proof (Nat.div_mod_eq (q / L / 2) N) as E3.
  rewrite !Nat.div_div in E2, E3 by lia.
  replace (N * (L * 2)) with (L * 2 * N) by ring.
  assert (E4 : (if (q / L) mod 2 =? 1 then 1 else 0) = (q / L) mod 2).
  { pose proof (Nat.mod_upper_bound (q / L) 2). destruct (Nat.eqb_spec ((q / L) mod 2) 1); lia. }
  rewrite E4. rewrite Nat.div_div in E3 by lia.
  replace (N * L) with (L * N) in * by ring.
  nia.
Qed.
Lemma chimera_lin N L x y u k : y < N -> k < L -> poly_to_chimera N L (poly_to_linear N L (x, y, u, k)) = (x, y, u, k).
Proof.
  intros Hy Hk. unfold poly_to_chimera, poly_to_linear. set (b := if u then 1 else 0).
  assert (Hb : b < 2) by (unfold b; destruct u; lia).
  assert (E1 : (2 * L * N * x + 2 * L * y + L * b + k) / L = 2 * (N * x + y) + b).
  { symmetry. apply (Nat.div_unique _ _ _ k); [done|]. ring. }
  assert (E1' : (2 * L * N * x + 2 * L * y + L * b + k) mod L = k).
  { symmetry. apply (Nat.mod_unique _ _ (2 * (N * x + y) + b)); [done|]. ring. }
  assert (E2 : (2 * (N * x + y) + b) / 2 = N * x + y) by (symmetry; apply (Nat.div_unique _ _ _ b); lia).
  assert (E2' : (2 * (N * x + y) + b) mod 2 = b) by (symmetry; apply (Nat.mod_unique _ _ (N * x + y)); lia).
  assert (E3 : (N * x + y) / N = x) by (symmetry; apply (Nat.div_unique _ _ _ y); lia).
  assert (E3' : (N * x + y) mod N = y) by (symmetry; apply (Nat.mod_unique _ _ x); lia).
  rewrite E1', E1, E2, E2', E3'. repeat f_equal.
  - rewrite !Nat.div_div by lia. replace (N * (L * 2)) with (L * (2 * N)) by ring. rewrite <- !Nat.div_div by lia. by rewrite E1, E2, E3.
  - unfold b. by destruct u.
Qed.
Lemma chimera_inr N L q : 0 < N -> 0 < L -> let '(x, y, u, k) := poly_to_chimera N L q in y < N /\ k < L.
Proof. intros. unfold poly_to_chimera. split; by apply Nat.mod_upper_bound; lia. Qed.
Lemma lin_inj P p q : inr P p -> inr P q -> poly_to_linear (ed_N P) (ed_L P) p = poly_to_linear (ed_N P) (ed_L P) q -> p = q.
Proof.
  destruct p as [[[x y] u] k], q as [[[x' y'] u'] k']. intros (_ & ? & ?) (_ & ? & ?) E.
  apply (f_equal (poly_to_chimera (ed_N P) (ed_L P))) in E. by rewrite !chimera_lin in E.
Qed.

(** the couplers of [P] are among those of the graph *)
Definition sub_graph (P : eden) (edges : list (nat * nat)) : Prop :=
  forall p q, has_coupler P p q = true -> has_edge edges (poly_to_linear (ed_N P) (ed_L P) p) (poly_to_linear (ed_N P) (ed_L P) q).
Notation lin P := (poly_to_linear (ed_N P) (ed_L P)).
Lemma has_edge_ends edges p q : has_edge edges p q -> p ∈ ends edges /\ q ∈ ends edges.
Proof.
  unfold ends. rewrite !elem_of_app, !elem_of_list_fmap. intros [H|H]; split; [left|right|right|left]; by eexists; split; [|exact H].
Qed.
Lemma has_qubit_coupler P q : has_qubit P q = true -> exists p, has_coupler P q p = true.
Proof.
  unfold has_qubit, has_coupler. rewrite bool_decide_eq_true, !elem_of_list_fmap.
  intros [([a b] & -> & H)|([a b] & -> & H)]; [exists b|exists a]; apply bool_decide_eq_true; eauto.
Qed.
Lemma wire_connected edges c : wire edges c -> connected edges c.
Proof.
  intros Hw p q [i Hi]%elem_of_list_lookup [j Hj]%elem_of_list_lookup.
  assert (H : forall d i p q, c !! i = Some p -> c !! (i + d) = Some q -> rtc (fun a b => a ∈ c /\ b ∈ c /\ has_edge edges a b) p q).
  { induction d as [|d IH]; intros i0 p0 q0 Hp Hq; [rewrite Nat.add_0_r in Hq; assert (p0 = q0) by congruence; by subst|].
    destruct (c !! S i0) as [r|] eqn:Hr; [|apply lookup_ge_None in Hr; apply lookup_lt_Some in Hq; lia].
    apply (rtc_l _ _ r); [|apply (IH (S i0)); [done|]; by replace (S i0 + d) with (i0 + S d) by lia].
    split_and!; [by eapply elem_of_list_lookup_2..|by eapply Hw]. }
  assert (Hsym : forall a b, (a ∈ c /\ b ∈ c /\ has_edge edges a b) -> (b ∈ c /\ a ∈ c /\ has_edge edges b a)).
  { intros a b (? & ? & [?|?]); split_and!; try done; [by right|by left]. }
  destruct (decide (i <= j)).
  - apply (H (j - i) i); [done|]. by replace (i + (j - i)) with j by lia.
  - assert (Hrev : rtc (fun a b => a ∈ c /\ b ∈ c /\ has_edge edges a b) q p).
    { apply (H (i - j) j); [done|]. by replace (j + (i - j)) with i by lia. }
    clear -Hrev Hsym. induction Hrev as [x|x y z Hxy _ IH]; [done|]. eapply rtc_r; [exact IH|]. by apply Hsym.
Qed.
Lemma cchain_good P edges c : sub_graph P edges -> cchain P c ->
  good_chain (ends edges) edges (map (lin P) c) /\ wire edges (map (lin P) c).
Proof.
  intros Hsub (H1 & H2 & H3 & H4).
  assert (Hw : wire edges (map (lin P) c)).
  { intros i p q Hp Hq. apply list_lookup_fmap_Some in Hp as (p' & Hp & ->), Hq as (q' & Hq & ->). apply Hsub. by eapply H4. }
  split; [|done]. split; [|split; [|split]].
  - by destruct c.
  - apply NoDup_fmap_2_strong; [|done]. intros p q Hp Hq. apply lin_inj; [by apply H3|by apply H3].
  - intros q (p & -> & Hp)%elem_of_list_fmap. destruct (H3 _ Hp) as [Hq _]. apply has_qubit_coupler in Hq as [r Hr].
    exact (proj1 (has_edge_ends _ _ _ (Hsub _ _ Hr))).
  - by apply wire_connected.
Qed.
Lemma disjoint_lin P c d : (forall q, q ∈ c -> inr P q) -> (forall q, q ∈ d -> inr P q) -> c ## d -> map (lin P) c ## map (lin P) d.
Proof.
  intros Hc Hd H q (p & -> & Hp)%elem_of_list_fmap (p' & E & Hp')%elem_of_list_fmap.
  apply lin_inj in E; [|by apply Hc|by apply Hd]. subst. by apply (H p').
Qed.
Lemma meets_coupled P edges c d : sub_graph P edges -> meets P c d -> coupled edges (map (lin P) c) (map (lin P) d).
Proof.
  intros Hsub (p & q & Hp & Hq & H). exists (lin P p), (lin P q). split_and!; [by apply elem_of_list_fmap_1..|by apply Hsub].
Qed.
Lemma clique_lin P edges cl : sub_graph P edges -> (forall c, c ∈ cl -> cchain P c) -> pairwise (crel P) cl ->
  clique_embedding (ends edges) edges (map (map (lin P)) cl) /\ (forall c, c ∈ map (map (lin P)) cl -> wire edges c).
Proof.
  intros Hsub Hc Hp. split; [split|].
  - intros c (c' & -> & Hc')%elem_of_list_fmap. by apply cchain_good, Hc.
  - assert (H : forall i j c d, i < j -> map (map (lin P)) cl !! i = Some c -> map (map (lin P)) cl !! j = Some d -> c ## d /\ coupled edges c d).
    { intros i j c d Hij Hi Hj. apply list_lookup_fmap_Some in Hi as (c' & Hi & ->), Hj as (d' & Hj & ->).
      destruct (Hp i j c' d' Hij Hi Hj) as [Hd Hm]. split; [|by apply meets_coupled].
      apply disjoint_lin; [| |done]; intros q Hq; [destruct (Hc c')|destruct (Hc d')]; try (by eapply elem_of_list_lookup_2); naive_solver. }
    intros i j c d Hne Hi Hj. destruct (decide (i < j)); [by eapply H|].
    destruct (H j i d c) as [Hd (p & q & ? & ? & He)]; [lia|done|done|]. split; [intros x Hx Hy; by apply (Hd x)|].
    exists q, p. split_and!; [done|done|]. destruct He; [by right|by left].
  - intros c (c' & -> & Hc')%elem_of_list_fmap. by apply cchain_good, Hc.
Qed.
