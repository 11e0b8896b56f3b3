(** Computed layouts: C79, C80. *)
From Coq Require Import QArith Qabs Qminmax Qround Lqa Lia.
From stdpp Require Import base list numbers.
From Verif Require Import Base LayoutModel LayoutGenModel SpecLayout SpecLayoutGen LayoutProofs3 LayoutGenProofs LayoutGenProofs2.

(** C79.  For every layout that dwave.graphs makes of a Chimera, Pegasus or Zephyr graph (one row for each node, the
    coordinates from the third on are those of the centre) that is not flat, graph_layout returns a layout that
    fills the square of side 2s around the centre exactly, keeps the order and the proportions of the
    nodes in both coordinates, and leaves the other coordinates at the centre. *)
Theorem C79_layout_fills_the_box_partial : forall m n d c0 c1 rest s (dwave : nat -> list Q -> Q -> list (list Q)) dim center scale,
  (0 < s)%Q -> box_arguments dim center d (c0 :: c1 :: rest) ->
  s = match scale with Some s => s | None => (inject_Z (Z.of_nat (Nat.max n m)) / 2)%Q end ->
  let raw := dwave d ((c0 - s)%Q :: (c1 + s)%Q :: rest) (2 * s)%Q in
  rectangular raw d ->
  (forall r i x c, r ∈ raw -> 2 <= i -> r !! i = Some x -> rest !! (i - 2) = Some c -> (x == c)%Q) ->
  (forall i lo hi, i < 2 -> extent raw i lo hi -> (lo < hi)%Q) ->
  exists L, graph_layout true m n dwave dim center scale = Ok L /\ rectangular L d /\
    spans L 0 (c0 - s) (c0 + s) /\ spans L 1 (c1 - s) (c1 + s) /\
    (forall r i x c, r ∈ L -> 2 <= i -> r !! i = Some x -> rest !! (i - 2) = Some c -> (x == c)%Q) /\
    stretched raw L 0 /\ stretched raw L 1.
Proof.
  intros m n d c0 c1 rest s dwave dim center scale Hs HB Es raw HR Hrest Hflat.
  eapply layout_gen; [done|symmetry; exact (proj1 HB)|done|done|by apply box_arguments_ok|done|done].
Qed.
Print Assumptions C79_layout_fills_the_box_partial.

(** What is missing: a graph whose nodes all have the same first (or the same second) coordinate, one qubit for
    example, gets no positions: they are NaN. *)
Theorem C79_flat_refuted : forall m n d c0 c1 rest s (dwave : nat -> list Q -> Q -> list (list Q)) dim center scale,
  (0 < s)%Q -> box_arguments dim center d (c0 :: c1 :: rest) ->
  s = match scale with Some s => s | None => (inject_Z (Z.of_nat (Nat.max n m)) / 2)%Q end ->
  let raw := dwave d ((c0 - s)%Q :: (c1 + s)%Q :: rest) (2 * s)%Q in
  rectangular raw d -> (exists i x, i < 2 /\ extent raw i x x) ->
  graph_layout true m n dwave dim center scale = Err Corrupt.
Proof.
  intros m n d c0 c1 rest s dwave dim center scale Hs HB Es raw HR (i & x & Hi & HE).
  exact (layout_flat m n d c0 c1 rest s dwave Hs (eq_sym (proj1 HB)) HR dim center scale i x (box_arguments_ok _ _ _ _ HB) (eq_sym Es) Hi HE).
Qed.
Print Assumptions C79_flat_refuted.

(** Graphs of other families, a centre whose length is not [dim], and fewer than two dimensions are errors. *)
Theorem C79_bad_arguments : forall known m n dwave dim center scale,
  known = false \/ (exists d c, dim = Some d /\ center = Some c /\ length c <> d) \/ (exists c, center = Some c /\ length c < 2) \/ (exists d, dim = Some d /\ d < 2) ->
  graph_layout known m n dwave dim center scale = Err BadInit.
Proof. exact layout_bad. Qed.
Print Assumptions C79_bad_arguments.

(** a triangle of three nodes, in the box of scale 3 around (1, 2, 5) *)
Definition C79_dwave (d : nat) (c : list Q) (s : Q) : list (list Q) :=
  match c with
  | x :: y :: t => [x :: y :: t; (x + s / 2)%Q :: y :: t; (x + s / 4)%Q :: (y - s / 3)%Q :: t]
  | _ => []
  end.
Example C79_hypotheses : (0 < 3)%Q /\ box_arguments None (Some [1; 2; 5]%Q) 3 [1; 2; 5]%Q /\
  rectangular (C79_dwave 3 [1 - 3; 2 + 3; 5]%Q (2 * 3)%Q) 3 /\
  (forall i lo hi, i < 2 -> extent (C79_dwave 3 [1 - 3; 2 + 3; 5]%Q (2 * 3)%Q) i lo hi -> (lo < hi)%Q).
Proof.
  split; [reflexivity|]. split; [done|]. split.
  - split; [done|]. intros r Hr. cbn in Hr. rewrite !elem_of_cons, elem_of_nil in Hr. by destruct Hr as [->|[->|[->|[]]]].
  - intros i lo hi Hi (_ & _ & H). pose (L := C79_dwave 3 [1 - 3; 2 + 3; 5]%Q (2 * 3)%Q).
    assert (H1 : nth 0 L [] ∈ L) by left. assert (H2 : nth 1 L [] ∈ L) by (right; left). assert (H3 : nth 2 L [] ∈ L) by (right; right; left).
    destruct i as [|[|]]; [| |lia].
    + pose proof (H _ _ H1 eq_refl) as [A _]. pose proof (H _ _ H2 eq_refl) as [_ B]. eapply Qle_lt_trans; [exact A|]. eapply Qlt_le_trans; [|exact B]. reflexivity.
    + pose proof (H _ _ H3 eq_refl) as [A _]. pose proof (H _ _ H1 eq_refl) as [_ B]. eapply Qle_lt_trans; [exact A|]. eapply Qlt_le_trans; [|exact B]. reflexivity.
Qed.
Example C79_layout : match graph_layout true 2 2 C79_dwave None (Some [1; 2; 5]%Q) (Some 3%Q) with Ok L => map (map Qred) L = [[- (2); 5; 5]; [4; 5; 5]; [1; - (1); 5]]%Q | Err _ => False end.
Proof. vm_compute. reflexivity. Qed.
Example C79_one_qubit : graph_layout true 1 1 (fun _ c _ => [c]) None None None = Err Corrupt.
Proof. reflexivity. Qed.

(** C80.  For every graph (its connected components [comps]), every layout function [lay] that gives each node of a
    component a point of the plane, such that the turned component is not flat, every rotation and every packing of rectangles without overlap: each
    component lies in its own rectangle, the rectangles do not overlap, and the distances within a
    component are those of its own layout (1 for a component with two nodes). *)
Theorem C80_components_apart_partial : forall (lay : list nat -> list (nat * list Q)) turn rpack comps, rigid turn -> packs rpack ->
  NoDup (concat comps) ->
  (forall c, c ∈ comps -> c <> [] /\ (2 < length c -> ((lay c).*1 ≡ₚ c /\ forall p, p ∈ (lay c).*2 -> length p = 2) /\ ~ flat (turn (lay c).*2))) ->
  exists L rects, pack_components lay turn rpack comps None = Ok L /\ L.*1 ≡ₚ concat comps /\ length rects = length comps /\
    (forall i j r r', i <> j -> rects !! i = Some r -> rects !! j = Some r' -> apart r r') /\
    (forall i c r v p, comps !! i = Some c -> rects !! i = Some r -> v ∈ c -> (v, p) ∈ L -> inside p r) /\
    (forall c, c ∈ comps -> 2 < length c -> forall v w p q p' q', (v, p) ∈ lay c -> (w, q) ∈ lay c -> (v, p') ∈ L -> (w, q') ∈ L -> (sqdist p' q' == sqdist p q)%Q) /\
    (forall c v w p q, c ∈ comps -> length c = 2 -> v ∈ c -> w ∈ c -> v <> w -> (v, p) ∈ L -> (w, q) ∈ L -> (sqdist p q == 1)%Q).
Proof. intros lay turn rpack comps Ht Hp HN HC. exact (pack_ok lay turn rpack Ht Hp comps HN HC). Qed.
Print Assumptions C80_components_apart_partial.

(** With a scale, the packed layout is enlarged or reduced about its centre to that scale, unless all nodes have the same position. *)
Theorem C80_scaled_partial : forall (lay : list nat -> list (nat * list Q)) turn rpack comps L s, rigid turn -> packs rpack ->
  NoDup (concat comps) ->
  (forall c, c ∈ comps -> c <> [] /\ (2 < length c -> ((lay c).*1 ≡ₚ c /\ forall p, p ∈ (lay c).*2 -> length p = 2) /\ ~ flat (turn (lay c).*2))) -> comps <> [] ->
  pack_components lay turn rpack comps None = Ok L -> (0 < s)%Q -> (exists r r', r ∈ L.*2 /\ r' ∈ L.*2 /\ (0 < sqdist r r')%Q) ->
  exists L' a b, pack_components lay turn rpack comps (Some s) = Ok L' /\ L'.*1 = L.*1 /\ box_scale L'.*2 2 s /\ (0 < a)%Q /\ moved L.*2 L'.*2 a b.
Proof. intros lay turn rpack comps L s Ht Hp HN HC. exact (pack_scaled lay turn rpack Ht Hp comps L s HN HC). Qed.
Print Assumptions C80_scaled_partial.

(** What is missing: a component of three or more nodes whose turned layout lies on a horizontal or vertical line gets a rectangle
    without area, for which rpack raises an exception. *)
Theorem C80_flat_refuted : forall (lay : list nat -> list (nat * list Q)) turn rpack comps scale c, rigid turn ->
  NoDup (concat comps) -> (forall c, c ∈ comps -> c <> [] /\ (2 < length c -> (lay c).*1 ≡ₚ c /\ forall p, p ∈ (lay c).*2 -> length p = 2)) ->
  c ∈ comps -> 2 < length c -> flat (turn (lay c).*2) -> pack_components lay turn rpack comps scale = Err BadInit.
Proof. intros lay turn rpack comps scale c Ht HN HC. exact (pack_flat lay turn rpack Ht comps scale c HN HC). Qed.
Print Assumptions C80_flat_refuted.
(** Also, a graph with one node gets no position if a scale is given (NaN); and rectangles may touch, so two nodes of
    different components may get the same position. *)
Definition side_by_side (sides : list (Z * Z)) : list (Z * Z) :=
  (fix go x l := match l with [] => [] | (w, h) :: l => (x, 0%Z) :: go (x + Z.max 0 w)%Z l end) 0%Z sides.
Theorem C80_one_node_refuted : forall lay turn v s, pack_components lay turn side_by_side [[v]] (Some s) = Err Corrupt.
Proof. intros. vm_compute. reflexivity. Qed.
Print Assumptions C80_one_node_refuted.

Lemma side_by_side_packs : packs side_by_side.
Proof.
  intros sides _. unfold side_by_side. set (go := fix go x l := match l with [] => [] | (w, h) :: l => (x, 0%Z) :: go (x + Z.max 0 w)%Z l end : list (Z * Z)). generalize 0%Z as x0.
  assert (H : forall l x, length (go x l) = length l /\ (forall i r, zip (go x l) l !! i = Some r -> (x <= r.1.1)%Z) /\
    forall i j r r', i < j -> zip (go x l) l !! i = Some r -> zip (go x l) l !! j = Some r' -> (r.1.1 + r.2.1 <= r'.1.1)%Z).
  { induction l as [|[w h] l IH]; intros x; [split; [done|]; split; intros *; done|]. destruct (IH (x + Z.max 0 w)%Z) as (A & B & C). split; [cbn; lia|]. split.
    - intros [|i] r Hr; cbn in Hr; [injection Hr as <-; cbn; lia|]. specialize (B i r Hr). lia.
    - intros [|i] [|j] r r' Hij Hr Hr'; cbn in Hr, Hr'; [lia| |lia|].
      + injection Hr as <-. specialize (B j r' Hr'). cbn. lia.
      + eapply (C i j); [lia|done|done]. }
  intros x0. destruct (H sides x0) as (A & _ & C). split; [done|]. intros i j r r' Hne Hi Hj. destruct r as [[x y] [w h]], r' as [[x' y'] [w' h']]. cbn.
  destruct (decide (i < j)) as [Hlt|Hge]; [pose proof (C i j _ _ Hlt Hi Hj) as HH|pose proof (C j i _ _ ltac:(lia) Hj Hi) as HH]; cbn in HH; lia.
Qed.
Lemma id_rigid : rigid (fun ps => ps).
Proof. intros ps Hps. split; [done|]. split; [done|]. intros. simplify_eq. reflexivity. Qed.
(** every component of three nodes is laid out as a right-angled triangle *)
Definition C80_lay (c : list nat) : list (nat * list Q) := zip c [[- (1); - (1)]; [1; - (1)]; [- (1); 1]]%Q.
Definition C80_two := Eval vm_compute in match pack_components C80_lay (fun ps => ps) side_by_side [[0; 1; 2]; [3; 4; 5]] None with Ok L => L | Err _ => [] end.
Lemma C80_lay_not_flat a b c : ~ flat (C80_lay [a; b; c]).*2.
Proof.
  intros (k & x & x' & Hk & (_ & _ & H) & E). pose (L := (C80_lay [a; b; c]).*2). assert (H1 : nth 0 L [] ∈ L) by left. assert (H2 : nth 1 L [] ∈ L) by (right; left). assert (H3 : nth 2 L [] ∈ L) by (right; right; left).
  destruct k as [|[|]]; [| |lia].
  - pose proof (H _ (- (1))%Q H1 eq_refl). pose proof (H _ 1%Q H2 eq_refl). lra.
  - pose proof (H _ (- (1))%Q H1 eq_refl). pose proof (H _ 1%Q H3 eq_refl). lra.
Qed.
Theorem C80_same_position_refuted : exists (lay : list nat -> list (nat * list Q)) turn rpack comps, rigid turn /\ packs rpack /\
  NoDup (concat comps) /\ (forall c, c ∈ comps -> c <> [] /\ (2 < length c -> ((lay c).*1 ≡ₚ c /\ forall p, p ∈ (lay c).*2 -> length p = 2) /\ ~ flat (turn (lay c).*2))) /\
  exists L v w p q, pack_components lay turn rpack comps None = Ok L /\ v <> w /\ (v, p) ∈ L /\ (w, q) ∈ L /\ (sqdist p q == 0)%Q.
Proof.
  exists C80_lay, (fun ps => ps), side_by_side, [[0; 1; 2]; [3; 4; 5]]. split; [exact id_rigid|]. split; [exact side_by_side_packs|]. split; [apply (bool_decide_unpack _); vm_compute; exact I|].
  split.
  - intros c Hc. apply elem_of_cons in Hc as [->|Hc]; [|apply elem_of_list_singleton in Hc as ->]; (split; [done|]; intros _; split; [split; [done|]|apply C80_lay_not_flat]);
      intros p Hp; cbn in Hp; rewrite !elem_of_cons, elem_of_nil in Hp; by destruct Hp as [->|[->|[->|[]]]].
  - eexists C80_two, 1, 3, _, _. split; [vm_compute; reflexivity|]. split; [done|]. split; [right; left|]. split; [do 3 right; left|]. reflexivity.
Qed.
Print Assumptions C80_same_position_refuted.

(** three components with 3, 2 and 1 nodes *)
Example C80_hypotheses : rigid (fun ps => ps) /\ packs side_by_side /\ NoDup (concat [[0; 1; 2]; [3; 4]; [5]]) /\
  (forall c, c ∈ [[0; 1; 2]; [3; 4]; [5]] -> c <> [] /\ (2 < length c -> ((C80_lay c).*1 ≡ₚ c /\ forall p, p ∈ (C80_lay c).*2 -> length p = 2) /\ ~ flat (C80_lay c).*2)).
Proof.
  split; [exact id_rigid|]. split; [exact side_by_side_packs|]. split; [apply (bool_decide_unpack _); vm_compute; exact I|].
  intros c Hc. rewrite !elem_of_cons, elem_of_nil in Hc. destruct Hc as [->|[->|[->|[]]]]; (split; [done|]); cbn [length]; intros Hl; [|lia|lia]. split; [split; [done|]|apply C80_lay_not_flat].
  intros p Hp. cbn in Hp. rewrite !elem_of_cons, elem_of_nil in Hp. by destruct Hp as [->|[->|[->|[]]]].
Qed.
Example C80_path : pack_components (fun c => zip c [[0; 0]; [1; 0]; [2; 0]]%Q) (fun ps => ps) side_by_side [[0; 1; 2]; [3]] None = Err BadInit.
Proof. vm_compute. reflexivity. Qed.
Example C80_layout : match pack_components C80_lay (fun ps => ps) side_by_side [[0; 1; 2]; [3; 4]; [5]] None with Ok L => map (map Qred) L.*2 = [[0; 0]; [2; 0]; [0; 2]; [5 # 2; 1 # 2]; [7 # 2; 1 # 2]; [9 # 2; 1 # 2]]%Q | Err _ => False end.
Proof. vm_compute. reflexivity. Qed.
Example C80_scaled_layout : match pack_components C80_lay (fun ps => ps) side_by_side [[0; 1; 2]; [3; 4]; [5]] (Some 9%Q) with Ok L => map (map Qred) (take 2 L.*2) = [[- (27 # 4); - (3)]; [5 # 4; - (3)]]%Q | Err _ => False end.
Proof. vm_compute. reflexivity. Qed.
