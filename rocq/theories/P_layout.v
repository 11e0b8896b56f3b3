(** Properties of minorminer.layout: C70 (layouts), C71 (closest), C72 (intersection) and C73 (embedding
    with a placement).  See SpecLayout.v for the vocabulary. *)
From Coq Require Import QArith Qabs Qminmax Lqa Lia.
From stdpp Require Import base list numbers gmap relations.
From Verif Require Import Base NxModel SpecNx PyCacheModel GraphModel ParamModel PathModel PyModel SpecPy PyProofs1 P_run P_py SpecBus SpecFrag SpecUtil LayoutModel SpecLayout
  LayoutProofs1 LayoutProofs2 LayoutProofs3 LayoutProofs4 LayoutTop.

(** ** C70 *)
(** the specs of a layout: the centre of the box around the points, and half of its longest side *)
Theorem C70_specs : forall L d, rectangular L d -> 0 < d ->
  layout_dim L = d /\ box_center L d (layout_center L) /\ box_scale L d (layout_scale L) /\
  ((layout_scale L == 0)%Q <-> forall r r' i x x', r ∈ L -> r' ∈ L -> r !! i = Some x -> r' !! i = Some x' -> (x == x')%Q).
Proof. intros L d H Hd. split; [by apply layout_dim_ok|]. split; [by apply center_ok|]. split; [by apply scale_ok|by eapply scale_zero]. Qed.
Print Assumptions C70_specs.

(** setting the scale keeps the centre, and multiplies all distances by the same number *)
Theorem C70_scale : forall L d s s0, rectangular L d -> 0 < d -> (0 < s)%Q -> (0 < s0)%Q -> box_scale L d s0 ->
  exists L' b, set_scale L s = Ok L' /\ rectangular L' d /\ box_scale L' d s /\ (forall c, box_center L d c -> box_center L' d c) /\ moved L L' (s / s0) b.
Proof.
  intros L d s s0 HR Hd Hs H0 HB. pose proof (scale_pos L d s0 HR Hd HB) as E. destruct (set_scale_ok L d s HR Hd Hs) as (L' & A & B & C & D & b & M); [lra|].
  exists L', b. repeat (split; [done|]). eapply moved_same; [| |exact M]; [by rewrite E|reflexivity].
Qed.
Print Assumptions C70_scale.

(** setting the centre keeps the scale, and moves all points by the same vector *)
Theorem C70_center : forall L d c, rectangular L d -> 0 < d -> length c = d ->
  exists L' b, set_center L c = Ok L' /\ rectangular L' d /\ box_center L' d c /\ (forall s, box_scale L d s -> box_scale L' d s) /\ moved L L' 1 b.
Proof. intros L d c HR Hd Hc. destruct (set_center_ok L d c HR Hd Hc) as (L' & A & B & C & D & b & M). by exists L', b. Qed.
Print Assumptions C70_center.

(** setting a higher dimension appends zeros and keeps the scale; a lower dimension is an error *)
Theorem C70_dim : forall L d d', rectangular L d -> 0 < d -> 0 < d' ->
  if d <=? d' then exists L', set_dim L d' = Ok L' /\ rectangular L' d' /\ (forall s, box_scale L d s -> box_scale L' d' s) /\
    Forall2 (fun r r' => take d r' = r /\ forall x, x ∈ drop d r' -> x = 0%Q) L L'
  else set_dim L d' = Err BadInit.
Proof.
  intros L d d' HR Hd Hd'. destruct (Nat.leb_spec d d') as [H|H]; [by apply set_dim_ok|]. unfold set_dim.
  rewrite (layout_dim_ok L d HR). replace (d' =? 0) with false by (symmetry; apply Nat.eqb_neq; lia). by replace (d' <? d) with true by (symmetry; by apply Nat.ltb_lt).
Qed.
Print Assumptions C70_dim.

(** the constructor with given specs: the layout has these specs, and its points are those that were
    given, padded with zeros and moved without turning *)
Theorem C70_new : forall L d d' s c, rectangular L d -> 0 < d -> d <= d' ->
  (forall x, s = Some x -> (0 < x)%Q /\ (0 < layout_scale L)%Q) -> (forall x, c = Some x -> length x = d') ->
  exists L', new_layout L (Some d') s c = Ok L' /\ rectangular L' d' /\ (forall x, c = Some x -> box_center L' d' x) /\
    match s with Some x => box_scale L' d' x | None => forall x, box_scale L d x -> box_scale L' d' x end /\
    exists L0 a b, Forall2 (fun r r0 => take d r0 = r /\ forall x, x ∈ drop d r0 -> x = 0%Q) L L0 /\ (0 < a)%Q /\ moved L0 L' a b.
Proof. exact new_layout_ok. Qed.
Print Assumptions C70_new.

(** a placement does not move the target layout, and moves the source layout so that it is not larger
    than the target layout: if it is larger it gets the scale of the target, otherwise the scale ratio
    applies *)
Theorem C70_placement : forall LS LT d s t ratio, rectangular LS d -> rectangular LT d -> 0 < d -> box_scale LS d s -> box_scale LT d t -> (0 < t)%Q ->
  (forall r, ratio = Some r -> (0 < r <= 1)%Q /\ (0 < s)%Q) ->
  exists LS' LT' a b, placement_layouts LS LT ratio = Ok (LS', LT') /\ moved LT LT' 1 (fun _ => 0%Q) /\ (0 < a)%Q /\ moved LS LS' a b /\
    exists s', box_scale LS' d s' /\ (s' <= t)%Q /\ ((t < s)%Q -> (s' == t)%Q) /\
      ((s <= t)%Q -> match ratio with Some r => s' == r * t | None => s' == s end)%Q.
Proof. exact placement_ok. Qed.
Print Assumptions C70_placement.

Definition reduced (r : res (list (list Q))) : res (list (list Q)) := let! L := r in Ok (map (map Qred) L).
Definition ex_rows : list (list Q) := [[0; 0]; [8; 2]]%Q.
Lemma ex_rows_ok : rectangular ex_rows 2.
Proof. split; [done|]. intros r Hr. unfold ex_rows in Hr. rewrite !elem_of_cons, elem_of_nil in Hr. by destruct Hr as [->|[->|[]]]. Qed.
Example C70_case : rectangular ex_rows 2 /\ (layout_scale ex_rows == 4)%Q /\
  reduced (set_scale ex_rows 2) = Ok [[2%Q; 1 # 2]; [6%Q; 3 # 2]] /\
  reduced (new_layout ex_rows (Some 3) (Some 2%Q) (Some [0; 1; 2]%Q)) = Ok [[(-2)%Q; 1 # 2; 2%Q]; [2%Q; 3 # 2; 2%Q]] /\
  (let! r := placement_layouts ex_rows [[0; 0]; [1; 4]]%Q (Some (1 # 2)%Q) in reduced (Ok (r.1 ++ r.2))) = Ok [[2%Q; 1 # 2]; [6%Q; 3 # 2]; [0%Q; 0%Q]; [1%Q; 4%Q]].
Proof. split; [exact ex_rows_ok|]. repeat split; by vm_compute. Qed.

(** "a layout may be given any scale" fails: a layout whose points coincide cannot be scaled (its points
    become NaN), and a scale of 0 is ignored, so that a placement onto a target whose points coincide
    leaves the source layout larger than the target *)
Theorem C70_scale_refuted : exists L LS LT, rectangular L 2 /\ set_scale L 1 = Err Corrupt /\
  rectangular LS 2 /\ rectangular LT 2 /\ exists LS' LT', placement_layouts LS LT None = Ok (LS', LT') /\ (layout_scale LT' < layout_scale LS')%Q.
Proof.
  exists [[1; 2]; [1; 2]]%Q, [[0; 0]; [8; 2]]%Q, [[1; 2]; [1; 2]]%Q.
  assert (R : forall r1 r2 : list Q, length r1 = 2 -> length r2 = 2 -> rectangular [r1; r2] 2).
  { intros r1 r2 H1 H2. split; [done|]. intros r Hr. rewrite !elem_of_cons, elem_of_nil in Hr. by destruct Hr as [->|[->|[]]]. }
  split; [by apply R|]. split; [by vm_compute|]. split; [by apply R|]. split; [by apply R|].
  eexists _, _. split; [vm_compute; reflexivity|]. vm_compute. reflexivity.
Qed.
Print Assumptions C70_scale_refuted.

(** ** C71 *)
(** [closest] succeeds if there are at least [k] connected sets of the allowed sizes; every source node
    gets a connected set of at most [hi] target nodes, and fewer than [k] of the connected sets of the
    allowed sizes are nearer to it.  [kd] is scipy's nearest neighbour search, [ord] the iteration order
    of sets, [ovf] whether a number was too large: for base 1 it is not. *)
Theorem C71_closest : forall ord kd ovf T d tl SL lo hi k,
  (forall s, ord s ≡ₚ elements s) -> (forall pts u k, 1 <= k <= length pts -> nearest pts u k (kd pts u k)) -> (forall i, ovf i 1 = false) ->
  layout_of T d tl -> 1 <= k -> (exists Xs, NoDup Xs /\ length Xs = k /\ forall X, X ∈ Xs -> connected_set T X /\ lo <= size X <= hi) ->
  exists pl, closest ord kd ovf SL T tl lo hi k = Ok pl /\ pl.*1 = SL.*1 /\
    forall i u x X, SL !! i = Some (u, x) -> pl !! i = Some (u, X) -> near_choice T d tl lo hi k x X.
Proof.
  intros ord kd ovf T d tl SL lo hi k H1 H2 H3 HL Hk HX. destruct (closest_ok ord H1 kd H2 ovf H3 T d tl HL SL lo hi k Hk HX) as (pl & A & B & C & _).
  by exists pl.
Qed.
Print Assumptions C71_closest.

(** the choice among the neighbours: the source nodes are placed one after another, and each gets a set
    with the least sum of the distance and [10 ^ n] for each of its target nodes that was used [n] times *)
Theorem C71_overlap : forall ord kd ovf T d tl SL lo hi k,
  (forall s, ord s ≡ₚ elements s) -> (forall pts u k, 1 <= k <= length pts -> nearest pts u k (kd pts u k)) -> (forall i b, ovf i b = false) ->
  layout_of T d tl -> 1 <= k -> (exists Xs, NoDup Xs /\ length Xs = k /\ forall X, X ∈ Xs -> connected_set T X /\ lo <= size X <= hi) ->
  exists pl cands, closest ord kd ovf SL T tl lo hi k = Ok pl /\ candidates T d tl lo hi cands /\
    forall i u x X, SL !! i = Some (u, x) -> pl !! i = Some (u, X) -> least_penalized (take i pl.*2) cands (kd cands.*2 x k) X.
Proof.
  intros ord kd ovf T d tl SL lo hi k H1 H2 H3 HL Hk HX.
  destruct (closest_ok ord H1 kd H2 ovf (fun i => H3 i 1) T d tl HL SL lo hi k Hk HX) as (pl & A & _ & _ & cands & B & C).
  exists pl, cands. split; [done|]. split; [done|]. apply C. intros i. apply H3.
Qed.
Print Assumptions C71_overlap.

(** a path of three nodes, and a search through all points instead of the tree *)
Definition no_overflow (i b : nat) : bool := false.
Definition ex_path : nxgraph nat := mkNx [0; 1; 2] [(0, 1); (1, 2)].
Definition ex_path_layout : list (nat * list Q) := [(0, [0%Q]); (1, [10%Q]); (2, [20%Q])].
Definition listed (r : res (list (nat * gset nat))) : res (list (nat * list nat)) := let! pl := r in Ok (map (fun e => (e.1, elements e.2)) pl).
Example C71_case : listed (closest elements scan no_overflow [(7, [4%Q]); (8, [4%Q]); (9, [14%Q])] ex_path ex_path_layout 1 2 1) =
    Ok [(7, [0; 1]); (8, [0; 1]); (9, [1; 2])] /\
  listed (closest elements scan no_overflow [(7, [4%Q]); (8, [4%Q]); (9, [14%Q])] ex_path ex_path_layout 1 2 3) =
    Ok [(7, [0; 1]); (8, [0; 1]); (9, [2])].
Proof. split; by vm_compute. Qed.
Lemma ex_path_hyps : layout_of ex_path 1 ex_path_layout /\
  exists Xs : list (gset nat), NoDup Xs /\ length Xs = 3 /\ forall X, X ∈ Xs -> connected_set ex_path X /\ 1 <= size X <= 2.
Proof.
  split.
  - split; [apply (bool_decide_unpack _); done|]. split.
    + intros v Hv. unfold ex_path in Hv. cbn in Hv. rewrite !elem_of_cons, elem_of_nil in Hv.
      destruct Hv as [->|[->|[->|[]]]]; eexists; unfold ex_path_layout; [left|right; left|right; right; left].
    + intros v p Hp. unfold ex_path_layout in Hp. rewrite !elem_of_cons, elem_of_nil in Hp. by destruct Hp as [[= -> ->]|[[= -> ->]|[[= -> ->]|[]]]].
  - exists [{[0]}; {[1]}; {[2]}]. split; [apply (bool_decide_unpack _); vm_compute; done|]. split; [done|]. intros X HX.
    assert (exists v, X = {[v]} /\ v ∈ nx_nodes ex_path) as (v & -> & Hv).
    { rewrite !elem_of_cons, elem_of_nil in HX. destruct HX as [->|[->|[->|[]]]]; eexists; (split; [reflexivity|]); cbn; set_solver. }
    split; [|rewrite size_singleton; lia]. split; [set_solver|]. split; [set_solver|]. intros a b Ha%elem_of_singleton Hb%elem_of_singleton. subst. apply rtc_refl.
Qed.
Example C71_hyps : exists pl, closest elements scan no_overflow [(7, [4%Q]); (8, [4%Q]); (9, [14%Q])] ex_path ex_path_layout 1 2 3 = Ok pl /\ pl.*1 = [7; 8; 9] /\
    forall i u x X, [(7, [4%Q]); (8, [4%Q]); (9, [14%Q])] !! i = Some (u, x) -> pl !! i = Some (u, X) -> near_choice ex_path 1 ex_path_layout 1 2 3 x X.
Proof. destruct ex_path_hyps. apply (C71_closest elements scan no_overflow); [done|apply scan_nearest|done|done|lia|done]. Qed.

(** "[subset_size]=(lo, hi) gives sets with at least lo nodes" fails, and so does "any number of neighbours
    may be given": with more neighbours than sets, an exception is raised (the tree returns an index out
    of range) *)
Theorem C71_refuted : exists T d tl SL, layout_of T d tl /\
  (exists X, closest elements scan no_overflow SL T tl 3 3 1 = Ok [(7, X)] /\ size X = 2) /\
  closest elements scan no_overflow SL T tl 1 1 4 = Err BadInit.
Proof.
  exists ex_path, 1, ex_path_layout, [(7, [4%Q])]. split; [apply ex_path_hyps|]. split; [|by vm_compute].
  eexists. split; [vm_compute; reflexivity|]. vm_compute. reflexivity.
Qed.
Print Assumptions C71_refuted.

(** ** C72 *)
(** what [intersection] gives for a grid of [tn] by [tm] points: the source layout is moved without turning
    so that its box has the same centre as the square grid of side [t min(n,m)] and fits into it, and each
    source node gets the qubits that pass through a grid point at distance at most 1/2 in each direction *)
Definition on_grid {Qb : Type} (points : Qb -> list (nat * nat)) (m n t : nat) (T : list Qb) (nodes : list nat) (LS : list (list Q))
  (pl : list (nat * list Qb)) (good : list Qb -> Prop) : Prop :=
  pl.*1 = nodes /\ exists L a b, (0 < a)%Q /\ moved LS L a b /\
    (let g := ((inject_Z (Z.of_nat (t * (n `min` m))) - 1) / 2)%Q in
     box_center L 2 [g; g] /\ forall s, box_scale LS 2 s -> box_scale L 2 (Qmin g (s * inject_Z (Z.of_nat t)))) /\
    forall i u Qs r, pl !! i = Some (u, Qs) -> L !! i = Some r -> (exists x y, x < t * n /\ y < t * m /\ crossing points T r x y Qs) /\ good Qs.

(** Chimera: the qubits of a source node are coupled in pairs, and in the whole lattice there are exactly
    two of them *)
Theorem C72_chimera : forall m n t T nodes LS, rectangular LS 2 -> 2 <= t * (n `min` m) -> length nodes = length LS ->
  (forall q, q ∈ T -> chimera_in m n t q) ->
  exists pl, intersection (chimera_at t) m n t T nodes LS = Ok pl /\ on_grid (chimera_at t) m n t T nodes LS pl (fun Qs =>
    (forall q q', q ∈ Qs -> q' ∈ Qs -> q <> q' -> chimera_adj m n t (chimera_id n t q) (chimera_id n t q')) /\
    ((forall q, chimera_in m n t q -> q ∈ T) -> exists q q', q <> q' /\ forall r, r ∈ Qs <-> r = q \/ r = q')).
Proof.
  intros m n t T nodes LS HR Hn Hlen HT. destruct (intersection_ok (chimera_at t) m n t T nodes LS HR Hn Hlen) as (pl & L & a & b & E & E1 & Ha & M & B & H).
  { intros q p Hq Hp. by eapply chimera_inside; [apply HT|]. }
  exists pl. split; [done|]. split; [done|]. exists L, a, b. split; [done|]. split; [done|]. split; [done|]. intros i u Qs r Hi Hr.
  destruct (H i u Qs r Hi Hr) as (x & y & Hx & Hy & HC). split; [by exists x, y|]. destruct HC as [_ HC]. split.
  - intros q q' [Hq Hp]%HC [Hq' Hp']%HC Hne. eapply chimera_cross; [by apply HT|by apply HT|exact Hp|exact Hp'|done].
  - intros Hall. destruct (chimera_cover m n t x y Hx Hy) as (q & q' & Iq & Iq' & Hne & Hqq). exists q, q'. split; [done|]. intros r0. rewrite HC. split.
    + intros [Hr0 Hp]. apply Hqq; [by apply HT|done].
    + intros Hor. assert (Hin : chimera_in m n t r0) by (by destruct Hor as [->| ->]). split; [by apply Hall|]. by apply Hqq.
Qed.
Print Assumptions C72_chimera.

(** Pegasus, for any offsets (halved) less than 6 *)
Theorem C72_pegasus : forall m off T nodes LS, (forall u k, k < 6 -> off u k < 6) -> 1 <= m -> rectangular LS 2 -> length nodes = length LS ->
  (forall q, q ∈ T -> pegasus_in m q) ->
  exists pl, intersection (pegasus_at off) m m 12 T nodes LS = Ok pl /\ on_grid (pegasus_at off) m m 12 T nodes LS pl (fun Qs =>
    forall q q', q ∈ Qs -> q' ∈ Qs -> q <> q' ->
      pegasus_coupler m off (pegasus_id m q) (pegasus_id m q') \/ pegasus_coupler m off (pegasus_id m q') (pegasus_id m q)).
Proof.
  intros m off T nodes LS Hoff Hm HR Hlen HT. destruct (intersection_ok (pegasus_at off) m m 12 T nodes LS HR ltac:(lia) Hlen) as (pl & L & a & b & E & E1 & Ha & M & B & H).
  { intros q p Hq Hp. by eapply pegasus_inside; [exact Hoff|apply HT|]. }
  exists pl. split; [done|]. split; [done|]. exists L, a, b. split; [done|]. split; [done|]. split; [done|]. intros i u Qs r Hi Hr.
  destruct (H i u Qs r Hi Hr) as (x & y & Hx & Hy & HC). split; [by exists x, y|]. destruct HC as [_ HC].
  intros q q' [Hq Hp]%HC [Hq' Hp']%HC Hne. eapply pegasus_cross; [by apply HT|by apply HT|exact Hp|exact Hp'|done].
Qed.
Print Assumptions C72_pegasus.

(** Zephyr: the grid is that of [2m+1] rows with [2t] lines *)
Theorem C72_zephyr : forall m t T nodes LS, 1 <= t -> rectangular LS 2 -> length nodes = length LS ->
  (forall q, q ∈ T -> zephyr_in m t q) ->
  exists pl, intersection (zephyr_at t) (2 * m + 1) (2 * m + 1) (2 * t) T nodes LS = Ok pl /\
    on_grid (zephyr_at t) (2 * m + 1) (2 * m + 1) (2 * t) T nodes LS pl (fun Qs =>
    forall q q', q ∈ Qs -> q' ∈ Qs -> q <> q' ->
      zephyr_coupler m t (zephyr_id m t q) (zephyr_id m t q') \/ zephyr_coupler m t (zephyr_id m t q') (zephyr_id m t q)).
Proof.
  intros m t T nodes LS Ht HR Hlen HT.
  destruct (intersection_ok (zephyr_at t) (2 * m + 1) (2 * m + 1) (2 * t) T nodes LS HR ltac:(rewrite Nat.min_id; nia) Hlen) as (pl & L & a & b & E & E1 & Ha & M & B & H).
  { intros q p Hq Hp. by eapply zephyr_inside; [apply HT|]. }
  exists pl. split; [done|]. split; [done|]. exists L, a, b. split; [done|]. split; [done|]. split; [done|]. intros i u Qs r Hi Hr.
  destruct (H i u Qs r Hi Hr) as (x & y & Hx & Hy & HC). split; [by exists x, y|]. destruct HC as [_ HC].
  intros q q' [Hq Hp]%HC [Hq' Hp']%HC Hne. eapply zephyr_cross; [by apply HT|by apply HT|exact Hp|exact Hp'|done].
Qed.
Print Assumptions C72_zephyr.

(** the points of qubits are the right ones: two qubits of different directions with an internal coupler
    meet in a point *)
Theorem C72_points :
  (forall t i j k k', k < t -> k' < t -> exists p, p ∈ chimera_at t (i, j, false, k) /\ p ∈ chimera_at t (i, j, true, k')) /\
  (forall off w k z w' k' z', pegasus_covers off false k z (pegasus_position w' k') -> pegasus_covers off true k' z' (pegasus_position w k) ->
    exists p, p ∈ pegasus_at off (false, w, k, z) /\ p ∈ pegasus_at off (true, w', k', z')) /\
  (forall t w k j z w' k' j' z', k < t -> j < 2 -> k' < t -> j' < 2 -> zephyr_covers j z w' -> zephyr_covers j' z' w ->
    exists p, p ∈ zephyr_at t (false, w, k, j, z) /\ p ∈ zephyr_at t (true, w', k', j', z')).
Proof. split; [exact chimera_meet|]. split; [exact pegasus_meet|exact zephyr_meet]. Qed.
Print Assumptions C72_points.

Definition ex_cell : list chimera_qubit := [(0, 0, false, 0); (0, 0, false, 1); (0, 0, true, 0); (0, 0, true, 1)].
Example C72_case : intersection (chimera_at 2) 1 1 2 ex_cell [4; 5] [[0; 0]; [3; 1]]%Q =
  Ok [(4, [(0, 0, false, 0); (0, 0, true, 0)]); (5, [(0, 0, false, 1); (0, 0, true, 1)])].
Proof. by vm_compute. Qed.
Example C72_case_whole : forall q, chimera_in 1 1 2 q <-> q ∈ ex_cell.
Proof.
  intros [[[i j] u] k]. unfold ex_cell. rewrite !elem_of_cons, elem_of_nil. split.
  - intros (Hi & Hj & Hk). assert (i = 0) as -> by lia. assert (j = 0) as -> by lia. destruct k as [|[|k]]; [| |lia]; destruct u; tauto.
  - intros [[= -> -> -> ->]|[[= -> -> -> ->]|[[= -> -> -> ->]|[[= -> -> -> ->]|[]]]]]; repeat split; lia.
Qed.
(** all qubits of a Zephyr lattice *)
Definition zephyr_all (m t : nat) : list zephyr_qubit :=
  u ← [false; true]; w ← seq 0 (2 * m + 1); k ← seq 0 t; j ← [0; 1]; z ← seq 0 m; [(u, w, k, j, z)].
Lemma zephyr_all_ok m t q : q ∈ zephyr_all m t <-> zephyr_in m t q.
Proof.
  destruct q as [[[[u w] k] j] z]. unfold zephyr_all. split.
  - intros H. repeat (apply elem_of_list_bind in H as (? & H & ?)). apply elem_of_list_singleton in H. injection H as -> -> -> -> ->.
    rewrite elem_of_seq in *. rewrite !elem_of_cons, !elem_of_nil in *. cbn. repeat split; lia.
  - intros (Hw & Hk & Hj & Hz). apply elem_of_list_bind. exists u. split; [|destruct u; set_solver]. apply elem_of_list_bind. exists w. split; [|apply elem_of_seq; lia].
    apply elem_of_list_bind. exists k. split; [|apply elem_of_seq; lia]. apply elem_of_list_bind. exists j. split; [|destruct j as [|[|]]; [set_solver|set_solver|lia]].
    apply elem_of_list_bind. exists z. split; [|apply elem_of_seq; lia]. by apply elem_of_list_singleton.
Qed.

(** "every source node gets a qubit" fails on a whole Zephyr lattice, and "any layout can be placed" fails
    on a lattice with one grid point *)
Theorem C72_refuted :
  (exists pl, intersection (zephyr_at 1) 3 3 2 (zephyr_all 1 1) [1; 2; 3] [[0; 0]; [4; 4]; [5; 5]]%Q = Ok pl /\ (2, []) ∈ pl) /\
  intersection (chimera_at 1) 1 1 1 [(0, 0, false, 0); (0, 0, true, 0)] [1; 2] [[0; 0]; [4; 4]]%Q = Err BadInit.
Proof. split; [|by vm_compute]. eexists. split; [vm_compute; reflexivity|]. right. left. Qed.
Print Assumptions C72_refuted.

(** ** C73 *)
(** [layout.find_embedding] without fixed chains and restrictions: whatever the placement, there is no
    undefined behaviour, and a reported embedding is a valid one; if the placement is passed as suspended
    chains, every chain contains one of the qubits of its placement *)
Theorem C73_placement : forall {A : Type} `{!EqDecision A} (pin : A -> nat -> A) h pl S T p o,
  py_fixed p = [] -> py_initial p = [] -> py_suspend p = [] -> py_restrict p = [] ->
  NoDup pl.*1 -> (forall v C, (v, C) ∈ pl -> NoDup C) -> py_fits S T (with_placement h pl p) o ->
  (forall e, layout_find_embedding pin h pl S T p o = Err e -> e <> UB /\ e <> OOF) /\
  forall r d, layout_find_embedding pin h pl S T p o = Ok r -> reports r d -> label_embedding S T d /\
    (h = SuspendChains -> forall v C, occurs S v -> (v, C) ∈ pl -> C <> [] -> exists q, q ∈ C /\ in_dict d v q).
Proof. intros A H pin h pl S T p o. exact (layout_embedding_ok pin h pl S T p o). Qed.
Print Assumptions C73_placement.

(** the same with the placement [closest], as a whole *)
Theorem C73_closest : forall pin ord kd ovf (T : nxgraph nat) d tl h SL lo hi k S p o,
  (forall s, ord s ≡ₚ elements s) -> (forall pts u k, 1 <= k <= length pts -> nearest pts u k (kd pts u k)) -> (forall i, ovf i 1 = false) ->
  layout_of T d tl -> 1 <= k -> (exists Xs, NoDup Xs /\ length Xs = k /\ forall X, X ∈ Xs -> connected_set T X /\ lo <= size X <= hi) ->
  NoDup SL.*1 -> py_fixed p = [] -> py_initial p = [] -> py_suspend p = [] -> py_restrict p = [] ->
  (forall X : list (nat * list (list nat)), length X = length SL -> (forall e, e ∈ X -> length e.2 = 1) ->
     py_fits S (mkPG (nx_edges T) (Some (nx_nodes T))) (mkPP (py_opts p) [] [] [] X) o) ->
  exists pl, closest ord kd ovf SL T tl lo hi k = Ok pl /\
  (forall e, closest_embedding pin ord kd ovf h SL T tl lo hi k S p o = Err e -> e <> UB /\ e <> OOF) /\
  forall r dd, closest_embedding pin ord kd ovf h SL T tl lo hi k S p o = Ok r -> reports r dd ->
    label_embedding S (mkPG (nx_edges T) (Some (nx_nodes T))) dd /\
    (h = SuspendChains -> forall v X, occurs S v -> (v, X) ∈ pl -> exists q, q ∈ X /\ in_dict dd v q).
Proof. exact closest_embedding_ok. Qed.
Print Assumptions C73_closest.

(** the graphs of P_py.v *)
Definition ex_target : nxgraph nat := mkNx [20; 11; 31; 42; 50; 60; 77] [(20, 11); (11, 31); (31, 42); (42, 50); (50, 20); (42, 60); (11, 42)].
Definition ex_target_layout : list (nat * list Q) :=
  [(20, [0; 0]%Q); (11, [1; 0]%Q); (31, [2; 0]%Q); (42, [1; 1]%Q); (50, [0; 1]%Q); (60, [1; 2]%Q); (77, [3; 3]%Q)].
Definition ex_source_layout : list (nat * list Q) := [(5, [0; 0]%Q); (6, [2; 0]%Q); (7, [1; 1]%Q); (9, [1 # 2; 1 # 2]%Q)].
Example C73_case : listed (closest elements scan no_overflow ex_source_layout ex_target ex_target_layout 1 2 3) = Ok [(5, [20]); (6, [31]); (7, [42]); (9, [20; 50])] /\
  closest_embedding py_pin elements scan no_overflow InitialChains ex_source_layout ex_target ex_target_layout 1 2 3 py_S (py_p [] []) py_o =
    Ok (PyPair [(7, [42]); (9, [50; 20]); (5, [11]); (6, [31])] true) /\
  closest_embedding py_pin elements scan no_overflow SuspendChains ex_source_layout ex_target ex_target_layout 1 2 3 py_S (py_p [] []) py_o =
    Ok (PyPair [(7, [11; 42]); (9, [50]); (5, [20]); (6, [31])] true).
Proof. repeat split; by vm_compute. Qed.
Lemma ex_target_hyps : layout_of ex_target 2 ex_target_layout /\
  exists Xs : list (gset nat), NoDup Xs /\ length Xs = 3 /\ forall X, X ∈ Xs -> connected_set ex_target X /\ 1 <= size X <= 2.
Proof.
  split.
  - split; [apply (bool_decide_unpack _); done|]. split.
    + intros v Hv. assert (E : nx_nodes ex_target = ex_target_layout.*1) by reflexivity. rewrite E in Hv. apply elem_of_list_fmap in Hv as ([v' p] & -> & Hp). by exists p.
    + intros v p Hp. assert (HF : Forall (fun e : nat * list Q => length e.2 = 2) ex_target_layout) by (repeat constructor). rewrite Forall_forall in HF. exact (HF _ Hp).
  - exists [{[20]}; {[11]}; {[31]}]. split; [apply (bool_decide_unpack _); vm_compute; done|]. split; [done|]. intros X HX.
    assert (exists v, X = {[v]} /\ v ∈ nx_nodes ex_target) as (v & -> & Hv).
    { rewrite !elem_of_cons, elem_of_nil in HX. destruct HX as [->|[->|[->|[]]]]; eexists; (split; [reflexivity|]); cbn; set_solver. }
    split; [|rewrite size_singleton; lia]. split; [set_solver|]. split; [set_solver|]. intros a b Ha%elem_of_singleton Hb%elem_of_singleton. subst. apply rtc_refl.
Qed.
Example C73_hyps : label_embedding py_S (mkPG (nx_edges ex_target) (Some (nx_nodes ex_target))) [(7, [11; 42]); (9, [50]); (5, [20]); (6, [31])].
Proof.
  destruct ex_target_hyps as [H1 H2].
  destruct (C73_closest py_pin elements scan no_overflow ex_target 2 ex_target_layout SuspendChains ex_source_layout 1 2 3 py_S (py_p [] []) py_o) as (pl & _ & _ & H);
    [done|apply scan_nearest|done|done|lia|done|apply (bool_decide_unpack _); done|done|done|done|done| |].
  - intros X HX H1X VS VT HS HT n m Hn Hm. apply first_seen_length in HS, HT.
    assert (HB : length (concat (snd <$> X)) <= 4).
    { cbn in HX. rewrite <- HX. clear -H1X. induction X as [|e X IH]; [done|]. cbn. rewrite app_length, (H1X e); [|left]. apply le_n_S, IH. intros e' He'. apply H1X. by right. }
    unfold blobs_of in *. cbn [py_suspend] in *. cbn in HS, HT. split; [lia|]. split; [apply run_sort_ok|].
    split; [intros w k c Hc; cbn; unfold EmbModel.max_distance; lia|]. cbn. lia.
  - eapply H; [apply C73_case|by left].
Qed.

(** with fixed chains the claim is false: a placement for a variable with a fixed chain is passed as its
    initial chain, which is undefined behaviour *)
Theorem C73_fixed_refuted : exists pl p, NoDup pl.*1 /\ py_restrict p = [] /\ py_fixed p = [(7, [20])] /\
  layout_find_embedding py_pin InitialChains pl py_S py_T p py_o = Err UB.
Proof. exists [(7, [31])], (py_p [(7, [20])] []). split; [apply NoDup_singleton|]. split; [done|]. split; [done|]. by vm_compute. Qed.
Print Assumptions C73_fixed_refuted.
