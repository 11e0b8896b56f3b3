(** Cutting qubits into fragments: the tables made from a Pegasus or Zephyr graph are those of the graph
    of its fragments, taken as a Chimera graph. *)
From stdpp Require Import base list list_numbers numbers gmap.
From Verif Require Import Base BusModel CliqueModel FragModel SpecBus CoordProofs BitProofs BundleProofs MaskProofs MaskProofs2 TopoProofs CliqueProofs5.

(** What the two lattices have in common: line [(u, w, k)] of the grid of fragments holds [nz] successive
    qubits of [fs_len] fragments each, from position [off u w k] on. *)
Notation snum D sh nz u w k j := (linemajor_linear u w k j D sh nz).
Record striped (fs : fspec) (D sh nz : nat) (off : bool -> nat -> nat -> nat) (coupler : nat -> nat -> Prop) : Prop := mkStriped {
  st_topo : fs_topo fs = mkTopo D D sh;
  st_sh : sh <= 8;
  st_len : 1 <= fs_len fs;
  st_fit : forall u w k, w < D -> k < sh -> off u w k + fs_len fs * nz <= D;
  st_first : forall u w k j, w < D -> k < sh -> j < nz ->
    fs_first fs (snum D sh nz u w k j) = (u, w, k, off u w k + fs_len fs * j);
  st_line : forall u w z0 z1 k, w < D -> k < sh -> off u w k <= z0 ->
    fs_line fs u w z0 z1 k = (fun j => snum D sh nz u w k j) <$>
      seq ((z0 - off u w k) / fs_len fs) (S ((z1 - off u w k) / fs_len fs) - (z0 - off u w k) / fs_len fs);
  st_coupler : forall p q, coupler p q ->
    (exists u w k j, w < D /\ k < sh /\ S j < nz /\ p = snum D sh nz u w k j /\ q = snum D sh nz u w k (S j)) \/
    (p < q /\ (exists u w k j k' j', w < D /\ k < sh /\ k' < sh /\ k <> k' /\ j < nz /\ j' < nz /\
       p = snum D sh nz u w k j /\ q = snum D sh nz u w k' j') /\ forall s, frag_edge fs s (p, q) = Ok s) \/
    (exists w k j w' k' j', w < D /\ k < sh /\ j < nz /\ w' < D /\ k' < sh /\ j' < nz /\
       p = snum D sh nz false w k j /\ q = snum D sh nz true w' k' j' /\
       off false w k + fs_len fs * j <= w' < off false w k + fs_len fs * S j /\
       off true w' k' + fs_len fs * j' <= w < off true w' k' + fs_len fs * S j');
  st_ext : forall u w k j s, w < D -> k < sh -> S j < nz ->
    frag_edge fs s (snum D sh nz u w k j, snum D sh nz u w k (S j)) =
      (let! b := mask_bit k in let! em := mor s.1 (cell_index_wz (fs_topo fs) u w (off u w k + fs_len fs * S j)) b in Ok (em, s.2));
  st_cross : forall w k j w' k' j' s, w < D -> k < sh -> j < nz -> w' < D -> k' < sh -> j' < nz ->
    frag_edge fs s (snum D sh nz false w k j, snum D sh nz true w' k' j') =
      (let! bq := mask_bit k' in
       let! bm := mclear s.2 (chimera_linear (fs_topo fs) w' w false k) bq in
       let! bp := mask_bit k in
       let! bm := mclear bm (chimera_linear (fs_topo fs) w' w true k') bp in Ok (s.1, bm)) }.

Lemma snum_lt D sh nz u w k j : w < D -> k < sh -> j < nz -> snum D sh nz u w k j < 2 * D * sh * nz.
Proof. apply linemajor_lt. Qed.
Lemma snum_inj D sh nz u w k j u' w' k' j' : w < D -> k < sh -> j < nz -> w' < D -> k' < sh -> j' < nz ->
  snum D sh nz u w k j = snum D sh nz u' w' k' j' -> (u, w, k, j) = (u', w', k', j').
Proof.
  intros ? ? ? ? ? ? E. apply (f_equal (fun q => linear_linemajor q D sh nz)) in E. by rewrite !linemajor_roundtrip in E.
Qed.
Lemma snum_dir D sh nz w k j w' k' j' : w < D -> k < sh -> j < nz -> w' < D -> k' < sh -> j' < nz ->
  snum D sh nz false w k j < snum D sh nz true w' k' j'.
Proof.
  intros Hw Hk Hj Hw' Hk' Hj'. unfold linemajor_linear, b2n.
  assert (k + sh * w < sh * D) by nia. 
  assert (j + nz * (k + sh * w) < nz * (sh * D)) by nia.
  assert (nz * (sh * D) <= nz * (sh * (w' + D))) by (apply Nat.mul_le_mono_l, Nat.mul_le_mono_l; lia).
  rewrite Nat.mul_0_r, Nat.add_0_r, Nat.mul_1_r. nia.
Qed.
Lemma frag_edge_norm fs s e : frag_edge fs s e = frag_edge fs s (norm e).
Proof.
  unfold frag_edge, norm. destruct e as [p q]. cbn [fst snd]. destruct (q <? p) eqn:E; cbn [fst snd]; [|by rewrite E].
  apply Nat.ltb_lt in E. destruct (Nat.ltb_spec p q); [lia|done].
Qed.

(** ** single steps on fragments *)
Section steps.
Context (t : topo).
Notation lq := (line_qubit (dim_x t) (shore t)).
Definition in_grid (u : bool) (w z k : nat) : Prop := w < dim_w t u /\ z < dim_z t u /\ k < shore t.

Lemma lq_coords u w z k : in_grid u w z k ->
  linear_chimera t (lq u w z k) = if u then (w, z, true, k) else (z, w, false, k).
Proof. intros (Hw & Hz & Hk). rewrite line_qubit_linear. destruct u; apply linear_of_chimera; done. Qed.
Lemma lq_number u w z k : frag_number t u w z k = lq u w z k.
Proof. rewrite line_qubit_linear. done. Qed.
Lemma node_step nm u w z k : in_grid u w z k ->
  chimera_node t nm (lq u w z k) = (let! b := mask_bit k in mor nm (cell_index_wz t u w z) b).
Proof. intros H. unfold chimera_node. rewrite lq_coords by done. unfold cell_index_wz. by destruct u. Qed.
Lemma lq_lt_succ u w z k : in_grid u w z k -> lq u w z k < lq u w (S z) k.
Proof. intros (Hw & Hz & Hk). unfold line_qubit, qubit, dim_w, dim_z in *. destruct u; nia. Qed.
Lemma edge_step em u w z k : in_grid u w (S z) k ->
  chimera_edge t em (lq u w z k, lq u w (S z) k) = (let! b := mask_bit k in mor em (cell_index_wz t u w (S z)) b).
Proof.
  intros H. assert (H' : in_grid u w z k) by (unfold in_grid in *; lia). pose proof (lq_lt_succ u w z k H') as Hlt.
  unfold chimera_edge. cbn [fst snd]. destruct (Nat.ltb_spec (lq u w (S z) k) (lq u w z k)); [lia|].
  rewrite !lq_coords by done. unfold cell_index_wz.
  destruct u; cbn [eqb b2n].
  - rewrite (proj2 (Nat.eqb_eq _ _) (eq_refl k)), Nat.sub_diag, Nat.add_0_r, (proj2 (Nat.eqb_eq _ _) (eq_refl w)).
    rewrite (proj2 (Nat.eqb_eq (z + 1) (S z))) by lia. done.
  - rewrite (proj2 (Nat.eqb_eq _ _) (eq_refl k)), Nat.add_0_r, (proj2 (Nat.eqb_eq _ _) (eq_refl w)).
    rewrite (proj2 (Nat.eqb_eq (z + (1 - 0)) (S z))) by lia. done.
Qed.
Lemma bad_step_line bm u w z k : in_grid u w (S z) k -> bad_edge t bm (lq u w z k, lq u w (S z) k) = Ok bm.
Proof.
  intros H. assert (H' : in_grid u w z k) by (unfold in_grid in *; lia). pose proof (lq_lt_succ u w z k H') as Hlt.
  unfold bad_edge. cbn [fst snd]. destruct (Nat.ltb_spec (lq u w (S z) k) (lq u w z k)); [lia|].
  rewrite !lq_coords by done. by destruct u.
Qed.
Lemma cross_lt x y k l : in_grid false x y k -> in_grid true y x l -> lq false x y k < lq true y x l.
Proof. intros (?&?&?) (?&?&?). unfold line_qubit, qubit, dim_w, dim_z in *. nia. Qed.
Lemma edge_step_cross em x y k l : in_grid false x y k -> in_grid true y x l ->
  chimera_edge t em (lq false x y k, lq true y x l) = Ok em.
Proof.
  intros H H'. pose proof (cross_lt x y k l H H'). unfold chimera_edge. cbn [fst snd].
  destruct (Nat.ltb_spec (lq true y x l) (lq false x y k)); [lia|]. by rewrite !lq_coords.
Qed.
Lemma bad_step_cross bm x y k l : in_grid false x y k -> in_grid true y x l ->
  bad_edge t bm (lq false x y k, lq true y x l) =
    (let! bq := mask_bit l in
     let! bm := mclear bm (chimera_linear t y x false k) bq in
     let! bp := mask_bit k in
     mclear bm (chimera_linear t y x true l) bp).
Proof.
  intros H H'. pose proof (cross_lt x y k l H H'). unfold bad_edge. cbn [fst snd].
  destruct (Nat.ltb_spec (lq true y x l) (lq false x y k)); [lia|]. rewrite !lq_coords by done. cbn [negb eqb andb].
  rewrite !(proj2 (Nat.eqb_eq _ _) eq_refl). cbn [andb]. by rewrite !line_qubit_linear.
Qed.
End steps.

Lemma rbind_ok {A B} (r : res A) (f : A -> res B) b : (let! x := r in f x) = Ok b -> exists a, r = Ok a /\ f a = Ok b.
Proof. destruct r; cbn [rbind]; [|done]. intros. by eexists. Qed.

Section frag.
Context (fs : fspec) (D sh nz : nat) (off : bool -> nat -> nat -> nat) (coupler : nat -> nat -> Prop).
Context (St : striped fs D sh nz off coupler).
Notation L := (fs_len fs).
Notation num := (fun u w k j => linemajor_linear u w k j D sh nz).
Notation t := (fs_topo fs).
Notation lq := (line_qubit D sh).

Lemma t_x : dim_x t = D. Proof. by rewrite (st_topo _ _ _ _ _ _ St). Qed.
Lemma t_y : dim_y t = D. Proof. by rewrite (st_topo _ _ _ _ _ _ St). Qed.
Lemma t_s : shore t = sh. Proof. by rewrite (st_topo _ _ _ _ _ _ St). Qed.
Lemma t_w u : dim_w t u = D. Proof. destruct u; [apply t_y|apply t_x]. Qed.
Lemma t_z u : dim_z t u = D. Proof. destruct u; [apply t_x|apply t_y]. Qed.
Lemma grid u w z k : in_grid t u w z k <-> w < D /\ z < D /\ k < sh.
Proof. unfold in_grid. by rewrite t_w, t_z, t_s. Qed.
Lemma lq_t u w z k : line_qubit (dim_x t) (shore t) u w z k = lq u w z k.
Proof. by rewrite t_x, t_s. Qed.
Lemma lq_inj u w z k u' w' z' k' : w < D -> z < D -> k < sh -> w' < D -> z' < D -> k' < sh ->
  lq u w z k = lq u' w' z' k' -> (u, w, z, k) = (u', w', z', k').
Proof.
  intros ? ? ? ? ? ? E. rewrite <- !lq_t in E. apply (line_qubit_inj t) in E; rewrite ?t_w, ?t_z, ?t_s; done.
Qed.

(** the fragments of a qubit, the couplers between them, and what a coupler becomes *)
Definition frags (q : nat) : list nat := let '(u, w, k, z) := fs_first fs q in (fun i => lq u w (z + i) k) <$> seq 0 L.
Definition inner (q : nat) : list (nat * nat) :=
  let '(u, w, k, z) := fs_first fs q in (fun i => (lq u w (z + i) k, lq u w (S (z + i)) k)) <$> seq 0 (L - 1).
Definition efrags (e : nat * nat) : list (nat * nat) :=
  let '(p, q) := norm e in
  let '(pu, pw, pk, pz) := fs_first fs p in
  let '(qu, qw, qk, qz) := fs_first fs q in
  if eqb pu qu then
    if (pk =? qk) then [(lq pu pw (qz - 1) pk, lq pu pw (S (qz - 1)) pk)] else []
  else [(lq false pw qw pk, lq true qw pw qk)].
Definition fnodes (nodes : list nat) : list nat := nodes ≫= frags.
Definition fedges (nodes : list nat) (edges : list (nat * nat)) : list (nat * nat) := (nodes ≫= inner) ++ (edges ≫= efrags).

(** every number below the total is the number of a place *)
Definition total : nat := 2 * D * sh * nz.
Lemma place q : q < total -> exists u w k j, w < D /\ k < sh /\ j < nz /\ q = num u w k j.
Proof.
  intros H. destruct (linear_linemajor q D sh nz) as [[[u w] k] j] eqn:E.
  apply linemajor_of_linear in E as (<- & ? & ? & ?); [|done]. by exists u, w, k, j.
Qed.
Lemma fit u w k j i : w < D -> k < sh -> j < nz -> i < L -> off u w k + L * j + i < D.
Proof. intros Hw Hk Hj Hi. pose proof (st_fit _ _ _ _ _ _ St u w k Hw Hk). nia. Qed.
Lemma frags_num u w k j : w < D -> k < sh -> j < nz ->
  frags (num u w k j) = (fun i => lq u w (off u w k + L * j + i) k) <$> seq 0 L.
Proof. intros. unfold frags. by rewrite (st_first _ _ _ _ _ _ St). Qed.
Lemma inner_num u w k j : w < D -> k < sh -> j < nz ->
  inner (num u w k j) = (fun i => (lq u w (off u w k + L * j + i) k, lq u w (S (off u w k + L * j + i)) k)) <$> seq 0 (L - 1).
Proof. intros. unfold inner. by rewrite (st_first _ _ _ _ _ _ St). Qed.

(** one qubit *)
Lemma frag_node_sim q nm em bm nm' em' bm' : q < total ->
  chimera_nodes t (frags q) nm = Ok nm' -> chimera_edges t (inner q) em = Ok em' -> bad_nodes (frags q) bm = Ok bm' ->
  frag_node fs (nm, em, bm) q = Ok (nm', em', bm').
Proof.
  intros Hq. destruct (place q Hq) as (u & w & k & j & Hw & Hk & Hj & ->). rewrite frags_num, inner_num by done.
  unfold frag_node. rewrite (st_first _ _ _ _ _ _ St) by done.
  set (z := off u w k + L * j).
  assert (Hz : forall i, i < L -> z + i < D) by (intros i Hi; by apply fit). clearbody z.
  assert (HL : L = S (L - 1)) by (pose proof (st_len _ _ _ _ _ _ St); lia).
  assert (Hm : mask_bit k = Ok (N.shiftl 1 (N.of_nat k))) by (apply mask_bit_ok; pose proof (st_sh _ _ _ _ _ _ St); lia).
  rewrite Hm. cbn [rbind]. replace (seq 0 L) with (0 :: seq 1 (L - 1)) by (rewrite HL at 2; done). rewrite !fmap_cons. unfold chimera_nodes, bad_nodes. cbn [foldM].
  rewrite Nat.add_0_r. intros E1 E2 E3.
  apply rbind_ok in E1 as (nm1 & E1 & F1). apply rbind_ok in E3 as (bm1 & E3 & F3).
  rewrite <- (lq_t u w z k), node_step, Hm in E1 by (apply grid; specialize (Hz 0); rewrite Nat.add_0_r in Hz; split_and!; [done|apply Hz; lia|done]).
  cbn [rbind] in E1. rewrite E1. cbn [rbind]. unfold bad_node in E3. rewrite lq_number, lq_t, E3. cbn [rbind].
  clear E1 E3 HL.
  assert (G : forall n s nm1 em bm1, (forall i, i ∈ seq s n -> 1 <= i < L) ->
    chimera_edges t ((fun i => (lq u w (z + i) k, lq u w (S (z + i)) k)) <$> seq (s - 1) n) em = Ok em' ->
    foldM (chimera_node t) ((fun i => lq u w (z + i) k) <$> seq s n) nm1 = Ok nm' ->
    foldM bad_node ((fun i => lq u w (z + i) k) <$> seq s n) bm1 = Ok bm' ->
    foldM (fun '(nm, em, bm) i =>
      let! nm := mor nm (cell_index_wz t u w (z + i)) (N.shiftl 1 (N.of_nat k)) in
      let! em := mor em (cell_index_wz t u w (z + i)) (N.shiftl 1 (N.of_nat k)) in
      let! bm := vset bm (frag_number t u w (z + i) k) 255%N in
      Ok (nm, em, bm)) (seq s n) (nm1, em, bm1) = Ok (nm', em', bm'));
    [|apply G; [intros i Hi%elem_of_seq; lia|done..]].
  clear nm1 em bm1 E2 F1 F3. intros n. induction n as [|n IH]; intros s nm1 em bm1 Hb E2 F1 F3.
  - cbn [seq foldM fmap list_fmap] in *. unfold chimera_edges in E2. cbn in E2. congruence.
  - cbn [seq] in *. rewrite !fmap_cons in *. unfold chimera_edges in E2. cbn [foldM] in *.
    apply rbind_ok in F1 as (nm2 & E1 & F1). apply rbind_ok in F3 as (bm2 & E3 & F3). apply rbind_ok in E2 as (em2 & E2 & F2).
    assert (Hs : 1 <= s < L) by (apply Hb; left).
    assert (HD : z + s < D) by (apply Hz; lia).
    assert (Es : S (z + (s - 1)) = z + s) by lia.
    rewrite <- (lq_t u w (z + s) k), node_step, Hm in E1 by (apply grid; done). cbn [rbind] in E1.
    rewrite <- !lq_t, edge_step, Hm, Es in E2 by (apply grid; rewrite Es; done). cbn [rbind] in E2.
    unfold bad_node in E3.
    rewrite E1. cbn [rbind]. rewrite E2. cbn [rbind]. rewrite lq_number, lq_t, E3. cbn [rbind].
    apply IH; try done.
    + intros i Hi. apply Hb. by right.
    + replace (S s - 1) with (S (s - 1)) by lia. done.
Qed.

Lemma frag_nodes_sim nodes nm em bm nm' em' bm' : (forall q, q ∈ nodes -> q < total) ->
  chimera_nodes t (fnodes nodes) nm = Ok nm' -> chimera_edges t (nodes ≫= inner) em = Ok em' -> bad_nodes (fnodes nodes) bm = Ok bm' ->
  foldM (frag_node fs) nodes (nm, em, bm) = Ok (nm', em', bm').
Proof.
  unfold fnodes. revert nm em bm. induction nodes as [|q nodes IH]; intros nm em bm Hq E1 E2 E3.
  - unfold chimera_nodes, chimera_edges, bad_nodes in *. cbn in *. congruence.
  - change ((q :: nodes) ≫= frags) with (frags q ++ (nodes ≫= frags)) in E1, E3.
    change ((q :: nodes) ≫= inner) with (inner q ++ (nodes ≫= inner)) in E2. unfold chimera_nodes, chimera_edges, bad_nodes in E1, E2, E3. rewrite foldM_app in E1. rewrite foldM_app in E2. rewrite foldM_app in E3.
    apply rbind_ok in E1 as (nm1 & E1 & F1). apply rbind_ok in E2 as (em1 & E2 & F2). apply rbind_ok in E3 as (bm1 & E3 & F3).
    cbn [foldM]. erewrite frag_node_sim; [|apply Hq; left|done..]. cbn [rbind]. apply IH; try done. intros q' Hq'. apply Hq. by right.
Qed.

(** couplers *)
Definition geometric (edges : list (nat * nat)) : Prop := forall p q, (p, q) ∈ edges -> coupler p q \/ coupler q p.

(** the three kinds of couplers, normalised *)
Inductive kind : nat * nat -> Prop :=
  | kind_ext u w k j : w < D -> k < sh -> S j < nz -> kind (num u w k j, num u w k (S j))
  | kind_odd u w k j k' j' : w < D -> k < sh -> k' < sh -> k <> k' -> j < nz -> j' < nz ->
      (forall s, frag_edge fs s (num u w k j, num u w k' j') = Ok s) -> kind (num u w k j, num u w k' j')
  | kind_cross w k j w' k' j' : w < D -> k < sh -> j < nz -> w' < D -> k' < sh -> j' < nz ->
      off false w k + L * j <= w' < off false w k + L * S j -> off true w' k' + L * j' <= w < off true w' k' + L * S j' ->
      kind (num false w k j, num true w' k' j').
Lemma coupler_kind p q : coupler p q -> p < q /\ kind (p, q).
Proof.
  intros [(u & w & k & j & Hw & Hk & Hj & -> & ->)|[(Hlt & (u & w & k & j & k' & j' & Hw & Hk & Hk' & Hne & Hj & Hj' & -> & ->) & Hs)|
    (w & k & j & w' & k' & j' & Hw & Hk & Hj & Hw' & Hk' & Hj' & -> & -> & H1 & H2)]]%(st_coupler _ _ _ _ _ _ St).
  - split; [|by constructor]. unfold linemajor_linear. lia.
  - split; [done|by constructor].
  - split; [by apply snum_dir|by constructor].
Qed.
Lemma edge_kind edges e : geometric edges -> e ∈ edges -> kind (norm e).
Proof.
  intros Hg He. destruct e as [p q]. destruct (Hg p q He) as [[H1 H2]%coupler_kind|[H1 H2]%coupler_kind]; unfold norm; cbn [fst snd].
  - destruct (Nat.ltb_spec q p); [lia|done].
  - destruct (Nat.ltb_spec q p); [done|lia].
Qed.
Lemma efrags_norm e e' : norm e = e' -> efrags e = (let '(p, q) := e' in
  let '(pu, pw, pk, pz) := fs_first fs p in
  let '(qu, qw, qk, qz) := fs_first fs q in
  if eqb pu qu then
    if (pk =? qk) then [(lq pu pw (qz - 1) pk, lq pu pw (S (qz - 1)) pk)] else []
  else [(lq false pw qw pk, lq true qw pw qk)]).
Proof. unfold efrags. by intros ->. Qed.
(** what a coupler becomes *)
Lemma efrags_kind e : kind (norm e) ->
  (exists u w k j, w < D /\ k < sh /\ S j < nz /\ norm e = (num u w k j, num u w k (S j)) /\
     efrags e = [(lq u w (off u w k + L * j + (L - 1)) k, lq u w (S (off u w k + L * j + (L - 1))) k)]) \/
  ((forall s, frag_edge fs s e = Ok s) /\ efrags e = []) \/
  (exists w k j w' k' j', w < D /\ k < sh /\ j < nz /\ w' < D /\ k' < sh /\ j' < nz /\ norm e = (num false w k j, num true w' k' j') /\
     off false w k + L * j <= w' < off false w k + L * S j /\ off true w' k' + L * j' <= w < off true w' k' + L * S j' /\
     efrags e = [(lq false w w' k, lq true w' w k')]).
Proof.
  intros H. pose proof (st_len _ _ _ _ _ _ St) as HL.
  inversion H as [u w k j Hw Hk Hj E|u w k j k' j' Hw Hk Hk' Hne Hj Hj' Hs E|w k j w' k' j' Hw Hk Hj Hw' Hk' Hj' H1 H2 E].
  - left. exists u, w, k, j. split_and!; [done..|]. rewrite (efrags_norm _ _ (eq_sym E)), !(st_first _ _ _ _ _ _ St) by (done || lia).
    rewrite eqb_reflx, Nat.eqb_refl. replace (off u w k + L * S j - 1) with (off u w k + L * j + (L - 1)) by lia. done.
  - right. left. split; [intros s; rewrite frag_edge_norm, <- E; apply Hs|].
    rewrite (efrags_norm _ _ (eq_sym E)), !(st_first _ _ _ _ _ _ St) by (done || lia).
    rewrite eqb_reflx. destruct (Nat.eqb_spec k k'); done.
  - right. right. exists w, k, j, w', k', j'. split_and!; try done; try lia.
    rewrite (efrags_norm _ _ (eq_sym E)), !(st_first _ _ _ _ _ _ St) by (done || lia). done.
Qed.

Lemma frag_edge_sim e em bm em' bm' : kind (norm e) ->
  chimera_edges t (efrags e) em = Ok em' -> bad_edges_pass t (efrags e) bm = Ok bm' -> frag_edge fs (em, bm) e = Ok (em', bm').
Proof.
  intros H. pose proof (st_len _ _ _ _ _ _ St) as HL. unfold chimera_edges, bad_edges_pass.
  destruct (efrags_kind e H) as [(u & w & k & j & Hw & Hk & Hj & E & ->)|[[Hs ->]|(w & k & j & w' & k' & j' & Hw & Hk & Hj & Hw' & Hk' & Hj' & E & H1 & H2 & ->)]].
  - cbn [foldM]. intros E1 E2. apply rbind_ok in E1 as (em1 & E1 & [= ->]). apply rbind_ok in E2 as (bm1 & E2 & [= ->]).
    assert (Hz : S (off u w k + L * j + (L - 1)) = off u w k + L * S j) by lia.
    assert (HD : off u w k + L * S j < D) by (rewrite <- (Nat.add_0_r (_ + _)); apply fit; lia).
    rewrite <- !lq_t, edge_step, Hz in E1 by (apply grid; rewrite Hz; done).
    rewrite <- !lq_t, bad_step_line in E2 by (apply grid; rewrite Hz; done). injection E2 as <-.
    rewrite frag_edge_norm, E, (st_ext _ _ _ _ _ _ St) by done. cbn [fst snd].
    apply rbind_ok in E1 as (b & Eb & E1). rewrite Eb. cbn [rbind]. rewrite E1. done.
  - cbn [foldM]. intros [= <-] [= <-]. apply Hs.
  - cbn [foldM]. intros E1 E2. apply rbind_ok in E1 as (em1 & E1 & [= ->]). apply rbind_ok in E2 as (bm1 & E2 & [= ->]).
    rewrite <- !lq_t, edge_step_cross in E1 by (by apply grid). injection E1 as <-.
    rewrite <- !lq_t, bad_step_cross in E2 by (by apply grid).
    rewrite frag_edge_norm, E, (st_cross _ _ _ _ _ _ St) by done. cbn [fst snd].
    apply rbind_ok in E2 as (b & Eb & E2). rewrite Eb. cbn [rbind].
    apply rbind_ok in E2 as (b' & Eb' & E2). rewrite Eb'. cbn [rbind].
    apply rbind_ok in E2 as (b'' & Eb'' & E2). rewrite Eb''. cbn [rbind]. by rewrite E2.
Qed.
Lemma frag_edges_sim edges em bm em' bm' : geometric edges ->
  chimera_edges t (edges ≫= efrags) em = Ok em' -> bad_edges_pass t (edges ≫= efrags) bm = Ok bm' ->
  foldM (frag_edge fs) edges (em, bm) = Ok (em', bm').
Proof.
  revert em bm. induction edges as [|e edges IH]; intros em bm Hg E1 E2.
  - unfold chimera_edges, bad_edges_pass in *. cbn in *. congruence.
  - change ((e :: edges) ≫= efrags) with (efrags e ++ (edges ≫= efrags)) in E1, E2. unfold chimera_edges, bad_edges_pass in E1, E2. rewrite foldM_app in E1. rewrite foldM_app in E2.
    apply rbind_ok in E1 as (em1 & E1 & F1). apply rbind_ok in E2 as (bm1 & E2 & F2).
    cbn [foldM]. erewrite frag_edge_sim; [|by eapply edge_kind; [exact Hg|left]|done|done]. cbn [rbind].
    apply IH; try done. intros p q Hpq. apply Hg. by right.
Qed.
Lemma bad_inner nodes bm : (forall q, q ∈ nodes -> q < total) -> bad_edges_pass t (nodes ≫= inner) bm = Ok bm.
Proof.
  intros Hq. unfold bad_edges_pass. destruct (foldM_inv (bad_edge t) (fun _ b => b = bm) (nodes ≫= inner) bm) as (b & E & ->); [done| |done].
  intros dn e rest b Hsp ->. assert (He : e ∈ nodes ≫= inner) by (rewrite Hsp; set_solver).
  apply elem_of_list_bind in He as (q & He & Hin). destruct (place q (Hq q Hin)) as (u & w & k & j & Hw & Hk & Hj & ->).
  rewrite inner_num in He by done. apply elem_of_list_fmap in He as (i & -> & Hi%elem_of_seq).
  exists bm. split; [|done]. rewrite <- !lq_t. apply bad_step_line. apply grid. split_and!; try done.
  rewrite <- Nat.add_succ_r. apply fit; lia || done.
Qed.

(** the fragments form a graph *)
Definition lattice (nodes : list nat) (edges : list (nat * nat)) : Prop :=
  (forall q, q ∈ nodes -> q < total) /\ (forall p q, (p, q) ∈ edges -> p ∈ nodes /\ q ∈ nodes) /\ geometric edges.

Lemma frag_member u w z k nodes : (forall q, q ∈ nodes -> q < total) -> w < D -> z < D -> k < sh ->
  lq u w z k ∈ fnodes nodes <-> exists j, j < nz /\ off u w k + L * j <= z < off u w k + L * S j /\ num u w k j ∈ nodes.
Proof.
  intros Hn Hw Hz Hk. unfold fnodes. rewrite elem_of_list_bind. split.
  - intros (q & Hf & Hq). destruct (place q (Hn q Hq)) as (u' & w' & k' & j & Hw' & Hk' & Hj & ->).
    rewrite frags_num in Hf by done. apply elem_of_list_fmap in Hf as (i & E & Hi%elem_of_seq).
    assert (off u' w' k' + L * j + i < D) by (apply fit; done || lia).
    apply lq_inj in E; try done. injection E as -> -> -> ->. exists j. split_and!; [done|lia|lia|done].
  - intros (j & Hj & Hb & Hin). exists (num u w k j). split; [|done]. rewrite frags_num by done. apply elem_of_list_fmap.
    exists (z - (off u w k + L * j)). split; [f_equal; lia|]. apply elem_of_seq. lia.
Qed.

Lemma fgood nodes edges : lattice nodes edges -> good_graph (dim_y t * (dim_x t * 2) * shore t) (fnodes nodes) (fedges nodes edges).
Proof.
  intros (Hn & He & Hg). pose proof (st_len _ _ _ _ _ _ St) as HL. split.
  - intros q Hq. unfold fnodes in Hq. apply elem_of_list_bind in Hq as (q0 & Hf & Hq). destruct (place q0 (Hn q0 Hq)) as (u & w & k & j & Hw & Hk & Hj & ->).
    rewrite frags_num in Hf by done. apply elem_of_list_fmap in Hf as (i & -> & Hi%elem_of_seq).
    assert (off u w k + L * j + i < D) by (apply fit; done || lia).
    rewrite <- lq_t, line_qubit_linear.
    destruct u; (eapply Nat.lt_le_trans; [apply chimera_linear_lt; rewrite ?t_x, ?t_y, ?t_s; done|lia]).
  - intros p q. unfold fedges. rewrite elem_of_app, !elem_of_list_bind. intros [(r & Hf & Hr)|(e & Hf & Hin)].
    + destruct (place r (Hn r Hr)) as (u & w & k & j & Hw & Hk & Hj & ->). rewrite inner_num in Hf by done.
      apply elem_of_list_fmap in Hf as (i & E & Hi%elem_of_seq). injection E as -> ->.
      assert (off u w k + L * j + S i < D) by (apply fit; done || lia).
      split; (apply frag_member; [done|done|lia|done|]); exists j; (split_and!; [done|lia|lia|done]).
    + pose proof (edge_kind edges e Hg Hin) as Hk. destruct e as [a b]. destruct (He a b Hin) as [Ha Hb].
      assert (Hab : forall x y, norm (a, b) = (x, y) -> x ∈ nodes /\ y ∈ nodes).
      { unfold norm. cbn [fst snd]. intros x y. destruct (b <? a); intros [= <- <-]; done. }
      destruct (efrags_kind (a, b) Hk) as [(u & w & k & j & Hw & Hkk & Hj & E & Ef)|[[_ Ef]|(w & k & j & w' & k' & j' & Hw & Hkk & Hj & Hw' & Hk' & Hj' & E & H1 & H2 & Ef)]];
        rewrite Ef in Hf.
      * apply elem_of_list_singleton in Hf. injection Hf as -> ->. destruct (Hab _ _ E) as [Hx Hy].
        assert (off u w k + L * S j + 0 < D) by (apply fit; done || lia).
        split; (apply frag_member; [done|done|lia|done|]); [exists j|exists (S j)]; (split_and!; [lia|lia|lia|done]).
      * by apply elem_of_nil in Hf.
      * apply elem_of_list_singleton in Hf. injection Hf as -> ->. destruct (Hab _ _ E) as [Hx Hy].
        split; [apply (frag_member false w w' k)|apply (frag_member true w' w k')]; try done; [exists j|exists j']; done.
Qed.

(** the tables are those of the graph of fragments *)
Theorem frag_init_sim nodes edges : lattice nodes edges ->
  exists c, frag_init fs nodes edges = Ok c /\ topo_init t (fnodes nodes) (fedges nodes edges) = Ok c.
Proof.
  intros HLt. pose proof (fgood nodes edges HLt) as HG. destruct HLt as (Hn & He & Hg).
  destruct (topo_init_ok t ltac:(rewrite t_s; apply St) (fnodes nodes) (fedges nodes edges) HG) as (c & Ec & _).
  exists c. split; [|done]. unfold topo_init in Ec.
  apply rbind_ok in Ec as (nm & E1 & Ec). apply rbind_ok in Ec as (bm & E2 & Ec).
  apply rbind_ok in Ec as (em & E3 & Ec). apply rbind_ok in Ec as (bm' & E4 & Ec).
  unfold fedges in E3, E4. unfold chimera_edges in E3. unfold bad_edges_pass in E4. rewrite foldM_app in E3. rewrite foldM_app in E4.
  apply rbind_ok in E3 as (em1 & E3 & E3'). apply rbind_ok in E4 as (bm1 & E4 & E4').
  pose proof (bad_inner nodes bm Hn) as E5. unfold bad_edges_pass in E5. rewrite E5 in E4. injection E4 as <-.
  unfold frag_init. erewrite frag_nodes_sim; [|done..]. cbn [rbind]. erewrite frag_edges_sim; [|done..]. cbn [rbind]. done.
Qed.
End frag.
