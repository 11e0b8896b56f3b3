(** Extraction of an embedding from the filled table: a sequence of ells with the best total. *)
From stdpp Require Import base list list_numbers numbers gmap.
From Verif Require Import Base BusModel CliqueModel CoordProofs BitProofs BundleProofs CliqueProofs1 CliqueProofs2.

(** the chains of one ell *)
Definition ell_chains (line : liner) (yc xc y0 y1 x0 x1 : nat) (k0 k1 : list nat) : list (list nat) :=
  zip_with (fun a b => line false xc y0 y1 a ++ line true yc x0 x1 b) k0 k1.

Lemma ell_loop_ok line yc xc y0 y1 x0 x1 fuel k0 k1 emb : byte k0 -> byte k1 -> length (bits k0) < fuel ->
  ell_loop fuel line yc xc y0 y1 x0 x1 k0 k1 emb = Ok (emb ++ ell_chains line yc xc y0 y1 x0 x1 (bits k0) (bits k1)).
Proof.
  revert k0 k1 emb. induction fuel as [|fuel IH]; intros k0 k1 emb B0 B1 HF; [lia|]. cbn [ell_loop].
  destruct (N.eqb_spec k0 0) as [->|N0]; cbn [orb].
  { change (bits 0) with (@nil nat). cbn. by rewrite app_nil_r. }
  destruct (N.eqb_spec k1 0) as [->|N1].
  { change (bits 0) with (@nil nat). unfold ell_chains. by rewrite zip_with_nil_r, app_nil_r. }
  destruct (first_bit_bits k0 B0 N0) as (a & ma & -> & Ma & Ea & Ba & _ & _).
  destruct (first_bit_bits k1 B1 N1) as (b & mb & -> & Mb & Eb & Bb & _ & _).
  cbn [rbind]. rewrite Ma, Mb. cbn [rbind]. rewrite IH; [|done..|].
  2:{ rewrite Ea in HF. simpl in HF. lia. }
  rewrite Ea, Eb. unfold ell_chains. cbn [zip_with]. by rewrite <- app_assoc.
Qed.

(** ** paths of ells *)
Section ex.
Context (t : topo) (width : nat) (lm : list N) (check : nat -> nat -> nat -> nat -> nat -> nat -> bool) (line : liner).
Context (Hw2 : 2 <= width) (Hwy : width <= dim_y t) (Hwx : width <= dim_x t).
Context (Hlm : length lm = line_mask_size t) (Hby : bytes lm).

Notation rows := (rows t).
Notation cols := (cols t width).
Notation header := (header t width).
Notation lmask := (lmask t lm).
Notation wd := (wd width).
Notation chk := (chk width check).
Notation gain := (gain t width lm check).
Notation valid := (valid t width).
Notation ent := (ent t width).
Notation val := (val t width lm check).
Notation filled := (filled t width lm check).

(** the chains of the ell of an event *)
Definition echains (i y x0 : nat) (c : corner) : list (list nat) :=
  if chk i y x0 c then
    ell_chains line (yc i y c) (xc (wd i) x0 c) y (y + i) x0 (x0 + wd i)
      (bits (lmask false (xc (wd i) x0 c) y (y + i))) (bits (lmask true (yc i y c) x0 (x0 + wd i)))
  else [].

Lemma echains_length i y x0 c : length (echains i y x0 c) = gain i y x0 c.
Proof. unfold echains, gain. destruct (chk i y x0 c); [|done]. unfold ell_chains. by rewrite zip_with_length. Qed.

(** an event: level, top row, left column, corner *)
Notation event := (nat * nat * nat * corner)%type.
Fixpoint path (i y X : nat) (L : list event) : Prop :=
  exists x0 c L', L = (i, y, x0, c) :: L' /\ valid i y x0 c /\ X = tx x0 c /\
    match i with 0 => L' = [] | S j => path j (ty y c) x0 L' end.

Definition total (L : list event) : nat := sum_list_with (fun '(i, y, x0, c) => gain i y x0 c) L.
Definition pchains (L : list event) : list (list nat) := concat (map (fun '(i, y, x0, c) => echains i y x0 c) L).

Lemma pchains_length L : length (pchains L) = total L.
Proof.
  induction L as [|[[[i y] x0] c] L IH]; [done|]. unfold pchains, total in *. cbn [map concat sum_list_with].
  rewrite app_length, IH, echains_length. done.
Qed.

(** every path is worth at most what the table says *)
Lemma path_le n mem i y X L : filled n mem -> i < n -> n <= width -> path i y X L -> (N.of_nat (total L) <= entry_score (ent mem i y X))%N.
Proof.
  intros (Hh & Hs & _) Hi Hn. revert y X L. induction i as [|i IH]; intros y X L (x0 & c & L' & -> & V & -> & HL).
  - subst L'. unfold total. cbn [sum_list_with]. rewrite Nat.add_0_r.
    destruct (valid_target t width Hw2 Hwy Hwx 0 y x0 c ltac:(lia) V) as [Ty Tx].
    destruct (Hs 0 Hi y (tx x0 c) Ty Tx) as (A & _). destruct (A x0 c V eq_refl) as [A' _]. unfold val, pv in A'. lia.
  - destruct (valid_target t width Hw2 Hwy Hwx (S i) y x0 c ltac:(lia) V) as [Ty Tx].
    specialize (IH ltac:(lia) _ _ _ HL).
    destruct (Hs (S i) Hi y (tx x0 c) Ty Tx) as (A & _). destruct (A x0 c V eq_refl) as [A' _]. unfold val, pv in A'.
    unfold total in *. cbn [sum_list_with]. lia.
Qed.


Lemma inflate_ok mem i y X emb : filled width mem -> i < width -> y < rows i -> X < cols i -> entry_corners (ent mem i y X) <> 0%N ->
  exists x0 c c0, valid i y x0 c /\ X = tx x0 c /\ val mem i y x0 c = entry_score (ent mem i y X) /\
    inflate_first_ell t line lm emb y X i (wd i) (entry_corners (ent mem i y X)) =
      Ok (c0, emb ++ echains i y x0 c, ty y c, x0).
Proof.
  intros (Hh & Hs & _) Hi Hy HX Hne. destruct (Hs i Hi y X Hy HX) as (_ & B & _).
  destruct (first_bit_bits _ (corners_byte _) Hne) as (b & m & Eb & _ & Ebits & _).
  destruct (B b) as (x0 & c & V & -> & Ev & Ebx). { rewrite Ebits. left. }
  exists x0, c. eexists. split_and!; [done|done|done|].
  unfold inflate_first_ell. rewrite Eb. cbn [rbind]. clear Eb Ebits B Ev.
  destruct V as (Vy & Vx & Vc).
  assert (HE : forall e, chk i y x0 c = true ->
    ell_inflate t line lm (yc i y c) (xc (wd i) x0 c) y (y + i) x0 (x0 + wd i) e = Ok (e ++ echains i y x0 c)).
  { intros e Hc. unfold ell_inflate, echains. rewrite Hc.
    destruct (get_line_ok t lm Hlm Hby false (xc (wd i) x0 c) y (y + i)) as [-> B0];
      [unfold xc, dim_w; destruct (isW c); lia|lia|done|]. cbn [rbind].
    destruct (get_line_ok t lm Hlm Hby true (yc i y c) x0 (x0 + wd i)) as [-> B1];
      [unfold yc, dim_w; destruct (isN c); lia|lia|done|]. cbn [rbind].
    apply ell_loop_ok; [done..|]. pose proof (bits_length (lmask false (xc (wd i) x0 c) y (y + i))). lia. }
  assert (HS : chk i y x0 c = false -> echains i y x0 c = []).
  { intros Hc. unfold echains. by rewrite Hc. }
  subst b. destruct (chk i y x0 c); cbn [negb].
  - specialize (HE emb eq_refl). destruct c; cbn [bix Nat.add]; unfold tx, ty, yc, xc in *; cbn [isN isW] in *; rewrite HE; cbn [rbind]; rewrite ?Nat.add_1_r; done.
  - rewrite HS, app_nil_r by done. destruct c; cbn [bix Nat.add]; unfold tx, ty; cbn [isN isW]; rewrite ?Nat.add_1_r; done.
Qed.

Lemma corners_of_valid mem i y x0 c : filled width mem -> i < width -> valid i y x0 c ->
  entry_corners (ent mem i y (tx x0 c)) <> 0%N.
Proof.
  intros (Hh & Hs & _) Hi V. destruct (valid_target t width Hw2 Hwy Hwx i y x0 c Hi V) as [Ty Tx].
  destruct (Hs i Hi y (tx x0 c) Ty Tx) as (A & _). by apply (A x0 c V).
Qed.

Definition ext_body (mem : list N) '(emb, by_, bx, bc) (i : nat) : res (list (list nat) * nat * nat * N) :=
  let! r := inflate_first_ell t line lm emb by_ bx (i + 1) (width - 2 - i) bc in
  let '(_, emb, by_, bx) := r in
  let! lv := level t width mem i in
  let! e := lv_get mem lv by_ bx in
  Ok (emb, by_, bx, entry_corners e).

Lemma extract_path mem n y X emb : filled width mem -> n < width -> y < rows n -> X < cols n -> entry_corners (ent mem n y X) <> 0%N ->
  exists L, path n y X L /\ N.of_nat (total L) = entry_score (ent mem n y X) /\
    (let! s := foldM (ext_body mem) (rev (seq 0 n)) (emb, y, X, entry_corners (ent mem n y X)) in
     let '(emb, by_, bx, bc) := s in
     let! r := inflate_first_ell t line lm emb by_ bx 0 (width - 1) bc in
     Ok (Some r.1.1.2)) = Ok (Some (emb ++ pchains L)).
Proof.
  intros HF. revert y X emb. induction n as [|n IH]; intros y X emb Hn Hy HX Hne.
  - cbn [seq rev foldM rbind]. destruct (inflate_ok mem 0 y X emb HF Hn Hy HX Hne) as (x0 & c & c0 & V & -> & Ev & Ei).
    unfold wd in Ei. rewrite Nat.sub_0_r in Ei. rewrite Ei. cbn [rbind fst snd].
    exists [(0, y, x0, c)]. split_and!.
    + exists x0, c, []. done.
    + unfold total. cbn [sum_list_with]. unfold val, pv in Ev. lia.
    + unfold pchains. cbn [map concat]. by rewrite app_nil_r.
  - rewrite seq_S, rev_app_distr. cbn [rev app Nat.add]. cbn [foldM].
    unfold ext_body at 1.
    destruct (inflate_ok mem (S n) y X emb HF Hn Hy HX Hne) as (x0 & c & c0 & V & -> & Ev & Ei).
    rewrite Nat.add_1_r. replace (width - 2 - n) with (wd (S n)) by (unfold wd; lia). rewrite Ei. cbn [rbind].
    rewrite level_ok by (try apply HF; try done; lia). cbn [rbind].
    destruct (valid_prev t width Hw2 Hwy Hwx n y x0 c Hn V) as [Py Px].
    rewrite (lv_get_ok t width mem n (ty y c) x0 (ent mem n (ty y c) x0)) by (apply ent_get; try done; [apply HF|lia]).
    cbn [rbind].
    destruct (IH (ty y c) x0 (emb ++ echains (S n) y x0 c)) as (L & HP & HT & HE); [lia|done..| |].
    { destruct (valid_next t width Hw2 Hwy Hwx n y x0 c Hn V) as (x' & c' & V' & ->). apply corners_of_valid; [done|lia|done]. }
    exists ((S n, y, x0, c) :: L). split_and!.
    + exists x0, c, L. done.
    + unfold total in *. cbn [sum_list_with]. unfold val, pv in Ev. lia.
    + rewrite HE. unfold pchains. cbn [map concat]. by rewrite <- app_assoc.
Qed.

Lemma best_entry_ok mem : filled width mem ->
  exists bs by_ bx, best_entry mem (rows (width - 1), cols (width - 1), off t width (width - 1)) = Ok (bs, by_, bx) /\
    (bs = 0%N \/ (by_ < rows (width - 1) /\ bx < cols (width - 1) /\ entry_score (ent mem (width - 1) by_ bx) = bs)) /\
    forall y x, y < rows (width - 1) -> x < cols (width - 1) -> (entry_score (ent mem (width - 1) y x) <= bs)%N.
Proof.
  intros HF. unfold best_entry.
  set (R := rows (width - 1)). set (C := cols (width - 1)).
  assert (Hin : forall y x, y < R -> x < C -> lv_get mem (R, C, off t width (width - 1)) y x = Ok (ent mem (width - 1) y x)).
  { intros y x Hy Hx. apply lv_get_ok. apply ent_get; try done; [apply HF|lia]. }
  pose (good := fun b : N * nat * nat => b.1.1 = 0%N \/ (b.1.2 < R /\ b.2 < C /\ entry_score (ent mem (width - 1) b.1.2 b.2) = b.1.1)).
  match goal with |- context [foldM ?F ?l ?a] =>
    destruct (foldM_inv F (fun dn b => good b /\ forall y x, y ∈ dn -> x < C -> (entry_score (ent mem (width - 1) y x) <= b.1.1)%N) l a) as ([[bs by_] bx] & E & HG & HM) end.
  - split; [by left|]. by intros y x ?%elem_of_nil.
  - intros dny y rest b Hsp [HG HM].
    assert (Ly : y < R).
    { assert (E : y ∈ seq 0 R) by (rewrite Hsp; set_solver). apply elem_of_seq in E. lia. }
    match goal with |- exists zz, foldM ?F ?l ?a = _ /\ _ =>
      destruct (foldM_inv F (fun dn b => good b /\ (forall y x, y ∈ dny -> x < C -> (entry_score (ent mem (width - 1) y x) <= b.1.1)%N) /\
        forall x, x ∈ dn -> (entry_score (ent mem (width - 1) y x) <= b.1.1)%N) l a) as (b' & E & HG' & HM' & HN) end.
    + split_and!; try done. by intros x ?%elem_of_nil.
    + clear b HG HM. intros dnx x restx [[bs by_] bx] Hspx (HG & HM & HN).
      assert (Lx : x < C).
      { assert (E : x ∈ seq 0 C) by (rewrite Hspx; set_solver). apply elem_of_seq in E. lia. }
      rewrite Hin by done. cbn [rbind]. eexists. split; [done|]. cbn [fst snd] in *.
      destruct (N.ltb_spec bs (entry_score (ent mem (width - 1) y x))); cbn [fst snd].
      * split_and!.
        -- right. done.
        -- intros y' x' Hy' Hx'. specialize (HM y' x' Hy' Hx'). lia.
        -- intros x' [Hx'| ->%elem_of_list_singleton]%elem_of_app; [specialize (HN x' Hx')|]; lia.
      * split_and!; [done|done|]. intros x' [Hx'| ->%elem_of_list_singleton]%elem_of_app; [by apply HN|done].
    + exists b'. split; [exact E|]. split; [done|]. intros y' x' [Hy'| ->%elem_of_list_singleton]%elem_of_app Hx'; [by apply HM'|].
      apply HN. apply elem_of_seq. lia.
  - exists bs, by_, bx. split; [exact E|]. split; [exact HG|]. intros y x Hy Hx. apply (HM y x); [|done]. apply elem_of_seq. lia.
Qed.

(** The whole extraction. *)
Lemma extract_ok mem : filled width mem ->
  exists r, extract_solution t line lm width mem = Ok r /\
    (forall y X L, path (width - 1) y X L -> match r with None => total L = 0 | Some emb => total L <= length emb end) /\
    (forall emb, r = Some emb -> exists y X L, path (width - 1) y X L /\ emb = pchains L /\ 0 < length emb).
Proof.
  intros HF. unfold extract_solution. destruct (Nat.eqb_spec width 0); [lia|].
  rewrite level_ok by (try apply HF; try done; lia). cbn [rbind].
  destruct (best_entry_ok mem HF) as (bs & by_ & bx & -> & Hb & Hmax). cbn [rbind].
  assert (Hle : forall y X L, path (width - 1) y X L -> (N.of_nat (total L) <= bs)%N).
  { intros y X L HP. pose proof (path_le width mem (width - 1) y X L HF ltac:(lia) ltac:(lia) HP).
    assert (y < rows (width - 1) /\ X < cols (width - 1)).
    { destruct (width - 1) as [|j] eqn:E; [lia|]. destruct HP as (x0 & c & L' & _ & V & -> & _).
      apply (valid_target t width Hw2 Hwy Hwx (S j) y x0 c ltac:(lia) V). }
    pose proof (Hmax y X ltac:(tauto) ltac:(tauto)). lia. }
  destruct (N.eqb_spec bs 0) as [->|Hne].
  - eexists. split; [done|]. split; [|done]. intros y X L HP. specialize (Hle y X L HP). lia.
  - destruct Hb as [->|(Hy & Hx & Hs)]; [done|].
    rewrite (lv_get_ok t width mem (width - 1) by_ bx (ent mem (width - 1) by_ bx)) by (apply ent_get; try done; [apply HF|lia]).
    cbn [rbind].
    destruct (extract_path mem (width - 1) by_ bx [] HF) as (L & HP & HT & HE); [lia|done..| |].
    { destruct HF as (_ & Hsp & _). destruct (Hsp (width - 1) ltac:(lia) by_ bx Hy Hx) as (_ & _ & C).
      intros E0. specialize (C E0). rewrite C in Hs. by subst bs. }
    eexists. split; [exact HE|]. simpl app. split.
    + intros y X L' HP'. specialize (Hle y X L' HP'). rewrite pchains_length. lia.
    + intros emb [= <-]. exists by_, bx, L. split_and!; [done|done|]. rewrite pchains_length. lia.
Qed.
End ex.
