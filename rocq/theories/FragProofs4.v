(** All masks, and the search for a clique of a given size, on a graph cut into fragments. *)
From stdpp Require Import base list list_numbers numbers gmap relations.
From Verif Require Import Base BusModel CliqueModel FragModel SpecBus CoordProofs BitProofs BundleProofs MaskProofs MaskProofs2 TopoProofs BusTop
  CliqueProofs1 CliqueProofs2 CliqueProofs3 CliqueProofs4 CliqueProofs5 CliqueProofs6 CliqueProofs7 CliqueTop FragProofs1 FragProofs2 FragProofs3.

Lemma kept_length embs new : length (keep_bigger embs new) = length embs `max` length new.
Proof.
  revert embs. induction new as [|e new IH]; intros embs; simpl; [lia|]. destruct embs as [|o embs]; simpl; rewrite IH; simpl; lia.
Qed.

Section masks.
Context (fs : fspec) (D sh nz : nat) (off : bool -> nat -> nat -> nat) (coupler : nat -> nat -> Prop).
Context (St : striped fs D sh nz off coupler).
Context (nodes : list nat) (edges : list (nat * nat)) (HLt : lattice D sh nz coupler nodes edges).
Notation t := (fs_topo fs).
Notation fn := (fnodes fs D sh nodes).
Notation fe := (fedges fs D sh nodes edges).
Notation rem := (removed t fn fe).

Lemma rshore : shore t <= 8.
Proof. rewrite (t_s _ _ _ _ _ _ St). apply St. Qed.
Lemma rgood : good_graph (dim_y t * (dim_x t * 2) * shore t) fn fe.
Proof. exact (fgood _ _ _ _ _ _ St nodes edges HLt). Qed.
Lemma rready cells R : rem cells R -> exists lm, compute_line_masks t cells = Ok lm /\ ready t (without R fn) (edges_without R fe) lm.
Proof. apply removed_ready, rgood. Qed.

(** the real run of masks is the run on the graph of fragments *)
Lemma frag_masks bound shuf coin : (forall i l, shuf i l ≡ₚ l) -> (1 <= bound)%N ->
  exists c, frag_init fs nodes edges = Ok c /\
  forall bad, bad ≡ₚ tc_bad c -> exists n, forall fuel, n <= fuel ->
  exists masks, mask_run fuel c bound shuf coin 0 (mkTS 0 bad ([], [])) = Ok masks /\ masks <> [] /\
    Forall (fun cells => exists R, rem cells R) masks.
Proof.
  intros Hp Hb. destruct (frag_init_sim _ _ _ _ _ _ St nodes edges HLt) as (c & Ec & Et).
  destruct (run_masks t fn fe bound shuf coin rshore) as (c' & Ec' & H); [rewrite nqubits_t; apply rgood|done|done|].
  rewrite Et in Ec'. injection Ec' as <-. exists c. by split.
Qed.

Lemma good_clique_at i e : good_at nodes edges i e -> clique_embedding nodes edges e.
Proof. by intros [H _]. Qed.

Lemma frag_best_run ys bound minw masks emb_1 : 2 <= bound ->
  (forall cells R, rem cells R -> exists y, ys cells = Ok y /\ good_slots nodes edges bound y /\ peel_holds fs D sh nodes edges R minw y.2) ->
  Forall (fun cells => exists R, rem cells R) masks -> masks <> [] ->
  clique_embedding nodes edges emb_1 -> (forall ch, ch ∈ emb_1 -> length ch = 1) ->
  exists embs, frag_best_cliques ys masks emb_1 = Ok embs /\ length embs = bound /\ embs !! 1 = Some emb_1 /\
    (forall i emb, embs !! i = Some emb -> i <> 1 -> good_at nodes edges i emb) /\
    (forall cells R, cells ∈ masks -> rem cells R -> peel_holds fs D sh nodes edges R minw embs).
Proof.
  intros Hb Hys HM Hne H1 H1l. unfold frag_best_cliques.
  match goal with |- context [foldM ?F ?l ?a] =>
    destruct (foldM_inv F (fun dn embs =>
      length embs = (if decide (dn = []) then 2 else bound) /\ embs !! 1 = Some emb_1 /\
      (forall i emb, embs !! i = Some emb -> i <> 1 -> good_at nodes edges i emb) /\
      (forall cells R, cells ∈ dn -> rem cells R -> peel_holds fs D sh nodes edges R minw embs)) l a) as (embs & E & HI) end.
  - rewrite decide_True by done. split_and!; [done|done| |].
    + intros i emb Hi H. destruct i as [|[|i]]; [|done|done]; injection Hi as <-.
      split_and!; [apply empty_clique|by intros ? ?%elem_of_nil|by left].
    + by intros cells R ?%elem_of_nil.
  - intros dn cells rest embs Hsp (HL & He1 & Hv & Hh).
    rewrite Forall_forall in HM. destruct (HM cells) as [R HR]; [rewrite Hsp; set_solver|].
    destruct (Hys cells R HR) as (y & Ey & (G1 & G2 & G3) & HP). rewrite Ey. cbn [rbind]. eexists. split; [done|].
    assert (Hy1 : y.2 !! 1 = Some []).
    { destruct (lookup_lt_is_Some_2 y.2 1) as [e Ee]; [lia|]. destruct (G3 1 e Ee) as [_ (_ & Hlen & _)]. rewrite Ee.
      destruct e as [|ch e]; [done|]. specialize (Hlen ch ltac:(left)). lia. }
    assert (Hgrow : grows embs (keep_bigger embs y.2)).
    { intros i e Hi. rewrite keep_bigger_lookup, Hi. destruct (y.2 !! i) as [e'|]; [|by exists e].
      eexists. split; [done|]. destruct (Nat.ltb_spec (length e) (length e')); lia. }
    assert (Hgrow2 : grows y.2 (keep_bigger embs y.2)).
    { intros i e Hi. rewrite keep_bigger_lookup, Hi. destruct (embs !! i) as [e'|].
      - eexists. split; [done|]. destruct (Nat.ltb_spec (length e') (length e)); lia.
      - eexists. split; [done|]. destruct (Nat.ltb_spec 0 (length e)); simpl; lia. }
    split_and!.
    + rewrite kept_length, HL, G2. rewrite (decide_False (P := dn ++ [cells] = [])) by (by destruct dn). destruct (decide (dn = [])); lia.
    + rewrite keep_bigger_lookup, He1, Hy1. simpl. by destruct (Nat.ltb_spec (length emb_1) 0); [lia|].
    + intros i emb Hi Hne1. rewrite keep_bigger_lookup in Hi. destruct (embs !! i) as [o|] eqn:Eo, (y.2 !! i) as [e|] eqn:Ee; [| | |done]; injection Hi as <-.
      * destruct (length o <? length e); [by apply G3|by apply Hv].
      * by apply Hv.
      * destruct (0 <? length e); [by apply G3|]. split_and!; [apply empty_clique|by intros ? ?%elem_of_nil|by left].
    + intros cells' R' Hin HR' w Ls n Hw HLs Hn. apply elem_of_app in Hin as [Hin| ->%elem_of_list_singleton].
      * eapply grows_holds; [exact Hgrow|]. by eapply (Hh cells' R').
      * destruct (Hys cells R' HR') as (y' & Ey' & _ & HP'). rewrite Ey in Ey'. injection Ey' as <-.
        eapply grows_holds; [exact Hgrow2|]. by eapply HP'.
  - exists embs. destruct HI as (HL & He1 & Hv & Hh). rewrite decide_False in HL by done. split_and!; done.
Qed.

(** ** the size-th shortest chain *)
Lemma get_sol_ok emb size : 1 <= size -> exists r, get_sol emb size = Ok r /\
  match r with
  | None => match emb with Some e => length e | None => 0 end < size
  | Some (l, e) => exists e0 c, emb = Some e0 /\ e ≡ₚ e0 /\ size <= length e /\ c ∈ e0 /\ l = length c
  end.
Proof.
  intros Hs. unfold get_sol. destruct emb as [e|].
  - destruct (Nat.leb_spec size (length e)) as [Hle|Hlt].
    + destruct (Nat.eqb_spec size 0); [lia|]. cbv zeta.
      destruct (lookup_lt_is_Some_2 (sort_len e) (size - 1)) as [c Ec]; [rewrite (Permutation_length (sort_len_perm e)); lia|].
      rewrite (vget_ok _ _ _ Ec). cbn [rbind]. eexists. split; [done|]. cbv beta iota. exists e, c. split_and!; [done|apply sort_len_perm| | |done].
      * by rewrite (Permutation_length (sort_len_perm e)).
      * rewrite <- sort_len_perm. by eapply elem_of_list_lookup_2.
    + eexists. split; [done|]. done.
  - eexists. split; [done|]. cbv beta iota. lia.
Qed.

Definition none_big (size : nat) (R : list nat) : Prop := forall w Ls n, w <= D -> peeling D D w Ls ->
  capacity D sh (without R fn) (edges_without R fe) Ls n -> n < size.
Lemma narrow w Ls n size R : w * sh < size -> peeling D D w Ls -> capacity D sh (without R fn) (edges_without R fe) Ls n -> n < size.
Proof.
  intros Hw (HL & _) (l & H & ->). rewrite <- HL in Hw. clear HL. eapply Nat.le_lt_trans; [|exact Hw]. clear Hw.
  induction H as [|e c L l Hc H IH]; simpl; [lia|].
  destruct Hc as (a & b & (k & N & <- & Hk) & _ & ->).
  assert (length k <= sh); [|lia]. rewrite <- (seq_length sh 0). apply submseteq_length, NoDup_submseteq; [done|].
  intros x Hx. apply Hk in Hx as [? _]. apply elem_of_seq. lia.
Qed.
End masks.

(** ** Zephyr *)
Section zephyr.
Context (d tt nz : nat) (off : bool -> nat -> nat -> nat) (coupler : nat -> nat -> Prop).
Notation fs := (zephyr_spec d tt).
Notation D := (2 * d + 1).
Notation sh := (2 * tt).
Context (St : striped fs D sh nz off coupler).
Context (nodes : list nat) (edges : list (nat * nat)) (HLt : lattice D sh nz coupler nodes edges).
Notation t := (zephyr_topo d tt).
Notation fn := (fnodes fs D sh nodes).
Notation fe := (fedges fs D sh nodes edges).
Notation rem := (removed t fn fe).
Notation none_big := (none_big fs D sh nodes edges).

Lemma zephyr_yields_ok cells R : rem cells R ->
  exists y, zephyr_yields d tt cells = Ok y /\ good_slots nodes edges (4 + d) y /\ peel_holds fs D sh nodes edges R 1 y.2.
Proof.
  intros HR. destruct (rready _ _ _ _ _ _ St _ _ HLt cells R HR) as (lm & E & Hrd). unfold zephyr_yields, yield_cache.
  change (fs_topo fs) with t in E. rewrite E. cbn [rbind].
  destruct (zephyr_like _ _ _ _ _ _ St _ _ HLt R lm Hrd (4 + d)) as (ys & Ey & HG & HP); [lia| |by exists ys].
  intros w Hw. unfold long. cbn [fs_len zephyr_spec]. change (2 * (2 - 1)) with 2.
  assert ((w - 1 + 2) / 2 < d + 2); [|lia]. apply Nat.div_lt_upper_bound; lia.
Qed.

Context (size : nat) (Hsize : sh < size) (Hsh1 : 1 <= tt).
Lemma zephyr_minw w : w < (size + sh - 1) / sh -> w * sh < size.
Proof.
  intros Hw. pose proof (Nat.mul_div_le (size + sh - 1) sh ltac:(lia)) as Hm.
  assert (S w * sh <= size + sh - 1); [|lia]. etrans; [|exact Hm]. rewrite Nat.mul_comm. apply Nat.mul_le_mono_l. lia.
Qed.
Lemma zephyr_nice_ok fuel cells R maxlen emb0 : rem cells R -> (forall l, maxlen = Some l -> 2 <= l) ->
  exists found emb ml, zephyr_find_nice fuel d tt cells size maxlen emb0 = Ok (found, emb, ml) /\
    if found : bool then clique_embedding nodes edges emb /\ size <= length emb /\ exists l, ml = Some l /\ 2 <= l
    else emb = emb0 /\ ml = maxlen /\ (maxlen = None -> forall R', rem cells R' -> none_big size R').
Proof.
  intros HR Hml. unfold zephyr_find_nice. cbn zeta. change (shore t) with sh. destruct (Nat.leb_spec size sh); [lia|]. cbn [rbind].
  rewrite decide_False. 2:{ intros E. specialize (Hml 1 E). lia. }
  destruct (rready _ _ _ _ _ _ St _ _ HLt cells R HR) as (lm & Elm & Hrd). change (fs_topo fs) with t in Elm. rewrite Elm. cbn [rbind].
  destruct (Nat.eqb_spec sh 0); [lia|]. change (dim_y t) with D. change (dim_x t) with D. rewrite Nat.min_id.
  set (mw := (size + sh - 1) / sh). assert (Hge : 2 <= mw) by (apply Nat.div_le_lower_bound; lia).
  set (mx := match maxlen with None => D | Some l => (2 * l + 1) `min` D end).
  assert (Hmx : mx <= D) by (unfold mx; destruct maxlen; lia).
  match goal with |- context [foldM ?F (seq mw ?n) None] =>
    destruct (foldM_inv F (fun dn r =>
      match r with
      | None => maxlen = None -> forall R', rem cells R' -> forall w Ls k, w < mw + length dn -> peeling D D w Ls ->
          capacity D sh (without R' fn) (edges_without R' fe) Ls k -> k < size
      | Some (l, e) => clique_embedding nodes edges e /\ size <= length e /\ 2 <= l
      end) (seq mw n) None) as (r & E & HI) end.
  - intros _ R' _ w Ls k Hw HL Hc. simpl in Hw. eapply narrow; [|exact HL|exact Hc]. apply zephyr_minw. fold mw. lia.
  - intros dn w rest r Hsp HI. destruct r as [[l e]|]; [by eexists|].
    assert (Hi : w = mw + length dn /\ w <= mx).
    { assert (E : seq mw (S mx - mw) !! length dn = Some w) by (by rewrite Hsp, list_lookup_middle). apply lookup_seq in E. lia. }
    destruct Hi as [Ew Hi].
    destruct (rwidth_ok _ _ _ _ _ _ St _ _ HLt R lm Hrd w ltac:(lia) ltac:(lia) nocheck) as (mem & sol & Em & Es & Hs & Hm).
    change (fs_topo fs) with t in Em, Es. change (fs_line fs) with (zephyr_line d tt) in Es. rewrite Em. cbn [rbind]. rewrite Es. cbn [rbind].
    destruct (get_sol_ok sol size ltac:(lia)) as (s & -> & Hsol). cbn [rbind]. destruct s as [[l e]|].
    + destruct Hsol as (e0 & c & -> & HP & Hsz & Hce & ->). destruct (Hs e0 eq_refl) as (Hc & Hpos & Hfrom).
      destruct (shorter (length c) maxlen) eqn:Esh.
      * eexists. split; [done|]. cbv beta iota. split_and!; [by eapply clique_perm; [symmetry|]|done|].
        by destruct (from_ell_length _ _ _ _ _ _ St _ _ HLt R _ _ _ (Hfrom c Hce)) as [? _].
      * eexists. split; [done|]. intros ->. done.
    + eexists. split; [done|]. intros -> R' HR' w' Ls k Hw' HL Hc. rewrite app_length in Hw'. simpl in Hw'.
      destruct (decide (w' = w)) as [->|]; [|eapply (HI eq_refl R' HR' w'); [lia|done..]].
      destruct (rready _ _ _ _ _ _ St _ _ HLt cells R' HR') as (lm' & Elm' & Hrd'). change (fs_topo fs) with t in Elm'. rewrite Elm in Elm'. injection Elm' as <-.
      destruct (rwidth_ok _ _ _ _ _ _ St _ _ HLt R' lm Hrd' w ltac:(lia) ltac:(lia) nocheck) as (mem' & sol' & Em' & Es' & _ & Hm').
      change (fs_topo fs) with t in Em', Es'. change (fs_line fs) with (zephyr_line d tt) in Es'.
      rewrite Em in Em'. injection Em' as <-. rewrite Es in Es'. injection Es' as <-. specialize (Hm' ltac:(done) Ls k HL Hc). lia.
  - rewrite E. cbn [rbind]. destruct r as [[l e]|].
    + destruct HI as (H1 & H2 & H3). eexists true, e, _. split; [done|]. split_and!; [done|done|]. by exists l.
    + exists false, emb0, maxlen. split; [done|]. split_and!; [done|done|]. intros Hn R' HR' w Ls k Hw HL Hc.
      eapply (HI Hn R' HR' w Ls); [|done|done]. rewrite seq_length. unfold mx. rewrite Hn. lia.
Qed.

Lemma zephyr_find_run fuel masks : Forall (fun cells => exists R, rem cells R) masks ->
  exists b emb, frag_find_clique (zephyr_find_nice fuel d tt) masks size [] = Ok (b, emb) /\
    if b : bool then clique_embedding nodes edges emb /\ size <= length emb
    else emb = [] /\ forall cells R, cells ∈ masks -> rem cells R -> none_big size R.
Proof.
  intros HM. unfold frag_find_clique.
  match goal with |- context [foldM ?F ?l ?a] =>
    destruct (foldM_inv F (fun dn '(emb, tmp, ml) =>
      match ml with
      | None => emb = [] /\ forall cells R, cells ∈ dn -> rem cells R -> none_big size R
      | Some l => 2 <= l /\ clique_embedding nodes edges emb /\ size <= length emb
      end) l a) as ([[emb tmp] ml] & E & HI) end.
  - split; [done|]. by intros cells R ?%elem_of_nil.
  - intros dn cells rest [[emb tmp] ml] Hsp HI. rewrite Forall_forall in HM. destruct (HM cells) as [R HR]; [rewrite Hsp; set_solver|].
    destruct (zephyr_nice_ok fuel cells R ml tmp HR) as (found & emb' & ml' & -> & H).
    { intros l ->. by destruct HI as (? & _). }
    cbn [rbind]. eexists. split; [done|]. cbv beta iota. destruct found.
    + destruct H as (H1 & H2 & l & -> & H3). done.
    + destruct H as (-> & -> & Hsm). destruct ml as [l|]; [done|].
      destruct HI as [-> HI]. split; [done|].
      intros cells' R' [Hin| ->%elem_of_list_singleton]%elem_of_app HR'; [by eapply (HI cells')|]. by apply Hsm.
  - rewrite E. cbn [rbind]. eexists _, _. split; [done|]. destruct ml as [l|].
    + destruct HI as (_ & H1 & H2). destruct (Nat.leb_spec size (length emb)); [done|lia].
    + destruct HI as [-> HI]. destruct (Nat.leb_spec size (length (@nil (list nat)))); [simpl in *; lia|]. done.
Qed.
End zephyr.

(** ** Pegasus *)
Lemma fold_some {A B} (f : option nat * B -> A -> option nat * B) l r : (forall r x, is_Some (f r x).1) -> l <> [] -> is_Some (fold_left f l r).1.
Proof.
  intros Hf. revert r. induction l as [|x l IH]; intros r Hl; [done|]. cbn [fold_left]. destruct l as [|y l]; [apply Hf|by apply IH].
Qed.
Lemma range_some off w : 1 <= w -> exists m, (length_range off w).1 = Some m.
Proof.
  intros Hw. unfold length_range. apply fold_some; [|by destruct w; [lia|]]. intros r i. cbv zeta.
  apply fold_some; [|done]. clear r. intros r y. apply fold_some; [|done]. clear r. intros r x.
  apply fold_some; [|done]. intros [mn mx] len. cbn. by eexists.
Qed.

Section pegasus.
Context (d nz : nat) (offs : bool -> nat -> nat) (off : bool -> nat -> nat -> nat) (coupler : nat -> nat -> Prop).
Notation fs := (pegasus_spec d offs).
Notation D := (6 * d).
Notation sh := 2.
Context (St : striped fs D sh nz off coupler).
Context (nodes : list nat) (edges : list (nat * nat)) (HLt : lattice D sh nz coupler nodes edges).
Notation t := (pegasus_topo d).
Notation fn := (fnodes fs D sh nodes).
Notation fe := (fedges fs D sh nodes edges).
Notation rem := (removed t fn fe).
Notation none_big := (none_big fs D sh nodes edges).

Lemma pegasus_yields_ok cells R : rem cells R ->
  exists y, pegasus_yields d offs cells = Ok y /\ good_slots nodes edges (5 + d) y /\ peel_holds fs D sh nodes edges R 2 y.2.
Proof.
  intros HR. destruct (rready _ _ _ _ _ _ St _ _ HLt cells R HR) as (lm & E & Hrd). unfold pegasus_yields. cbn zeta.
  change (fs_topo fs) with t in E. rewrite E. cbn [rbind].
  destruct (pegasus_like _ _ _ _ _ _ St _ _ HLt R lm Hrd (5 + d) (fun w => lengths (length_range offs w).1 (length_range offs w).2)
    (check_length offs)) as (ys & Ey & HG & HP).
  { intros w Hw. unfold long. cbn [fs_len pegasus_spec]. change (2 * (6 - 1)) with 10.
    assert ((w - 1 + 10) / 6 < d + 3); [|lia]. apply Nat.div_lt_upper_bound; lia. }
  exists ys. split; [|done]. rewrite <- Ey. change (fs_topo fs) with t. change (fs_line fs) with (pegasus_line d offs).
  clear. generalize (replicate (5 + d) 0, replicate (5 + d) (@nil (list nat))). generalize (seq 2 (dim_y t `min` dim_x t - 1)).
  intros l. induction l as [|w l IH]; intros a; [done|]. cbn [foldM]. destruct (length_range offs w) as [mn mx]. cbn [fst snd].
  match goal with |- rbind ?x _ = rbind ?y _ => change y with x; destruct x end; cbn [rbind]; [apply IH|done].
Qed.

Context (size : nat) (Hsize : 3 <= size).
Definition found_so_far (emb : list (list nat)) (ml : option nat) : Prop :=
  match ml with None => emb = [] | Some _ => clique_embedding nodes edges emb /\ size <= length emb end.

Lemma pegasus_width_ok cells R lm w ck : compute_line_masks t cells = Ok lm -> rem cells R -> 2 <= w <= D ->
  exists mem sol r, clique_cache t lm ck w = Ok mem /\ extract_solution t (pegasus_line d offs) lm w mem = Ok sol /\ get_sol sol size = Ok r /\
  match r with
  | Some (l, e) => clique_embedding nodes edges e /\ size <= length e
  | None => (forall a b c d e f, ck a b c d e f = true) -> forall R', rem cells R' -> forall Ls k, peeling D D w Ls ->
      capacity D sh (without R' fn) (edges_without R' fe) Ls k -> k < size
  end.
Proof.
  intros Elm HR Hw. destruct (rready _ _ _ _ _ _ St _ _ HLt cells R HR) as (lm1 & Elm1 & Hrd). change (fs_topo fs) with t in Elm1.
  rewrite Elm in Elm1. injection Elm1 as <-.
  destruct (rwidth_ok _ _ _ _ _ _ St _ _ HLt R lm Hrd w ltac:(lia) ltac:(lia) ck) as (mem & sol & Em & Es & Hs & Hm).
  change (fs_topo fs) with t in Em, Es. change (fs_line fs) with (pegasus_line d offs) in Es.
  destruct (get_sol_ok sol size ltac:(lia)) as (r & Er & Hsol). exists mem, sol, r. split_and!; [done..|].
  destruct r as [[l e]|].
  - destruct Hsol as (e0 & c & -> & HP & Hsz & _). destruct (Hs e0 eq_refl) as (Hc & _). split; [|done]. by eapply clique_perm; [symmetry|].
  - intros Hck R' HR' Ls k HL Hc.
    destruct (rready _ _ _ _ _ _ St _ _ HLt cells R' HR') as (lm' & Elm' & Hrd'). change (fs_topo fs) with t in Elm'. rewrite Elm in Elm'. injection Elm' as <-.
    destruct (rwidth_ok _ _ _ _ _ _ St _ _ HLt R' lm Hrd' w ltac:(lia) ltac:(lia) ck) as (mem' & sol' & Em' & Es' & _ & Hm').
    change (fs_topo fs) with t in Em', Es'. change (fs_line fs) with (pegasus_line d offs) in Es'.
    rewrite Em in Em'. injection Em' as <-. rewrite Es in Es'. injection Es' as <-. specialize (Hm' Hck Ls k HL Hc). lia.
Qed.

Lemma pegasus_try_ok cells R lm w ls emb ml : compute_line_masks t cells = Ok lm -> rem cells R -> 2 <= w <= D ->
  clique_embedding nodes edges emb -> size <= length emb ->
  exists s, foldM (pegasus_try_length t (pegasus_line d offs) offs lm w size) ls (emb, ml) = Ok s /\
    clique_embedding nodes edges s.1 /\ size <= length s.1.
Proof.
  intros Elm HR Hw H1 H2. 
  destruct (foldM_inv (pegasus_try_length t (pegasus_line d offs) offs lm w size)
    (fun _ s => clique_embedding nodes edges s.1 /\ size <= length s.1) ls (emb, ml)) as (s & E & HI); [done| |by exists s].
  intros dn len rest [e m] _ [H3 H4]. unfold pegasus_try_length.
  destruct (pegasus_width_ok cells R lm w (check_length offs len) Elm HR Hw) as (mem & sol & r & Em & Es & Er & Hr).
  rewrite Em. cbn [rbind]. rewrite Es. cbn [rbind]. destruct sol as [tmp|]; [|by eexists]. rewrite Er. cbn [rbind].
  destruct r as [[l e']|]; [|by eexists]. eexists. split; [done|]. cbn [fst]. by destruct (l <? m).
Qed.

Lemma pegasus_widths_ok cells R lm fuel w maxw emb ml : compute_line_masks t cells = Ok lm -> rem cells R ->
  2 <= w -> maxw <= D -> S maxw - w <= fuel -> found_so_far emb ml ->
  exists emb' ml', pegasus_widths fuel t (pegasus_line d offs) offs lm size w maxw emb ml = Ok (emb', ml') /\ found_so_far emb' ml' /\
    (ml' = None -> ml = None /\ forall R', rem cells R' -> forall w' Ls k, w <= w' <= maxw -> peeling D D w' Ls ->
       capacity D sh (without R' fn) (edges_without R' fe) Ls k -> k < size).
Proof.
  intros Elm HR. revert w maxw emb ml. induction fuel as [|fuel IH]; intros w maxw emb ml Hw HD HF HJ; cbn [pegasus_widths].
  - destruct (Nat.ltb_spec maxw w); [|lia]. exists emb, ml. split_and!; [done..|]. intros ->. split; [done|]. intros. lia.
  - destruct (Nat.ltb_spec maxw w).
    { exists emb, ml. split_and!; [done..|]. intros ->. split; [done|]. intros. lia. }
    destruct (range_some offs w ltac:(lia)) as [m Em]. destruct (length_range offs w) as [mn mx]. cbn [fst] in Em. subst mn.
    destruct (shorter m ml) eqn:Esh.
    2:{ exists emb, ml. split_and!; [done..|]. by intros ->. }
    destruct (pegasus_width_ok cells R lm w nocheck Elm HR ltac:(lia)) as (mem & sol & r & Em & Es & Er & Hr).
    rewrite Em. cbn [rbind]. rewrite Es. cbn [rbind]. rewrite Er. cbn [rbind]. destruct r as [[l e]|].
    + cbv zeta. set (emb1 := if shorter l ml then e else emb).
      assert (H1 : clique_embedding nodes edges emb1 /\ size <= length emb1).
      { unfold emb1. destruct (shorter l ml) eqn:El; [done|]. by destruct ml. }
      destruct (pegasus_try_ok cells R lm w (lengths (Some m) (min_len l ml `max` mx)) emb1 (min_len l ml) Elm HR ltac:(lia) ltac:(apply H1) ltac:(apply H1))
        as (s & -> & H2 & H3). cbn [rbind].
      destruct (IH (S w) (maxw `min` (w + 6)) s.1 (Some s.2) ltac:(lia) ltac:(lia) ltac:(lia)) as (emb' & ml' & E & HJ' & HN); [done|].
      exists emb', ml'. split_and!; [done..|]. intros ->. destruct (HN eq_refl) as [? _]. done.
    + destruct (IH (S w) maxw emb ml ltac:(lia) ltac:(lia) ltac:(lia) HJ) as (emb' & ml' & E & HJ' & HN).
      exists emb', ml'. split_and!; [done..|]. intros Hn. destruct (HN Hn) as [Hm Hsm]. split; [done|].
      intros R' HR' w' Ls k Hw' HL Hc. destruct (decide (w' = w)) as [->|]; [by eapply (Hr ltac:(done) R' HR' Ls)|].
      eapply (Hsm R' HR' w' Ls); [lia|done..].
Qed.

Lemma pegasus_nice_ok cells R ml emb : rem cells R -> found_so_far emb ml ->
  exists emb' ml', pegasus_find_nice d offs cells size ml emb = Ok (size <=? length emb', emb', ml') /\ found_so_far emb' ml' /\
    (ml' = None -> ml = None /\ forall R', rem cells R' -> none_big size R').
Proof.
  intros HR HJ. unfold pegasus_find_nice. cbn zeta.
  destruct (rready _ _ _ _ _ _ St _ _ HLt cells R HR) as (lm & Elm & Hrd). change (fs_topo fs) with t in Elm. rewrite Elm. cbn [rbind].
  change (dim_y t) with D. change (dim_x t) with D. rewrite Nat.min_id.
  assert (Hge : 2 <= (size + 1) / 2) by (apply Nat.div_le_lower_bound; lia).
  destruct (pegasus_widths_ok cells R lm (S D) ((size + 1) / 2) D emb ml Elm HR ltac:(lia) ltac:(lia) ltac:(lia) HJ) as (emb' & ml' & -> & HJ' & HN).
  cbn [rbind]. exists emb', ml'. split_and!; [done..|]. intros Hn. destruct (HN Hn) as [Hm Hsm]. split; [done|].
  intros R' HR' w Ls k Hw HL Hc. destruct (decide ((size + 1) / 2 <= w)); [eapply (Hsm R' HR' w); [lia|done..]|].
  eapply narrow; [|exact HL|exact Hc].
  pose proof (Nat.mul_div_le (size + 1) 2 ltac:(lia)). lia.
Qed.

Lemma pegasus_find_run masks : Forall (fun cells => exists R, rem cells R) masks ->
  exists b emb, frag_find_clique (pegasus_find_nice d offs) masks size [] = Ok (b, emb) /\
    if b : bool then clique_embedding nodes edges emb /\ size <= length emb
    else emb = [] /\ forall cells R, cells ∈ masks -> rem cells R -> none_big size R.
Proof.
  intros HM. unfold frag_find_clique.
  match goal with |- context [foldM ?F ?l ?a] =>
    destruct (foldM_inv F (fun dn '(emb, tmp, ml) => emb = tmp /\ found_so_far tmp ml /\
      (ml = None -> forall cells R, cells ∈ dn -> rem cells R -> none_big size R)) l a) as ([[emb tmp] ml] & E & HI) end.
  - split_and!; [done|done|]. by intros _ cells R ?%elem_of_nil.
  - intros dn cells rest [[emb tmp] ml] Hsp (-> & HJ & HI). rewrite Forall_forall in HM. destruct (HM cells) as [R HR]; [rewrite Hsp; set_solver|].
    destruct (pegasus_nice_ok cells R ml tmp HR HJ) as (emb' & ml' & -> & HJ' & HN). cbn [rbind]. eexists. split; [done|]. cbv beta iota.
    split_and!; [|done|].
    + destruct (Nat.leb_spec size (length emb')); [done|]. destruct ml' as [l|]; [destruct HJ'; lia|]. destruct (HN eq_refl) as [-> _].
      cbn in HJ, HJ'. by subst.
    + intros Hn. destruct (HN Hn) as [Hm Hsm]. intros cells' R' [Hin| ->%elem_of_list_singleton]%elem_of_app HR'; [by eapply HI|by apply Hsm].
  - rewrite E. cbn [rbind]. eexists _, _. split; [done|]. destruct HI as (-> & HJ & HI). destruct ml as [l|].
    + destruct HJ as [H1 H2]. destruct (Nat.leb_spec size (length tmp)); [done|lia].
    + cbn in HJ. subst tmp. destruct (Nat.leb_spec size (length (@nil (list nat)))); [simpl in *; lia|]. split; [done|by apply HI].
Qed.
End pegasus.
