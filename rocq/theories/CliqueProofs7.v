(** The best cliques over all masked topologies, and the search for a clique of a given size. *)
From stdpp Require Import base list list_numbers numbers gmap relations.
From Verif Require Import Base BusModel CliqueModel SpecBus CoordProofs BitProofs BundleProofs MaskProofs MaskProofs2 TopoProofs BusTop
  CliqueProofs1 CliqueProofs2 CliqueProofs3 CliqueProofs4 CliqueProofs5 CliqueProofs6.

Section run.
Context (t : topo) (Hsh : shore t <= 8) (nodes : list nat) (edges : list (nat * nat)).
Context (Hg : good_graph (dim_y t * (dim_x t * 2) * shore t) nodes edges).
Context (Hy1 : 1 <= dim_y t) (Hx1 : 1 <= dim_x t).
Notation M := (dim_y t `min` dim_x t).

(** [R] is removed by the mask [cells] *)
Definition removed (cells : list N * list N) (R : list nat) : Prop :=
  (forall a b, is_bad t nodes edges a b -> a ∈ R \/ b ∈ R) /\
  represents t cells.1 cells.2 (without R nodes) (edges_without R edges).

Lemma removed_ready cells R : removed cells R ->
  exists lm, compute_line_masks t cells = Ok lm /\ ready t (without R nodes) (edges_without R edges) lm.
Proof.
  intros [HR Hr]. destruct cells as [nm em]. eapply represents_ready; [exact Hr|by apply good_without|by apply masked_full].
Qed.

Lemma yields_ok cells R : removed cells R ->
  exists ys, chimera_yields t cells = Ok ys /\ length ys.2 = 2 + M /\ ys.2 !! 0 = Some [] /\ ys.2 !! 1 = Some [] /\
    forall w, 1 <= w <= M -> exists e, ys.2 !! S w = Some e /\ best_at t (without R nodes) (edges_without R edges) w e.
Proof.
  intros HR. destruct (removed_ready cells R HR) as (lm & E & Hrd). unfold chimera_yields, yield_cache. rewrite E. cbn [rbind].
  by apply (yield_ok t _ _ lm Hrd).
Qed.

Lemma keep_bigger_lookup embs new i :
  keep_bigger embs new !! i =
    match embs !! i, new !! i with
    | Some o, Some e => Some (if length o <? length e then e else o)
    | Some o, None => Some o
    | None, Some e => Some (if 0 <? length e then e else [])
    | None, None => None
    end.
Proof.
  revert embs i. induction new as [|e new IH]; intros embs i; simpl.
  - by destruct (embs !! i).
  - destruct embs as [|o embs]; destruct i as [|i]; simpl; try done; by rewrite IH, ?lookup_nil.
Qed.

Lemma keep_bigger_length embs new : length (keep_bigger embs new) = length embs `max` length new.
Proof.
  revert embs. induction new as [|e new IH]; intros embs; simpl; [lia|]. destruct embs as [|o embs]; simpl; rewrite IH; simpl; lia.
Qed.

Lemma best_run masks emb_1 : Forall (fun cells => exists R, removed cells R) masks -> masks <> [] ->
  clique_embedding nodes edges emb_1 -> (forall ch, ch ∈ emb_1 -> length ch = 1) ->
  exists embs, best_cliques t masks emb_1 = Ok embs /\ length embs = 2 + M /\ embs !! 1 = Some emb_1 /\
    (forall i emb, embs !! i = Some emb -> clique_embedding nodes edges emb /\ forall ch, ch ∈ emb -> length ch = i) /\
    (forall w, 1 <= w <= M -> exists emb, embs !! S w = Some emb /\
       (emb = [] \/ exists cells R L, cells ∈ masks /\ removed cells R /\ peeling (dim_y t) (dim_x t) w L /\
          capacity (dim_x t) (shore t) (without R nodes) (edges_without R edges) L (length emb)) /\
       (forall cells R L n, cells ∈ masks -> removed cells R -> peeling (dim_y t) (dim_x t) w L ->
          capacity (dim_x t) (shore t) (without R nodes) (edges_without R edges) L n -> n <= length emb)).
Proof.
  intros HM Hne H1 H1l. unfold best_cliques.
  match goal with |- context [foldM ?F ?l ?a] =>
    destruct (foldM_inv F (fun dn embs =>
      length embs = (if decide (dn = []) then 2 else 2 + M) /\ embs !! 1 = Some emb_1 /\
      (forall i emb, embs !! i = Some emb -> clique_embedding nodes edges emb /\ forall ch, ch ∈ emb -> length ch = i) /\
      (forall w emb, 1 <= w <= M -> embs !! S w = Some emb ->
         emb = [] \/ exists cells R L, cells ∈ dn /\ removed cells R /\ peeling (dim_y t) (dim_x t) w L /\
          capacity (dim_x t) (shore t) (without R nodes) (edges_without R edges) L (length emb)) /\
      (forall w cells R L n, 1 <= w <= M -> cells ∈ dn -> removed cells R -> peeling (dim_y t) (dim_x t) w L ->
          capacity (dim_x t) (shore t) (without R nodes) (edges_without R edges) L n ->
          exists emb, embs !! S w = Some emb /\ n <= length emb)) l a) as (embs & E & HI) end.
  - rewrite decide_True by done. split_and!; [done|done| | |].
    + intros i emb Hi. destruct i as [|[|i]]; [| |done]; injection Hi as <-; [|done].
      split; [apply empty_clique|by intros ? ?%elem_of_nil].
    + intros w emb Hw Hi. destruct w as [|w]; [lia|done].
    + by intros w cells R L n _ ?%elem_of_nil.
  - intros dn cells rest embs Hsp (HL & He1 & Hv & Ho & Hb).
    rewrite Forall_forall in HM. destruct (HM cells) as [R HR]; [rewrite Hsp; set_solver|].
    destruct (yields_ok cells R HR) as (ys & Ey & Hyl & Hy0 & Hyy1 & Hyw). rewrite Ey. cbn [rbind]. eexists. split; [done|].
    assert (Hnew : forall i e, ys.2 !! i = Some e -> clique_embedding nodes edges e /\ forall ch, ch ∈ e -> length ch = i).
    { intros i e Hi. destruct i as [|[|w]].
      - rewrite Hy0 in Hi. injection Hi as <-. split; [apply empty_clique|by intros ? ?%elem_of_nil].
      - rewrite Hyy1 in Hi. injection Hi as <-. split; [apply empty_clique|by intros ? ?%elem_of_nil].
      - pose proof (lookup_lt_Some _ _ _ Hi) as Hlt. destruct (Hyw (S w) ltac:(lia)) as (e' & Ee & Hc & Hl & _).
        rewrite Hi in Ee. injection Ee as <-. split; [|done].
        eapply clique_sub; [| |exact Hc]; [intros q; apply without_sub|intros q; apply edges_without_sub]. }
    split_and!.
    + rewrite keep_bigger_length, HL, Hyl. rewrite (decide_False (P := dn ++ [cells] = [])) by (by destruct dn). destruct (decide (dn = [])); lia.
    + rewrite keep_bigger_lookup, He1, Hyy1. simpl. by destruct (Nat.ltb_spec (length emb_1) 0); [lia|].
    + intros i emb. rewrite keep_bigger_lookup. destruct (embs !! i) as [o|] eqn:Eo, (ys.2 !! i) as [e|] eqn:Ee; intros [= <-].
      * destruct (length o <? length e); [by apply Hnew|by apply Hv].
      * by apply Hv.
      * destruct (0 <? length e); [by apply Hnew|]. split; [apply empty_clique|by intros ? ?%elem_of_nil].
    + intros w emb Hw. rewrite keep_bigger_lookup. destruct (Hyw w Hw) as (e & Ee & Hbe). rewrite Ee. intros Hi.
      assert (Hcase : emb = e \/ emb = [] \/ embs !! S w = Some emb).
      { destruct (embs !! S w) as [o|] eqn:Eo; injection Hi as <-; [destruct (length o <? length e)|destruct (0 <? length e)]; tauto. }
      destruct Hcase as [->|[->|Ho']].
      * destruct Hbe as (_ & _ & [->|(L & HL1 & HL2)] & _); [by left|]. right. exists cells, R, L. split_and!; [set_solver|done..].
      * by left.
      * destruct (Ho w emb Hw Ho') as [->|(cells' & R' & L & Hc & Hx)]; [by left|]. right. exists cells', R', L. split; [set_solver|done].
    + intros w cells' R' L n Hw Hin HR' HL' Hn. rewrite keep_bigger_lookup. destruct (Hyw w Hw) as (e & Ee & Hbe). rewrite Ee.
      apply elem_of_app in Hin as [Hin| ->%elem_of_list_singleton].
      * destruct (Hb w cells' R' L n Hw Hin HR' HL' Hn) as (o & -> & Hle). eexists. split; [done|]. destruct (length o <? length e) eqn:Hlt; [|done].
        apply Nat.ltb_lt in Hlt. lia.
      * destruct (yields_ok cells R' HR') as (ys' & Ey' & _ & _ & _ & Hyw'). rewrite Ey in Ey'. injection Ey' as <-.
        destruct (Hyw' w Hw) as (e' & Ee' & _ & _ & _ & Hmax). rewrite Ee in Ee'. injection Ee' as <-.
        specialize (Hmax L n HL' Hn). destruct (embs !! S w) as [o|].
        -- eexists. split; [done|]. destruct (length o <? length e) eqn:Hlt; [lia|]. apply Nat.ltb_ge in Hlt. lia.
        -- eexists. split; [done|]. destruct (0 <? length e) eqn:Hlt; [lia|]. apply Nat.ltb_ge in Hlt. simpl. lia.
  - exists embs. rewrite E. destruct HI as (HL & He1 & Hv & Ho & Hb). rewrite decide_False in HL by done. split_and!; [done..|].
    intros w Hw. destruct (lookup_lt_is_Some_2 embs (S w)) as [emb Ee]; [lia|]. exists emb. split_and!; [done|by apply Ho|].
    intros cells R L n Hin HR HL' Hn. destruct (Hb w cells R L n Hw Hin HR HL' Hn) as (emb' & Ee' & ?). rewrite Ee in Ee'. by injection Ee' as <-.
Qed.

(** ** searching for a clique of a given size *)
Lemma insert_len_perm c l : insert_len c l ≡ₚ c :: l.
Proof.
  induction l as [|d l IH]; [done|]. cbn [insert_len]. destruct (length c <=? length d); [done|]. rewrite IH. by apply perm_swap.
Qed.
Lemma sort_len_perm l : sort_len l ≡ₚ l.
Proof. induction l as [|c l IH]; [done|]. cbn [sort_len foldr]. fold (sort_len l). by rewrite insert_len_perm, IH. Qed.

Lemma clique_perm nd ed emb emb' : emb ≡ₚ emb' -> clique_embedding nd ed emb -> clique_embedding nd ed emb'.
Proof.
  intros HP [H1 H2]. split.
  - intros c Hc. apply H1. by rewrite HP.
  - intros i j c d Hij Hc Hd. apply Permutation_sym in HP. apply Permutation_inj in HP as (Hlen & f & Hf & HP).
    rewrite HP in Hc. rewrite HP in Hd. eapply (H2 (f i) (f j)); [|done..]. intros Hff. apply Hij. by apply Hf.
Qed.

(** no clique of [size] chains of width [w] in the graph without [R] *)
Definition too_small (size w : nat) (R : list nat) : Prop :=
  forall L n, peeling (dim_y t) (dim_x t) w L -> capacity (dim_x t) (shore t) (without R nodes) (edges_without R edges) L n -> n < size.

Lemma count_le P c b : count_of P c -> (forall k, P k -> k < b) -> c <= b.
Proof.
  intros (l & N & <- & H) Hb. rewrite <- (seq_length b 0). apply submseteq_length, NoDup_submseteq; [done|].
  intros k Hk. apply H in Hk. apply elem_of_seq. specialize (Hb k Hk). lia.
Qed.
Lemma capacity_le nd ed L n : capacity (dim_x t) (shore t) nd ed L n -> n <= length L * shore t.
Proof.
  intros (l & H & ->). induction H as [|e c L l Hc H IH]; simpl; [lia|].
  destruct Hc as (a & b & Ha & _ & ->). apply (count_le _ _ (shore t)) in Ha; [|by intros k [? _]]. lia.
Qed.
Lemma narrow_small size w R : w * shore t < size -> too_small size w R.
Proof. intros Hw L n (HL & _) Hn%capacity_le. rewrite HL in Hn. lia. Qed.

Context (size : nat) (Hsize : shore t < size) (Hs1 : 1 <= shore t).

Definition minw : nat := (size + shore t - 1) / shore t.
Lemma minw_ge : 2 <= minw.
Proof. unfold minw. apply Nat.div_le_lower_bound; lia. Qed.
Lemma minw_small w R : w < minw -> too_small size w R.
Proof.
  intros Hw. apply narrow_small. unfold minw in Hw.
  pose proof (Nat.mul_div_le (size + shore t - 1) (shore t) ltac:(lia)) as Hm.
  assert (S w * shore t <= size + shore t - 1).
  { etrans; [|exact Hm]. rewrite Nat.mul_comm. apply Nat.mul_le_mono_l. lia. }
  lia.
Qed.

(** what one masked topology gives; [lim] is one more than the largest useful width *)
Lemma nice_ok fuel cells R maxlen emb0 : removed cells R -> (forall l, maxlen = Some l -> 2 < l) ->
  let lim := match maxlen with None => S M | Some l => (l - 1) `min` S M end in
  exists found emb ml, find_clique_nice fuel t cells size maxlen emb0 = Ok (found, emb, ml) /\
    if found : bool then exists w, 2 <= w < lim /\ ml = Some (S w) /\ clique_embedding nodes edges emb /\ size <= length emb /\
        (forall ch, ch ∈ emb -> length ch = S w) /\ (forall w', w' < w -> forall R', removed cells R' -> too_small size w' R')
    else emb = emb0 /\ ml = maxlen /\ (forall w', w' < lim -> forall R', removed cells R' -> too_small size w' R').
Proof.
  intros HR Hml lim. unfold find_clique_nice. destruct (Nat.leb_spec size (shore t)); [lia|]. cbn [rbind].
  rewrite decide_False. 2:{ intros E. specialize (Hml 1 E). lia. }
  destruct (removed_ready cells R HR) as (lm & Elm & Hrd). rewrite Elm. cbn [rbind].
  destruct (Nat.eqb_spec (shore t) 0); [lia|]. destruct (Nat.eqb_spec (size + shore t) 0); [lia|]. cbv zeta. fold minw.
  set (mx := match maxlen with None => M | Some l => (l - 1) `min` M end).
  assert (Hmx : mx <= M) by (unfold mx; destruct maxlen; lia).
  pose proof minw_ge as Hge.
  match goal with |- context [foldM ?F (seq minw ?n) None] =>
    destruct (foldM_inv F (fun dn r =>
      match r with
      | None => forall w', w' < minw + length dn -> w' < lim -> forall R', removed cells R' -> too_small size w' R'
      | Some (l, e) => exists w, 2 <= w < lim /\ l = S w /\ clique_embedding nodes edges e /\ size <= length e /\
          (forall ch, ch ∈ e -> length ch = S w) /\ (forall w', w' < w -> forall R', removed cells R' -> too_small size w' R')
      end) (seq minw n) None) as (r & E & HI) end.
  - intros w' Hw' _ R' _. apply minw_small. simpl in Hw'. lia.
  - intros dn w rest r Hsp HI. destruct r as [[l e]|]; [by eexists|].
    assert (Hi : w = minw + length dn /\ w <= mx).
    { assert (E : seq minw (S mx - minw) !! length dn = Some w) by (by rewrite Hsp, list_lookup_middle). apply lookup_seq in E. lia. }
    destruct Hi as [Ew Hi].
    destruct (width_ok t _ _ lm Hrd w ltac:(lia) ltac:(lia) ltac:(lia)) as (mem & sol & Em & Es & Hs & Hm). rewrite Em. cbn [rbind].
    rewrite Es. cbn [rbind].
    assert (Hsmall : (match sol with Some emb => length emb | None => 0 end) < size -> forall R', removed cells R' -> too_small size w R').
    { intros Hlt R' HR' L n1 HL Hn. destruct (removed_ready cells R' HR') as (lm' & Elm' & Hrd'). rewrite Elm in Elm'. injection Elm' as <-.
      destruct (width_ok t _ _ lm Hrd' w ltac:(lia) ltac:(lia) ltac:(lia)) as (mem' & sol' & Em' & Es' & _ & Hm').
      rewrite Em in Em'. injection Em' as <-. rewrite Es in Es'. injection Es' as <-. specialize (Hm' L n1 HL Hn). lia. }
    unfold get_sol. destruct sol as [emb|].
    + destruct (Nat.leb_spec size (length emb)) as [Hle|Hlt].
      * destruct (Nat.eqb_spec size 0); [lia|]. cbv zeta. destruct (Hs emb eq_refl) as (Hc & Hpos & Hlen & _).
        destruct (lookup_lt_is_Some_2 (sort_len emb) (size - 1)) as [c Ec]; [rewrite (Permutation_length (sort_len_perm emb)); lia|].
        rewrite (vget_ok _ _ _ Ec). cbn [rbind].
        assert (Hcl : length c = S w). { apply Hlen. rewrite <- sort_len_perm. by eapply elem_of_list_lookup_2. }
        rewrite Hcl.
        assert (Hok : w < lim -> exists w0, 2 <= w0 < lim /\ S w = S w0 /\ clique_embedding nodes edges (sort_len emb) /\ size <= length (sort_len emb) /\
          (forall ch, ch ∈ sort_len emb -> length ch = S w0) /\ (forall w', w' < w0 -> forall R', removed cells R' -> too_small size w' R')).
        { intros Hwl. exists w. split_and!; [lia|done|done| | | |].
          - eapply clique_sub; [| |]; [intros q; apply without_sub|intros q; apply edges_without_sub|].
            eapply clique_perm; [|exact Hc]. by rewrite sort_len_perm.
          - by rewrite (Permutation_length (sort_len_perm emb)).
          - intros ch Hch. apply Hlen. by rewrite <- sort_len_perm.
          - intros w' Hw'. apply HI; lia. }
        destruct maxlen as [ml|].
        -- destruct (Nat.ltb_spec (S w) ml).
           ++ eexists. split; [done|]. cbv beta. apply Hok. unfold lim. lia.
           ++ eexists. split; [done|]. intros w' Hw' Hl'. rewrite app_length in Hw'. simpl in Hw'. apply HI; [|done]. unfold lim in Hl'. lia.
        -- eexists. split; [done|]. apply Hok. unfold lim. lia.
      * cbn [rbind]. eexists. split; [done|]. intros w' Hw' Hl'. rewrite app_length in Hw'. simpl in Hw'.
        destruct (decide (w' = w)) as [->|]; [by apply Hsmall|]. apply HI; [lia|done].
    + cbn [rbind]. eexists. split; [done|]. intros w' Hw' Hl'. rewrite app_length in Hw'. simpl in Hw'.
      destruct (decide (w' = w)) as [->|]; [apply Hsmall; lia|]. apply HI; [lia|done].
  - rewrite E. cbn [rbind]. destruct r as [[l e]|].
    + destruct HI as (w & Hw & -> & Hrest). eexists true, e, _. split; [done|]. exists w. done.
    + exists false, emb0, maxlen. split; [done|]. split_and!; [done|done|]. intros w' Hw'. apply HI; [|done].
      rewrite seq_length. assert (lim <= S mx) by (unfold lim, mx; destruct maxlen; lia). lia.
Qed.

Lemma find_run fuel masks : Forall (fun cells => exists R, removed cells R) masks ->
  exists b emb, find_clique fuel t masks size [] = Ok (b, emb) /\
    if b : bool then exists w, 2 <= w <= M /\ clique_embedding nodes edges emb /\ size <= length emb /\
        (forall ch, ch ∈ emb -> length ch = S w) /\
        (forall cells R w', cells ∈ masks -> removed cells R -> w' < w -> too_small size w' R)
    else emb = [] /\ forall cells R w', cells ∈ masks -> removed cells R -> w' <= M -> too_small size w' R.
Proof.
  intros HM. unfold find_clique.
  match goal with |- context [foldM ?F ?l ?a] =>
    destruct (foldM_inv F (fun dn '(emb, tmp, ml) =>
      match ml with
      | None => emb = [] /\ forall cells R w', cells ∈ dn -> removed cells R -> w' <= M -> too_small size w' R
      | Some l => exists w, l = S w /\ 2 <= w <= M /\ clique_embedding nodes edges emb /\ size <= length emb /\
          (forall ch, ch ∈ emb -> length ch = S w) /\
          (forall cells R w', cells ∈ dn -> removed cells R -> w' < w -> too_small size w' R)
      end) l a) as ([[emb tmp] ml] & E & HI) end.
  - split; [done|]. by intros cells R w' ?%elem_of_nil.
  - intros dn cells rest [[emb tmp] ml] Hsp HI. rewrite Forall_forall in HM. destruct (HM cells) as [R HR]; [rewrite Hsp; set_solver|].
    destruct (nice_ok fuel cells R ml tmp HR) as (found & emb' & ml' & -> & H).
    { intros l ->. destruct HI as (w & -> & ? & _). lia. }
    cbn [rbind]. eexists. split; [done|]. cbv beta iota. destruct found.
    + destruct H as (w & Hw & -> & Hc & Hsz & Hl & Hsm). exists w. split_and!; try done; [lia|destruct ml; lia|].
      intros cells' R' w' [Hin| ->%elem_of_list_singleton]%elem_of_app HR' Hw'; [|by eapply Hsm].
      destruct ml as [l|].
      * destruct HI as (w0 & -> & Hw0 & _ & _ & _ & HI). eapply (HI cells'); [done|done|]. lia.
      * destruct HI as [_ HI]. eapply (HI cells'); [done|done|]. lia.
    + destruct H as (-> & -> & Hsm). destruct ml as [l|].
      * destruct HI as (w0 & -> & Hw0 & Hc & Hsz & Hl & HI). exists w0. split_and!; try done; try lia.
        intros cells' R' w' [Hin| ->%elem_of_list_singleton]%elem_of_app HR' Hw'; [by eapply (HI cells')|]. eapply Hsm; [|done]. lia.
      * destruct HI as [-> HI]. split; [done|].
        intros cells' R' w' [Hin| ->%elem_of_list_singleton]%elem_of_app HR' Hw'; [by eapply (HI cells')|]. eapply Hsm; [|done]. lia.
  - rewrite E. cbn [rbind]. eexists _, _. split; [done|]. destruct ml as [l|].
    + destruct HI as (w & -> & Hw & Hc & Hsz & Hl & HI). destruct (Nat.leb_spec size (length emb)); [|lia]. exists w. split_and!; try done; lia.
    + destruct HI as [-> HI]. destruct (Nat.leb_spec size (length (@nil (list nat)))); [simpl in *; lia|]. done.
Qed.
End run.
