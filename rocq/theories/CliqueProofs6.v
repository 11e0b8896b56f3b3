(** From a masked topology to valid and best cliques of every width. *)
From stdpp Require Import base list list_numbers numbers gmap relations.
From Verif Require Import Base BusModel CliqueModel SpecBus CoordProofs BitProofs BundleProofs MaskProofs MaskProofs2 TopoProofs BusTop
  CliqueProofs1 CliqueProofs2 CliqueProofs3 CliqueProofs4 CliqueProofs5.

(** ** embeddings in a subgraph *)
Lemma has_edge_sub edges edges' p q : (forall e, e ∈ edges' -> e ∈ edges) -> has_edge edges' p q -> has_edge edges p q.
Proof. intros H [?|?]; [left|right]; by apply H. Qed.
Lemma good_chain_sub nodes edges nodes' edges' c :
  (forall q, q ∈ nodes' -> q ∈ nodes) -> (forall e, e ∈ edges' -> e ∈ edges) -> good_chain nodes' edges' c -> good_chain nodes edges c.
Proof.
  intros Hn He (H1 & H2 & H3 & H4). split_and!; [done|done|by eauto|]. intros p q Hp Hq.
  eapply rtc_subrel; [|by apply H4]. intros a b (? & ? & ?). split_and!; [done|done|by eapply has_edge_sub].
Qed.
Lemma coupled_sub edges edges' c d : (forall e, e ∈ edges' -> e ∈ edges) -> coupled edges' c d -> coupled edges c d.
Proof. intros He (p & q & ? & ? & ?). exists p, q. split_and!; [done|done|by eapply has_edge_sub]. Qed.
Lemma clique_sub nodes edges nodes' edges' emb :
  (forall q, q ∈ nodes' -> q ∈ nodes) -> (forall e, e ∈ edges' -> e ∈ edges) -> clique_embedding nodes' edges' emb -> clique_embedding nodes edges emb.
Proof.
  intros Hn He [H1 H2]. split.
  - intros c Hc. eapply good_chain_sub; [done..|]. by apply H1.
  - intros i j c d Hij Hc Hd. destruct (H2 i j c d Hij Hc Hd). split; [done|]. by eapply coupled_sub.
Qed.
Lemma without_sub R nodes q : q ∈ without R nodes -> q ∈ nodes.
Proof. unfold without. by intros [_ ?]%elem_of_list_filter. Qed.
Lemma edges_without_sub R edges e : e ∈ edges_without R edges -> e ∈ edges.
Proof. unfold edges_without. by intros [_ ?]%elem_of_list_filter. Qed.
Lemma good_without R total nodes edges : good_graph total nodes edges -> good_graph total (without R nodes) (edges_without R edges).
Proof.
  intros [H1 H2]. split.
  - intros q Hq. apply H1. by eapply without_sub.
  - unfold without, edges_without. intros p q [[? ?] Hq]%elem_of_list_filter. apply H2 in Hq. rewrite !elem_of_list_filter. simpl in *. tauto.
Qed.

Lemma count_unique P a b : count_of P a -> count_of P b -> a = b.
Proof.
  intros (l & N & <- & H) (l' & N' & <- & H'). apply Permutation_length. apply NoDup_Permutation; [done..|].
  intros x. by rewrite H, H'.
Qed.
Lemma ell_capacity_unique n t nodes edges e a b : ell_capacity n t nodes edges e a -> ell_capacity n t nodes edges e b -> a = b.
Proof.
  intros (x & y & Hx & Hy & ->) (x' & y' & Hx' & Hy' & ->). rewrite (count_unique _ _ _ Hx Hx'), (count_unique _ _ _ Hy Hy'). done.
Qed.
Lemma capacity_unique n t nodes edges L a b : capacity n t nodes edges L a -> capacity n t nodes edges L b -> a = b.
Proof.
  intros (l & H & ->) (l' & H' & ->). f_equal. revert l' H'. induction H as [|e c L l Hc H IH]; intros l' H'; inversion H'; subst; [done|].
  f_equal; [by eapply ell_capacity_unique|by apply IH].
Qed.

(** what the tables of a masked topology give: [nodes], [edges] is the masked graph *)
Record ready (t : topo) (nodes : list nat) (edges : list (nat * nat)) (lm : list N) : Prop := mkReady {
  rd_len : length lm = line_mask_size t;
  rd_bytes : bytes lm;
  rd_full : full t nodes edges;
  rd_lines : forall u w z0 z1 k, w < dim_w t u -> z0 <= z1 -> z1 < dim_z t u ->
    k ∈ bits (lmask t lm u w z0 z1) <-> k < shore t /\ segment_present (dim_x t) (shore t) nodes edges u w z0 z1 k }.

Lemma represents_ready t nm em nodes edges total : represents t nm em nodes edges -> good_graph total nodes edges -> full t nodes edges ->
  exists lm, compute_line_masks t (nm, em) = Ok lm /\ ready t nodes edges lm.
Proof.
  intros Hr Hg Hf. pose proof Hr as (L1 & L2 & B1 & _).
  destruct (line_masks_exact t nm em nodes edges total Hr Hg) as (lm & E & H).
  destruct (compute_line_masks_ok t nm em L1 L2 B1) as (lm' & E' & Hl & Hb & _). rewrite E in E'. injection E' as <-.
  exists lm. split; [done|]. split; [done..|]. intros u w z0 z1 k Hw Hz Hz1. destruct (H u w z0 z1 Hw Hz Hz1) as (m & Em & _ & Hm).
  destruct (get_line_ok t lm Hl Hb u w z0 z1 Hw Hz Hz1) as [Em' _]. rewrite Em in Em'. injection Em' as <-. apply Hm.
Qed.

Lemma masked_full t nodes edges R :
  (forall a b, is_bad t nodes edges a b -> a ∈ R \/ b ∈ R) -> full t (without R nodes) (edges_without R edges).
Proof.
  intros HR y x k l Hy Hx Hk Hl Ha Hb. unfold without in Ha, Hb. apply elem_of_list_filter in Ha as [Ra Ha]. apply elem_of_list_filter in Hb as [Rb Hb].
  apply has_edge_without. split; [|done].
  destruct (decide ((qubit (dim_x t) (shore t) y x false k, qubit (dim_x t) (shore t) y x true l) ∈ edges)) as [?|N1]; [by left|].
  destruct (decide ((qubit (dim_x t) (shore t) y x true l, qubit (dim_x t) (shore t) y x false k) ∈ edges)) as [?|N2]; [by right|].
  exfalso. destruct (HR (qubit (dim_x t) (shore t) y x false k) (qubit (dim_x t) (shore t) y x true l)); [|done..].
  apply missing_is_bad. exists y, x, k, l. split_and!; try done. unfold has_edge. tauto.
Qed.

Section tables.
Context (t : topo) (nodes : list nat) (edges : list (nat * nat)) (lm : list N) (Hrd : ready t nodes edges lm).
Notation cap := (capacity (dim_x t) (shore t) nodes edges).
Notation k0s e := (bits (lmask t lm false (e_col e) (e_top e) (e_bot e))).
Notation k1s e := (bits (lmask t lm true (e_row e) (e_left e) (e_right e))).

Lemma ell_cap e : ell_in (dim_y t) (dim_x t) e ->
  ell_capacity (dim_x t) (shore t) nodes edges e (length (k0s e) `min` length (k1s e)).
Proof.
  intros (Hr & Hc & H1 & H2). destruct Hrd as [_ _ _ HL].
  exists (length (k0s e)), (length (k1s e)). split_and!; [| |done].
  - exists (k0s e). split_and!; [apply bits_nodup|done|]. intros k. apply HL; simpl; lia.
  - exists (k1s e). split_and!; [apply bits_nodup|done|]. intros k. apply HL; simpl; lia.
Qed.

Lemma ell_bits_ok e k0 k1 : ell_in (dim_y t) (dim_x t) e -> k0 ∈ k0s e -> k1 ∈ k1s e -> ell_ok t nodes edges e k0 k1.
Proof.
  intros (Hr & Hc & H1 & H2) Hk0 Hk1. destruct Hrd as [_ _ _ HL].
  apply HL in Hk0 as [? ?]; simpl; try lia. apply HL in Hk1 as [? ?]; simpl; try lia. split_and!; done.
Qed.

Section width.
Context (width : nat) (Hw2 : 2 <= width) (Hwy : width <= dim_y t) (Hwx : width <= dim_x t).
Notation path := (path t width).
Notation total := (total t width lm nocheck).
Notation pchains := (pchains t width lm nocheck (chimera_line t)).

Lemma path_cap i y X L : i < width -> path i y X L -> cap (map (ev2ell width) L) (total L).
Proof.
  intros Hi HP. destruct (path_peels t width Hw2 Hwy Hwx i y X L Hi HP) as (_ & Hin & _). clear HP.
  induction L as [|ev L IH]; [exists []; split; [constructor|done]|]. destruct IH as (l & Hl & Hs). { intros e He. apply Hin. by right. }
  destruct ev as [[[j y'] x'] c]. specialize (Hin _ (elem_of_list_here _ _)). apply ell_cap in Hin.
  eexists (_ :: l). split; [constructor; [exact Hin|exact Hl]|]. unfold CliqueProofs3.total in *. cbn [sum_list_with].
  simpl sum_list. rewrite <- Hs. f_equal.
Qed.

Lemma pchains_shape L : pchains L = concat (map (fun x : ell * list nat * list nat =>
    ell_chains (chimera_line t) (e_row x.1.1) (e_col x.1.1) (e_top x.1.1) (e_bot x.1.1) (e_left x.1.1) (e_right x.1.1) x.1.2 x.2)
    (map (fun ev => (ev2ell width ev, k0s (ev2ell width ev), k1s (ev2ell width ev))) L)).
Proof.
  unfold CliqueProofs3.pchains. rewrite map_map. f_equal. apply map_ext. intros [[[i y] x0] c]. done.
Qed.

Lemma path_valid y X L : path (width - 1) y X L ->
  clique_embedding nodes edges (pchains L) /\ forall ch, ch ∈ pchains L -> length ch = S width.
Proof.
  intros HP. pose proof (path_peeling t width Hw2 Hwy Hwx y X L HP) as Hpe.
  destruct (path_peels t width Hw2 Hwy Hwx (width - 1) y X L ltac:(lia) HP) as (HL & Hin & _).
  rewrite pchains_shape. split.
  - apply ells_embedding.
    + apply Hrd.
    + intros e a b Hx. apply elem_of_list_In, in_map_iff in Hx as (ev & E & Hx). injection E as <- <- <-.
      assert (He : ell_in (dim_y t) (dim_x t) (ev2ell width ev)) by (by apply Hin, elem_of_list_In, in_map).
      split_and!; [done|apply bits_nodup|apply bits_nodup|]. intros k0 k1. by apply ell_bits_ok.
    + rewrite map_map. cbn [fst snd]. by eapply peeling_nested.
  - intros ch Hc. apply elem_of_list_In, in_concat in Hc as (l & Hl & Hc). apply in_map_iff in Hl as ([[e a] b] & <- & Hx).
    apply in_map_iff in Hx as (ev & E & Hx). injection E as <- <- <-. cbn [fst snd] in Hc. rewrite ell_chains_map in Hc.
    apply in_map_iff in Hc as ([k0 k1] & <- & _). unfold ell_chain. rewrite app_length, !line_length. cbn [fst snd].
    clear Hpe HL Hin.
    assert (Hd : forall i y X L, i < width -> path i y X L -> In ev L -> ev.1.1.1 < width).
    { clear y X L HP Hx. intros i. induction i as [|i IH]; intros y X L Hi (x0 & c & L' & -> & V & -> & HL) [<-|Hx]; try (simpl; lia).
      - by subst L'.
      - eapply (IH _ _ L'); [lia|exact HL|done]. }
    specialize (Hd (width - 1) y X L ltac:(clear -Hw2; lia) HP Hx). destruct ev as [[[i y'] x'] c]. cbn in *. unfold wd. lia.
Qed.

(** what one width gives *)
Lemma width_ok : exists mem r, clique_cache t lm nocheck width = Ok mem /\
  extract_solution t (chimera_line t) lm width mem = Ok r /\
  (forall emb, r = Some emb -> clique_embedding nodes edges emb /\ 0 < length emb /\ (forall ch, ch ∈ emb -> length ch = S width) /\
     exists L, peeling (dim_y t) (dim_x t) width L /\ cap L (length emb)) /\
  (forall L n, peeling (dim_y t) (dim_x t) width L -> cap L n -> n <= match r with Some emb => length emb | None => 0 end).
Proof.
  destruct (clique_cache_ok t width lm nocheck Hw2 Hwy Hwx (rd_len _ _ _ _ Hrd) (rd_bytes _ _ _ _ Hrd)) as (mem & Em & HF).
  destruct (extract_ok t width lm nocheck (chimera_line t) Hw2 Hwy Hwx (rd_len _ _ _ _ Hrd) (rd_bytes _ _ _ _ Hrd) mem HF) as (r & Er & Hmax & Hs).
  exists mem, r. split_and!; [done|done| |].
  - intros emb ->. destruct (Hs emb eq_refl) as (y & X & L & HP & -> & Hpos). destruct (path_valid y X L HP) as [Hc Hlen].
    split_and!; [done|done|done|]. exists (map (ev2ell width) L). split; [by eapply path_peeling|].
    rewrite pchains_length. eapply path_cap; [|exact HP]. lia.
  - intros L n HL Hn. destruct (peeling_path t width Hw2 Hwy Hwx L HL) as (y & X & L' & HP & <-).
    assert (n = total L') as ->. { eapply capacity_unique; [exact Hn|]. eapply path_cap; [|exact HP]. lia. }
    specialize (Hmax y X L' HP). destruct r; lia.
Qed.
End width.

(** ** width one *)
Definition cell_ell (y x : nat) : ell := mkEll y x y y x x.
Lemma peeling_1 L : peeling (dim_y t) (dim_x t) 1 L <-> exists y x, y < dim_y t /\ x < dim_x t /\ L = [cell_ell y x].
Proof.
  split.
  - intros (H1 & H2 & H3 & _). destruct L as [|e [|? ?]]; try done. destruct (H3 e eq_refl) as [A B].
    destruct (H2 e ltac:(left)) as (Hr & Hc & Hy & Hx). exists (e_row e), (e_col e). split_and!; [lia|lia|].
    f_equal. destruct e; unfold cell_ell; cbn in *. f_equal; lia.
  - intros (y & x & Hy & Hx & ->). split_and!; [done| | |].
    + intros e ->%elem_of_list_singleton. unfold ell_in, cell_ell; cbn. lia.
    + intros e [= <-]. cbn. lia.
    + intros [|i] a b _ Hb; done.
Qed.
Definition cell_size (y x : nat) : nat := length (k0s (cell_ell y x)) `min` length (k1s (cell_ell y x)).
Lemma cell_in y x : y < dim_y t -> x < dim_x t -> ell_in (dim_y t) (dim_x t) (cell_ell y x).
Proof. unfold ell_in, cell_ell. cbn. lia. Qed.
Lemma cell_cap y x : y < dim_y t -> x < dim_x t -> cap [cell_ell y x] (cell_size y x).
Proof.
  intros Hy Hx. exists [cell_size y x]. split; [|simpl; lia]. constructor; [|done]. apply ell_cap. by apply cell_in.
Qed.
Lemma cell_size_le y x : y < dim_y t -> x < dim_x t -> cell_size y x <= shore t.
Proof.
  intros Hy Hx. unfold cell_size. etrans; [apply Nat.le_min_l|]. rewrite <- (seq_length (shore t) 0).
  apply submseteq_length, NoDup_submseteq; [apply bits_nodup|]. intros k Hk. apply (rd_lines _ _ _ _ Hrd) in Hk; [|done..].
  apply elem_of_seq. lia.
Qed.
Definition cell_emb (y x : nat) : list (list nat) :=
  ell_chains (chimera_line t) y x y y x x (k0s (cell_ell y x)) (k1s (cell_ell y x)).
Lemma cell_emb_ok y x : y < dim_y t -> x < dim_x t ->
  ell_inflate t (chimera_line t) lm y x y y x x [] = Ok (cell_emb y x) /\ length (cell_emb y x) = cell_size y x /\
  clique_embedding nodes edges (cell_emb y x) /\ forall ch, ch ∈ cell_emb y x -> length ch = 2.
Proof.
  intros Hy Hx. split_and!.
  - unfold ell_inflate.
    destruct (get_line_ok t lm (rd_len _ _ _ _ Hrd) (rd_bytes _ _ _ _ Hrd) false x y y) as [-> B0]; [done..|]. cbn [rbind].
    destruct (get_line_ok t lm (rd_len _ _ _ _ Hrd) (rd_bytes _ _ _ _ Hrd) true y x x) as [-> B1]; [done..|]. cbn [rbind].
    rewrite ell_loop_ok; [done..|]. pose proof (bits_length (lmask t lm false x y y)). lia.
  - unfold cell_emb, ell_chains, cell_size. by rewrite zip_with_length.
  - pose proof (ells_embedding t nodes edges (rd_full _ _ _ _ Hrd) [(cell_ell y x, k0s (cell_ell y x), k1s (cell_ell y x))]) as H.
    cbn [map concat fst snd] in H. rewrite app_nil_r in H. apply H.
    + intros e a b Hin. apply elem_of_list_singleton in Hin. injection Hin as -> -> ->.
      split_and!; [by apply cell_in|apply bits_nodup|apply bits_nodup|]. intros. by apply ell_bits_ok; [apply cell_in|..].
    + constructor; [|constructor]. by intros ? ?%elem_of_nil.
  - intros ch Hc. unfold cell_emb in Hc. pose proof (ell_chains_map t (cell_ell y x) (k0s (cell_ell y x)) (k1s (cell_ell y x))) as E.
    unfold cell_ell in E at 1 2 3 4 5 6. cbn [e_row e_col e_top e_bot e_left e_right] in E. rewrite E in Hc. apply elem_of_list_In, in_map_iff in Hc as ([k0 k1] & <- & _).
    unfold ell_chain. rewrite app_length, !line_length. cbn. lia.
Qed.

(** the best clique of each width *)
Definition best_at (w : nat) (emb : list (list nat)) : Prop :=
  clique_embedding nodes edges emb /\ (forall ch, ch ∈ emb -> length ch = S w) /\
  (emb = [] \/ exists L, peeling (dim_y t) (dim_x t) w L /\ cap L (length emb)) /\
  (forall L n, peeling (dim_y t) (dim_x t) w L -> cap L n -> n <= length emb).

Definition slots (bound : nat) (ys : yields) : Prop :=
  length ys.1 = bound /\ length ys.2 = bound /\ forall i e, ys.2 !! i = Some e -> ys.1 !! i = Some (length e).

Lemma slots_set bound ys i e : slots bound ys -> i < bound ->
  slots bound (<[i := length e]> ys.1, <[i := e]> ys.2).
Proof.
  intros (H1 & H2 & H3) Hi. split_and!; cbn [fst snd]; [by rewrite insert_length..|].
  intros j e' Hj. destruct (decide (i = j)) as [<-|Hne].
  - rewrite list_lookup_insert in Hj by lia. injection Hj as <-. rewrite list_lookup_insert by lia. done.
  - rewrite list_lookup_insert_ne in Hj by done. rewrite list_lookup_insert_ne by done. by apply H3.
Qed.

Lemma empty_clique : clique_embedding nodes edges [].
Proof. split; [by intros c ?%elem_of_nil|]. intros i j c d _ Hc. done. Qed.

(** [cells] processed so far, the best one kept at place 2 *)
Lemma width_1_ok bound : 1 <= dim_y t -> 1 <= dim_x t -> 3 <= bound ->
  exists ys, width_1 t (chimera_line t) lm (replicate bound 0, replicate bound []) = Ok ys /\ slots bound ys /\
    (forall i, i < bound -> i <> 2 -> ys.2 !! i = Some []) /\ exists e, ys.2 !! 2 = Some e /\ best_at 1 e.
Proof.
  intros Hy1 Hx1 Hb. unfold width_1.
  pose (good := fun (D : nat -> nat -> Prop) (s : yields * bool) =>
    slots bound s.1 /\ (forall i, i < bound -> i <> 2 -> s.1.2 !! i = Some []) /\
    exists e, s.1.2 !! 2 = Some e /\ clique_embedding nodes edges e /\ (forall ch, ch ∈ e -> length ch = 2) /\
      (e = [] \/ exists y x, y < dim_y t /\ x < dim_x t /\ length e = cell_size y x) /\
      (if s.2 then length e = shore t else forall y x, D y x -> cell_size y x <= length e)).
  match goal with |- context [foldM ?F ?l ?a] =>
    destruct (foldM_inv F (fun dn s => good (fun y x => y ∈ dn /\ x < dim_x t) s) l a) as ([ys fin] & E & HG) end.
  - unfold good. cbn [fst snd]. split_and!.
    + split_and!; cbn [fst snd]; [apply replicate_length..|]. intros i e [-> ?]%lookup_replicate. apply lookup_replicate. done.
    + intros i Hi _. apply lookup_replicate. done.
    + exists []. split_and!; [apply lookup_replicate; split; [done|lia]|apply empty_clique|by intros ? ?%elem_of_nil|by left|].
      by intros y x [?%elem_of_nil _].
  - intros dny y rest s Hspy HG.
    assert (Ly : y < dim_y t). { assert (E : y ∈ seq 0 (dim_y t)) by (rewrite Hspy; set_solver). apply elem_of_seq in E. lia. }
    match goal with |- exists zz, foldM ?F ?l ?a = _ /\ _ =>
      destruct (foldM_inv F (fun dn s => good (fun y' x' => (y' ∈ dny \/ y' = y /\ x' ∈ dn) /\ x' < dim_x t) s) l a) as (s' & E & HG') end.
    + destruct HG as (A & B & e & He1 & He2 & He3 & He4 & He5). split_and!; [done|done|]. exists e. split_and!; try done.
      destruct s as [ys0 [|]]; cbn [fst snd] in *; [done|]. intros y' x' [[?|[_ ?%elem_of_nil]] ?]; [by apply He5|done].
    + clear s HG. intros dnx x restx [ys fin] Hspx (A & B & e & He1 & He2 & He3 & He4 & He5). cbn [fst snd] in *.
      assert (Lx : x < dim_x t). { assert (E : x ∈ seq 0 (dim_x t)) by (rewrite Hspx; set_solver). apply elem_of_seq in E. lia. }
      destruct fin.
      { eexists. split; [done|]. split_and!; [done|done|]. exists e. cbn [fst snd]. done. }
      rewrite bundle_score_ok by (try apply Hrd; done). cbn [rbind].
      change (sc t lm y x y y x x) with (cell_size y x).
      destruct A as (A1 & A2 & A3). rewrite (vget_ok _ _ _ (A3 2 e He1)). cbn [rbind].
      destruct (cell_emb_ok y x Ly Lx) as (Ei & El & Ec & Ech).
      destruct (Nat.ltb_spec (length e) (cell_size y x)) as [Hlt|Hge].
      * rewrite Ei. cbn [rbind]. rewrite !vset_ok by lia. cbn [rbind]. eexists. split; [done|].
        rewrite <- El. split_and!; cbn [fst snd].
        -- by apply slots_set; [|lia].
        -- intros i Hi Hne. rewrite list_lookup_insert_ne by done. by apply B.
        -- exists (cell_emb y x). split_and!; [apply list_lookup_insert; lia|done|done|right; by exists y, x|].
           rewrite El. destruct (Nat.eqb_spec (cell_size y x) (shore t)); [done|].
           intros y' x' [[Hy'|[-> [Hx'| ->%elem_of_list_singleton]%elem_of_app]] Hxx]; [| |done].
           ++ specialize (He5 y' x' (conj (or_introl Hy') Hxx)). lia.
           ++ specialize (He5 y x' (conj (or_intror (conj eq_refl Hx')) Hxx)). lia.
      * cbn [rbind]. eexists. split; [done|]. split_and!; cbn [fst snd]; [done|done|].
        exists e. split_and!; try done.
        pose proof (cell_size_le y x Ly Lx) as Hle.
        destruct (Nat.eqb_spec (cell_size y x) (shore t)) as [Es|Es].
        -- destruct He4 as [->|(y' & x' & Hy' & Hx' & E')]; [simpl in *; lia|]. pose proof (cell_size_le y' x' Hy' Hx'). lia.
        -- intros y' x' [[Hy'|[-> [Hx'| ->%elem_of_list_singleton]%elem_of_app]] Hxx]; [| |done].
           ++ apply He5. split; [by left|done].
           ++ apply He5. split; [by right|done].
    + exists s'. split; [exact E|]. destruct HG' as (A & B & e & He1 & He2 & He3 & He4 & He5). split_and!; [done|done|]. exists e. split_and!; try done.
      destruct s' as [ys0 [|]]; cbn [fst snd] in *; [done|]. intros y' x' [[Hy'| ->%elem_of_list_singleton]%elem_of_app ?]; apply He5; [tauto|].
      split; [|done]. right. split; [done|]. apply elem_of_seq. lia.
  - rewrite E. cbn [rbind fst]. exists ys. destruct HG as (A & B & e & He1 & He2 & He3 & He4 & He5). cbn [fst snd] in *. split_and!; [done..|].
    exists e. split; [done|]. split_and!; [done|done| |].
    + destruct He4 as [->|(y & x & Hy & Hx & ->)]; [by left|]. right. exists [cell_ell y x]. split; [apply peeling_1; by exists y, x|]. by apply cell_cap.
    + intros L n (y & x & Hy & Hx & ->)%peeling_1 Hn. rewrite (capacity_unique _ _ _ _ _ _ _ Hn (cell_cap y x Hy Hx)).
      pose proof (cell_size_le y x Hy Hx). destruct fin; [lia|]. apply He5. split; [|done]. apply elem_of_seq. lia.
Qed.

Lemma max_length_ok (emb : list (list nat)) m : emb <> [] -> (forall ch, ch ∈ emb -> length ch = m) -> emb_max_length emb = m.
Proof.
  intros Hne H. unfold emb_max_length.
  assert (G : forall (l : list (list nat)) a, (forall ch, ch ∈ l -> length ch = m) -> a <= m -> foldl (fun m c => m `max` length c) a l = match l with [] => a | _ => m end).
  { induction l as [|c l IH]; intros a Hl Ha; [done|]. simpl. rewrite (Hl c ltac:(left)), IH.
    - destruct l; [lia|done].
    - intros ch Hc. apply Hl. by right.
    - lia. }
  rewrite G by (try done; lia). by destruct emb.
Qed.

Lemma yield_ok : 1 <= dim_y t -> 1 <= dim_x t ->
  exists ys, (let! ys := width_1 t (chimera_line t) lm (replicate (2 + dim_y t `min` dim_x t) 0, replicate (2 + dim_y t `min` dim_x t) []) in
     foldM (fun ys w =>
       let! mem := clique_cache t lm nocheck w in
       process_cliques t (chimera_line t) lm w mem ys) (seq 2 (dim_y t `min` dim_x t - 1)) ys) = Ok ys /\
    length ys.2 = 2 + dim_y t `min` dim_x t /\ ys.2 !! 0 = Some [] /\ ys.2 !! 1 = Some [] /\
    forall w, 1 <= w <= dim_y t `min` dim_x t -> exists e, ys.2 !! S w = Some e /\ best_at w e.
Proof.
  intros Hy1 Hx1. set (M := dim_y t `min` dim_x t).
  destruct (width_1_ok (2 + M)) as (ys & -> & HS & HE & e1 & He1 & Hb1); [lia..|]. cbn [rbind].
  match goal with |- context [foldM ?F ?l ?a] =>
    destruct (foldM_inv F (fun dn ys => slots (2 + M) ys /\
       (forall i, i < 2 -> ys.2 !! i = Some []) /\
       (forall w, 1 <= w <= S (length dn) -> w <= M -> exists e, ys.2 !! S w = Some e /\ best_at w e) /\
       (forall i, 2 + length dn < i -> i < 2 + M -> ys.2 !! i = Some [])) l a) as (ys' & E & HS' & H0 & Hw & _) end.
  - split_and!; [done| | |].
    + intros i Hi. apply HE; lia.
    + intros w Hw _. simpl in Hw. assert (w = 1) as -> by lia. exists e1. done.
    + intros i Hi Hi'. simpl in Hi. apply HE; lia.
  - clear ys HS HE e1 He1 Hb1. intros dn w rest ys Hsp (HS & H0 & Hw & HZ).
    assert (Hi : w = S (S (length dn)) /\ w <= M).
    { assert (E : seq 2 (M - 1) !! length dn = Some w) by (by rewrite Hsp, list_lookup_middle). apply lookup_seq in E. simpl in E. lia. }
    destruct Hi as [Ew Hi].
    destruct (width_ok w ltac:(lia) ltac:(lia) ltac:(lia)) as (mem & r & -> & Er & Hs & Hm). cbn [rbind].
    unfold process_cliques. rewrite Er. cbn [rbind].
    rewrite app_length. simpl length. rewrite Nat.add_1_r.
    assert (HZw : ys.2 !! S w = Some []) by (apply HZ; lia).
    destruct r as [emb|].
    + destruct (Hs emb eq_refl) as (Hc & Hpos & Hlen & L & HL & HcapL).
      rewrite (max_length_ok emb (S w)) by (try done; intros ->; simpl in Hpos; lia).
      pose proof HS as (A1 & A2 & A3). rewrite (vget_ok _ _ _ (A3 (S w) [] HZw)). cbn [rbind length].
      destruct (Nat.ltb_spec 0 (length emb)); [|lia]. rewrite !vset_ok by lia. cbn [rbind]. eexists. split; [done|]. split_and!.
      * apply slots_set; [done|lia].
      * intros i Hi'. cbn [snd]. rewrite list_lookup_insert_ne by lia. by apply H0.
      * intros w' Hw' HwM. cbn [snd]. destruct (decide (w' = w)) as [->|Hne].
        -- exists emb. rewrite list_lookup_insert by lia. split; [done|]. split_and!; try done. right. by exists L.
        -- rewrite list_lookup_insert_ne by lia. apply Hw; lia.
      * intros i Hi1 Hi2. cbn [snd]. rewrite list_lookup_insert_ne by lia. apply HZ; lia.
    + eexists. split; [done|]. split_and!; [done|done| |].
      * intros w' Hw' HwM. destruct (decide (w' = w)) as [->|Hne].
        -- exists []. split; [done|]. split_and!; [apply empty_clique|by intros ? ?%elem_of_nil|by left|]. intros L n HL Hn. exact (Hm L n HL Hn).
        -- apply Hw; lia.
      * intros i Hi1 Hi2. apply HZ; lia.
  - exists ys'. split; [exact E|]. split_and!.
    + apply HS'.
    + apply H0. lia.
    + apply H0. lia.
    + intros w Hww. apply Hw; [|lia]. rewrite seq_length. lia.
Qed.
End tables.
