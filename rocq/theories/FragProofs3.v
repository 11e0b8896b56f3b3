(** One width, and all widths, of the clique search on a graph cut into fragments. *)
From stdpp Require Import base list list_numbers numbers gmap relations.
From Verif Require Import Base BusModel CliqueModel FragModel SpecBus CoordProofs BitProofs BundleProofs MaskProofs MaskProofs2 TopoProofs
  CliqueProofs1 CliqueProofs2 CliqueProofs3 CliqueProofs4 CliqueProofs5 CliqueProofs6 CliqueProofs7 FragProofs1 FragProofs2.

Lemma pairs_filter {A} (R : A -> A -> Prop) (P : A -> bool) l : pairs R l -> pairs R (List.filter P l).
Proof.
  induction 1 as [|a l Ha H IH]; simpl; [constructor|]. destruct (P a); [|done]. constructor; [|done].
  intros b Hb. apply Ha. apply elem_of_list_In, filter_In in Hb as [Hb _]. by apply elem_of_list_In.
Qed.

Section tables.
Context (fs : fspec) (D sh nz : nat) (off : bool -> nat -> nat -> nat) (coupler : nat -> nat -> Prop).
Context (St : striped fs D sh nz off coupler).
Context (nodes : list nat) (edges : list (nat * nat)) (HLt : lattice D sh nz coupler nodes edges).
Notation L := (fs_len fs).
Notation t := (fs_topo fs).
Notation fn := (fnodes fs D sh nodes).
Notation fe := (fedges fs D sh nodes edges).
Context (R : list nat) (lm : list N) (Hrd : ready t (without R fn) (edges_without R fe) lm).
Notation line := (fs_line fs).
Notation chain := (rell_chain fs).
Notation ok := (rell_ok fs D sh nodes edges R).
Notation k0s e := (bits (lmask t lm false (e_col e) (e_top e) (e_bot e))).
Notation k1s e := (bits (lmask t lm true (e_row e) (e_left e) (e_right e))).
Notation cap := (capacity D sh (without R fn) (edges_without R fe)).

Let Hfull : full t (without R fn) (edges_without R fe) := rd_full _ _ _ _ Hrd.

Lemma rell_bits_ok e k0 k1 : ell_in D D e -> k0 ∈ k0s e -> k1 ∈ k1s e -> ok e k0 k1.
Proof.
  intros Hin Hk0 Hk1. assert (Hin' : ell_in (dim_y t) (dim_x t) e) by (by rewrite (t_x _ _ _ _ _ _ St), (t_y _ _ _ _ _ _ St)).
  pose proof (ell_bits_ok t _ _ lm Hrd e k0 k1 Hin' Hk0 Hk1) as H.
  unfold ell_ok in H. rewrite (t_x _ _ _ _ _ _ St), (t_s _ _ _ _ _ _ St) in H. exact H.
Qed.
Lemma rell_length e k0 k1 : ell_in D D e -> ok e k0 k1 ->
  2 <= length (chain e k0 k1) <= (e_bot e - e_top e + (L - 1)) / L + (e_right e - e_left e + (L - 1)) / L + 2.
Proof.
  intros Hin (K0 & K1 & P0 & P1). pose proof Hin as (Hr & Hc & H1 & H2). unfold rell_chain. rewrite app_length.
  pose proof (rline_length _ _ _ _ _ _ St _ _ HLt R false (e_col e) (e_top e) (e_bot e) k0 ltac:(destruct Hc; lia) ltac:(lia) ltac:(lia) K0 P0).
  pose proof (rline_length _ _ _ _ _ _ St _ _ HLt R true (e_row e) (e_left e) (e_right e) k1 ltac:(destruct Hr; lia) ltac:(lia) ltac:(lia) K1 P1). lia.
Qed.
Definition long (width : nat) : nat := (width - 1 + 2 * (L - 1)) / L + 2.
Lemma div_sum a b c : c <> 0 -> a / c + b / c <= (a + b) / c.
Proof.
  intros Hc. pose proof (Nat.div_mod a c Hc). pose proof (Nat.div_mod b c Hc).
  apply Nat.div_le_lower_bound; [done|]. lia.
Qed.

(** a chain of an ell that passes the check *)
Definition from_ell (check : nat -> nat -> nat -> nat -> nat -> nat -> bool) (width : nat) (ch : list nat) : Prop :=
  exists e k0 k1, ell_in D D e /\ ok e k0 k1 /\ ch = chain e k0 k1 /\ e_bot e - e_top e + (e_right e - e_left e) = width - 1 /\
    check (e_row e) (e_col e) (e_top e) (e_bot e) (e_left e) (e_right e) = true.
Lemma from_ell_length check width ch : from_ell check width ch -> 2 <= length ch <= long width.
Proof.
  intros (e & k0 & k1 & Hin & Hok & -> & Hs & _). pose proof (rell_length e k0 k1 Hin Hok) as H. unfold long.
  pose proof (st_len _ _ _ _ _ _ St) as HL.
  pose proof (div_sum (e_bot e - e_top e + (L - 1)) (e_right e - e_left e + (L - 1)) L ltac:(lia)).
  replace (e_bot e - e_top e + (L - 1) + (e_right e - e_left e + (L - 1))) with (width - 1 + 2 * (L - 1)) in * by lia. lia.
Qed.

Section width.
Context (width : nat) (Hw2 : 2 <= width) (Hwd : width <= D) (check : nat -> nat -> nat -> nat -> nat -> nat -> bool).
Let Hwy : width <= dim_y t. Proof. by rewrite (t_y _ _ _ _ _ _ St). Qed.
Let Hwx : width <= dim_x t. Proof. by rewrite (t_x _ _ _ _ _ _ St). Qed.
Notation path := (path t width).
Notation total := (CliqueProofs3.total t width lm check).
Notation pchains := (pchains t width lm check line).
Definition passes (ev : nat * nat * nat * corner) : bool := let '(i, y, x0, c) := ev in chk width check i y x0 c.

Lemma rpchains_shape Ls : pchains Ls = concat (map (fun x : ell * list nat * list nat =>
    ell_chains line (e_row x.1.1) (e_col x.1.1) (e_top x.1.1) (e_bot x.1.1) (e_left x.1.1) (e_right x.1.1) x.1.2 x.2)
    (map (fun ev => (ev2ell width ev, k0s (ev2ell width ev), k1s (ev2ell width ev))) (List.filter passes Ls))).
Proof.
  unfold CliqueProofs3.pchains. induction Ls as [|[[[i y] x0] c] Ls IH]; [done|]. cbn [map concat List.filter].
  change (passes (i, y, x0, c)) with (chk width check i y x0 c). unfold echains at 1. rewrite IH.
  destruct (chk width check i y x0 c); [|done]. cbn [map concat]. done.
Qed.

Lemma path_events i y X Ls : i < width -> path i y X Ls -> forall ev, In ev Ls -> ev.1.1.1 < width.
Proof.
  revert y X Ls. induction i as [|i IH]; intros y X Ls Hi (x0 & c & L' & -> & V & -> & HL) ev [<-|Hx]; try (simpl; lia).
  - by subst L'.
  - eapply (IH _ _ L'); [lia|exact HL|done].
Qed.

Lemma rpath_valid y X Ls : path (width - 1) y X Ls ->
  clique_embedding nodes edges (pchains Ls) /\ forall ch, ch ∈ pchains Ls -> from_ell check width ch.
Proof.
  intros HP. pose proof (path_peeling t width Hw2 Hwy Hwx y X Ls HP) as Hpe.
  destruct (path_peels t width Hw2 Hwy Hwx (width - 1) y X Ls ltac:(lia) HP) as (HL & Hin & _).
  rewrite (t_x _ _ _ _ _ _ St), (t_y _ _ _ _ _ _ St) in Hin.
  assert (Hin' : forall ev, In ev (List.filter passes Ls) -> ell_in D D (ev2ell width ev)).
  { intros ev Hx. apply filter_In in Hx as [Hx _]. by apply Hin, elem_of_list_In, in_map. }
  rewrite rpchains_shape. split.
  - apply (rells_embedding _ _ _ _ _ _ St _ _ HLt R Hfull).
    + intros e a b Hx. apply elem_of_list_In, in_map_iff in Hx as (ev & E & Hx). injection E as <- <- <-.
      split_and!; [by apply Hin'|apply bits_nodup|apply bits_nodup|]. intros k0 k1. apply rell_bits_ok. by apply Hin'.
    + rewrite map_map. cbn [fst snd]. apply peeling_nested in Hpe.
      clear -Hpe. induction Ls as [|ev Ls IH]; [constructor|]. inversion Hpe as [|? ? Ha Hr]; subst. cbn [List.filter].
      destruct (passes ev); [|by apply IH]. cbn [map]. constructor; [|by apply IH].
      intros b Hb. apply Ha. apply elem_of_list_In, in_map_iff in Hb as (ev' & <- & Hev). apply filter_In in Hev as [Hev _].
      by apply elem_of_list_In, in_map.
  - intros ch Hc. apply elem_of_list_In, in_concat in Hc as (l & Hl & Hc). apply in_map_iff in Hl as ([[e a] b] & <- & Hx).
    apply in_map_iff in Hx as (ev & E & Hx). injection E as <- <- <-. cbn [fst snd] in Hc. rewrite rell_chains_map in Hc.
    apply in_map_iff in Hc as ([k0 k1] & <- & Hk). apply elem_of_list_In in Hk. cbn [fst snd].
    exists (ev2ell width ev), k0, k1. split_and!.
    + by apply Hin'.
    + apply rell_bits_ok; [by apply Hin'|by eapply elem_of_zip_l|by eapply elem_of_zip_r].
    + done.
    + apply filter_In in Hx as [Hx _]. pose proof (path_events (width - 1) y X Ls ltac:(lia) HP ev Hx).
      destruct ev as [[[i y'] x'] c]. cbn in *. unfold wd. lia.
    + apply filter_In in Hx as [_ Hx]. destruct ev as [[[i y'] x'] c]. exact Hx.
Qed.

Lemma rwidth_ok : exists mem r, clique_cache t lm check width = Ok mem /\ extract_solution t line lm width mem = Ok r /\
  (forall emb, r = Some emb -> clique_embedding nodes edges emb /\ 0 < length emb /\ forall ch, ch ∈ emb -> from_ell check width ch) /\
  ((forall a b c d e f, check a b c d e f = true) ->
     forall Ls n, peeling D D width Ls -> cap Ls n -> n <= match r with Some emb => length emb | None => 0 end).
Proof.
  destruct (clique_cache_ok t width lm check Hw2 Hwy Hwx (rd_len _ _ _ _ Hrd) (rd_bytes _ _ _ _ Hrd)) as (mem & Em & HF).
  destruct (extract_ok t width lm check line Hw2 Hwy Hwx (rd_len _ _ _ _ Hrd) (rd_bytes _ _ _ _ Hrd) mem HF) as (r & Er & Hmax & Hs).
  exists mem, r. split_and!; [done|done| |].
  - intros emb ->. destruct (Hs emb eq_refl) as (y & X & Ls & HP & -> & Hpos). destruct (rpath_valid y X Ls HP) as [Hc Hlen]. done.
  - intros Hck Ls n HL Hn. 
    destruct (peeling_path t width Hw2 Hwy Hwx Ls) as (y & X & L' & HP & <-).
    { by rewrite (t_x _ _ _ _ _ _ St), (t_y _ _ _ _ _ _ St). }
    assert (n = total L') as ->.
    { eapply capacity_unique; [exact Hn|]. pose proof (path_cap t _ _ lm Hrd width Hw2 Hwy Hwx (width - 1) y X L' ltac:(lia) HP) as Hc.
      rewrite (t_x _ _ _ _ _ _ St), (t_s _ _ _ _ _ _ St) in Hc.
      replace (CliqueProofs3.total t width lm nocheck L') with (total L') in Hc; [done|].
      unfold CliqueProofs3.total. clear -Hck. induction L' as [|[[[i y] x] c] L' IH]; [done|]. cbn [sum_list_with].
      rewrite IH. f_equal. unfold gain, chk. by rewrite Hck. }
    specialize (Hmax y X L' HP). destruct r; lia.
Qed.
End width.

(** ** the table of results by chain length *)
Definition good_at (i : nat) (e : list (list nat)) : Prop :=
  clique_embedding nodes edges e /\ (forall ch, ch ∈ e -> 2 <= length ch <= i) /\ (e = [] \/ exists ch, ch ∈ e /\ length ch = i).
Definition good_slots (bound : nat) (ys : yields) : Prop :=
  length ys.1 = bound /\ length ys.2 = bound /\ forall i e, ys.2 !! i = Some e -> ys.1 !! i = Some (length e) /\ good_at i e.
(** some place has at least [n] chains *)
Definition holds (ys : list (list (list nat))) (n : nat) : Prop := n = 0 \/ exists i e, ys !! i = Some e /\ n <= length e.
Definition grows (ys ys' : list (list (list nat))) : Prop :=
  forall i e, ys !! i = Some e -> exists e', ys' !! i = Some e' /\ length e <= length e'.
Lemma grows_refl ys : grows ys ys.
Proof. intros i e H. by exists e. Qed.
Lemma grows_trans a b c : grows a b -> grows b c -> grows a c.
Proof. intros H1 H2 i e (e1 & He1 & L1)%H1. destruct (H2 i e1 He1) as (e2 & He2 & L2). exists e2. split; [done|lia]. Qed.
Lemma grows_holds a b n : grows a b -> holds a n -> holds b n.
Proof.
  intros H [->|(i & e & He & Hn)]; [by left|]. destruct (H i e He) as (e' & He' & ?). right. exists i, e'. split; [done|lia].
Qed.

Lemma max_length_spec (emb : list (list nat)) : (forall ch, ch ∈ emb -> length ch <= emb_max_length emb) /\
  (emb = [] \/ exists ch, ch ∈ emb /\ length ch = emb_max_length emb).
Proof.
  unfold emb_max_length.
  assert (G : forall (l : list (list nat)) a, a <= foldl (fun m c => m `max` length c) a l /\
    (forall ch, ch ∈ l -> length ch <= foldl (fun m c => m `max` length c) a l) /\
    (foldl (fun m c => m `max` length c) a l = a \/ exists ch, ch ∈ l /\ length ch = foldl (fun m c => m `max` length c) a l)).
  { induction l as [|c l IH]; intros a; simpl.
    - split_and!; [lia|by intros ? ?%elem_of_nil|by left].
    - destruct (IH (a `max` length c)) as (A & B & C). split_and!; [lia| |].
      + intros ch [->|Hc]%elem_of_cons; [lia|by apply B].
      + destruct C as [C|(ch & Hc & C)].
        * rewrite C. destruct (decide (length c <= a)); [left; lia|]. right. exists c. split; [left|lia].
        * right. exists ch. split; [by right|done]. }
  destruct (G emb 0) as (A & B & C). split; [done|]. destruct C as [C|C]; [|by right].
  destruct emb as [|c emb]; [by left|]. right. exists c. split; [left|]. specialize (B c ltac:(left)). lia.
Qed.

Lemma good_slots_init bound : good_slots bound (replicate bound 0, replicate bound []).
Proof.
  split_and!; cbn [fst snd]; [apply replicate_length..|]. intros i e [-> Hi]%lookup_replicate. split; [by apply lookup_replicate|].
  split_and!; [apply empty_clique|by intros ? ?%elem_of_nil|by left].
Qed.
Lemma good_slots_set bound ys i e old : good_slots bound ys -> ys.2 !! i = Some old -> length old <= length e -> good_at i e ->
  good_slots bound (<[i := length e]> ys.1, <[i := e]> ys.2) /\ grows ys.2 (<[i := e]> ys.2).
Proof.
  intros (H1 & H2 & H3) Ho Hl He. pose proof (lookup_lt_Some _ _ _ Ho) as Hi. split.
  - split_and!; cbn [fst snd]; [by rewrite insert_length..|].
    intros j e' Hj. destruct (decide (i = j)) as [<-|Hne].
    + rewrite list_lookup_insert in Hj by lia. injection Hj as <-. rewrite list_lookup_insert by lia. done.
    + rewrite list_lookup_insert_ne in Hj by done. rewrite list_lookup_insert_ne by done. by apply H3.
  - intros j e' Hj. destruct (decide (i = j)) as [<-|Hne].
    + exists e. rewrite list_lookup_insert by lia. split; [done|]. rewrite Ho in Hj. injection Hj as <-. done.
    + exists e'. rewrite list_lookup_insert_ne by done. done.
Qed.

Lemma rprocess_ok check width bound ys : 2 <= width <= D -> long width < bound -> good_slots bound ys ->
  exists mem ys', clique_cache t lm check width = Ok mem /\ process_cliques t line lm width mem ys = Ok ys' /\ good_slots bound ys' /\ grows ys.2 ys'.2 /\
    ((forall a b c d e f, check a b c d e f = true) -> forall Ls n, peeling D D width Ls -> cap Ls n -> holds ys'.2 n).
Proof.
  intros Hw Hb HS. destruct (rwidth_ok width ltac:(lia) ltac:(lia) check) as (mem & r & Em & Er & Hs & Hm).
  exists mem. unfold process_cliques. rewrite Er. cbn [rbind]. destruct r as [emb|].
  - destruct (Hs emb eq_refl) as (Hc & Hpos & Hfrom). destruct (max_length_spec emb) as [Hle Hex].
    set (len := emb_max_length emb) in *.
    assert (Hlen : len < bound).
    { destruct Hex as [->|(ch & Hch & <-)]; [simpl in Hpos; lia|]. pose proof (from_ell_length _ _ _ (Hfrom ch Hch)). lia. }
    pose proof HS as (A1 & A2 & A3). destruct (lookup_lt_is_Some_2 ys.2 len) as [old Ho]; [lia|].
    destruct (A3 len old Ho) as [Eo Hgo]. rewrite (vget_ok _ _ _ Eo). cbn [rbind].
    destruct (Nat.ltb_spec (length old) (length emb)) as [Hlt|Hge].
    + rewrite !vset_ok by lia. cbn [rbind]. eexists. split; [done|]. split; [done|].
      destruct (good_slots_set bound ys len emb old HS Ho ltac:(lia)) as [G1 G2].
      { split_and!; [done| |done]. intros ch Hch. pose proof (from_ell_length _ _ _ (Hfrom ch Hch)). specialize (Hle ch Hch). lia. }
      split_and!; [done|done|]. intros Hck Ls n HL Hn. right. exists len, emb. cbn [snd]. rewrite list_lookup_insert by lia.
      split; [done|]. by apply (Hm Hck Ls).
    + eexists. split; [done|]. split; [done|]. split_and!; [done|apply grows_refl|]. intros Hck Ls n HL Hn. right. exists len, old. split; [done|].
      specialize (Hm Hck Ls n HL Hn). lia.
  - eexists. split; [done|]. split; [done|]. split_and!; [done|apply grows_refl|]. intros Hck Ls n HL Hn. left. specialize (Hm Hck Ls n HL Hn). lia.
Qed.

(** ** width one *)
Definition rcell_emb (y x : nat) : list (list nat) :=
  ell_chains line y x y y x x (k0s (cell_ell y x)) (k1s (cell_ell y x)).
Lemma rline_one u w z k : w < D -> z < D -> k < sh -> segment_present D sh (without R fn) (edges_without R fe) u w z z k -> length (line u w z z k) = 1.
Proof.
  intros Hw Hz Hk Hp. destruct (present_owned _ _ _ _ _ _ St _ _ HLt R u w z z k z Hw Hz Hk Hp) as (Ho & _); [lia|].
  rewrite (st_line _ _ _ _ _ _ St), fmap_length, seq_length by done. lia.
Qed.
Lemma rcell_emb_ok y x : y < D -> x < D ->
  ell_inflate t line lm y x y y x x [] = Ok (rcell_emb y x) /\ length (rcell_emb y x) = cell_size t lm y x /\
  clique_embedding nodes edges (rcell_emb y x) /\ forall ch, ch ∈ rcell_emb y x -> length ch = 2.
Proof.
  intros Hy Hx. assert (Hc : ell_in D D (cell_ell y x)) by (unfold ell_in, cell_ell; cbn; lia). split_and!.
  - unfold ell_inflate.
    destruct (get_line_ok t lm (rd_len _ _ _ _ Hrd) (rd_bytes _ _ _ _ Hrd) false x y y) as [-> B0];
      [by rewrite (t_w _ _ _ _ _ _ St)|done|by rewrite (t_z _ _ _ _ _ _ St)|]. cbn [rbind].
    destruct (get_line_ok t lm (rd_len _ _ _ _ Hrd) (rd_bytes _ _ _ _ Hrd) true y x x) as [-> B1];
      [by rewrite (t_w _ _ _ _ _ _ St)|done|by rewrite (t_z _ _ _ _ _ _ St)|]. cbn [rbind].
    rewrite ell_loop_ok; [done..|]. pose proof (bits_length (lmask t lm false x y y)). lia.
  - unfold rcell_emb, ell_chains, cell_size. by rewrite zip_with_length.
  - pose proof (rells_embedding _ _ _ _ _ _ St _ _ HLt R Hfull [(cell_ell y x, k0s (cell_ell y x), k1s (cell_ell y x))]) as H.
    cbn [map concat fst snd] in H. rewrite app_nil_r in H. apply H.
    + intros e a b Hin. apply elem_of_list_singleton in Hin. injection Hin as -> -> ->.
      split_and!; [done|apply bits_nodup|apply bits_nodup|]. intros. by apply rell_bits_ok.
    + constructor; [|constructor]. by intros ? ?%elem_of_nil.
  - intros ch Hch. unfold rcell_emb in Hch. pose proof (rell_chains_map fs (cell_ell y x) (k0s (cell_ell y x)) (k1s (cell_ell y x))) as E.
    unfold cell_ell in E at 1 2 3 4 5 6. cbn [e_row e_col e_top e_bot e_left e_right] in E. rewrite E in Hch.
    apply elem_of_list_In, in_map_iff in Hch as ([k0 k1] & <- & Hk). apply elem_of_list_In in Hk.
    destruct (rell_bits_ok (cell_ell y x) k0 k1 Hc) as (K0 & K1 & P0 & P1); [by eapply elem_of_zip_l|by eapply elem_of_zip_r|].
    unfold rell_chain. rewrite app_length. cbn in *. rewrite !rline_one; done.
Qed.
Lemma rcell_size_le y x : y < D -> x < D -> cell_size t lm y x <= sh.
Proof.
  intros Hy Hx. rewrite <- (t_s _ _ _ _ _ _ St). eapply cell_size_le; [exact Hrd| |]; rewrite ?(t_x _ _ _ _ _ _ St), ?(t_y _ _ _ _ _ _ St); done.
Qed.
Lemma rwidth_1_ok bound : 3 <= bound ->
  exists ys, width_1 t line lm (replicate bound 0, replicate bound []) = Ok ys /\ good_slots bound ys /\
    forall y x, y < D -> x < D -> holds ys.2 (cell_size t lm y x).
Proof.
  intros Hb. unfold width_1. rewrite (t_x _ _ _ _ _ _ St), (t_y _ _ _ _ _ _ St), (t_s _ _ _ _ _ _ St).
  pose (good := fun (P : nat -> nat -> Prop) (s : yields * bool) =>
    good_slots bound s.1 /\ (if s.2 then holds s.1.2 sh else forall y x, P y x -> holds s.1.2 (cell_size t lm y x))).
  match goal with |- context [foldM ?F ?l ?a] =>
    destruct (foldM_inv F (fun dn s => good (fun y x => y ∈ dn /\ x < D) s) l a) as ([ys fin] & E & HG) end.
  - split; [apply good_slots_init|]. cbn [snd]. by intros y x [?%elem_of_nil _].
  - intros dny y rest s Hspy HG.
    assert (Ly : y < D). { assert (E : y ∈ seq 0 D) by (rewrite Hspy; set_solver). apply elem_of_seq in E. lia. }
    match goal with |- exists zz, foldM ?F ?l ?a = _ /\ _ =>
      destruct (foldM_inv F (fun dn s => good (fun y' x' => (y' ∈ dny \/ y' = y /\ x' ∈ dn) /\ x' < D) s) l a) as (s' & E & HG') end.
    + destruct HG as (A & B). split; [done|]. destruct s as [ys0 [|]]; cbn [fst snd] in *; [done|].
      intros y' x' [[?|[_ ?%elem_of_nil]] ?]; [by apply B|done].
    + clear s HG. intros dnx x restx [ys fin] Hspx (A & B). cbn [fst snd] in *.
      assert (Lx : x < D). { assert (E : x ∈ seq 0 D) by (rewrite Hspx; set_solver). apply elem_of_seq in E. lia. }
      destruct fin; [eexists; split; [done|]; by split|].
      rewrite bundle_score_ok by (try apply Hrd; rewrite ?(t_x _ _ _ _ _ _ St), ?(t_y _ _ _ _ _ _ St); done). cbn [rbind].
      change (sc t lm y x y y x x) with (cell_size t lm y x).
      pose proof A as (A1 & A2 & A3). destruct (lookup_lt_is_Some_2 ys.2 2) as [old Ho]; [lia|]. destruct (A3 2 old Ho) as [Eo Hgo].
      rewrite (vget_ok _ _ _ Eo). cbn [rbind].
      destruct (rcell_emb_ok y x Ly Lx) as (Ei & El & Ec & Ech).
      assert (Hnext : forall ys', grows ys.2 ys'.2 -> holds ys'.2 (cell_size t lm y x) -> good_slots bound ys' ->
        good (fun y' x' => (y' ∈ dny \/ y' = y /\ x' ∈ dnx ++ [x]) /\ x' < D) (ys', cell_size t lm y x =? sh)).
      { intros ys' Hg Hh HS. split; [done|]. cbn [snd fst]. destruct (Nat.eqb_spec (cell_size t lm y x) sh) as [Es|Es]; [by rewrite Es in Hh|].
        intros y' x' [[Hy'|[-> [Hx'| ->%elem_of_list_singleton]%elem_of_app]] Hxx]; [| |done].
        - eapply grows_holds; [exact Hg|]. apply B. split; [by left|done].
        - eapply grows_holds; [exact Hg|]. apply B. split; [by right|done]. }
      destruct (Nat.ltb_spec (length old) (cell_size t lm y x)) as [Hlt|Hge].
      * rewrite Ei. cbn [rbind]. rewrite !vset_ok by lia. cbn [rbind]. eexists. split; [done|].
        destruct (good_slots_set bound ys 2 (rcell_emb y x) old A Ho ltac:(lia)) as [G1 G2].
        { split_and!; [done|intros ch Hch; by rewrite Ech|]. destruct (rcell_emb y x) as [|ch l] eqn:E0; [by left|]. right. exists ch. split; [left|].
          apply Ech. left. }
        rewrite El in G1. apply Hnext; [done| |done]. right. exists 2, (rcell_emb y x). cbn [snd]. rewrite list_lookup_insert by lia. split; [done|lia].
      * cbn [rbind]. eexists. split; [done|]. apply Hnext; [apply grows_refl| |done]. right. exists 2, old. done.
    + exists s'. split; [exact E|]. destruct HG' as (A & B). split; [done|].
      destruct s' as [ys0 [|]]; cbn [fst snd] in *; [done|]. intros y' x' [[Hy'| ->%elem_of_list_singleton]%elem_of_app ?]; apply B; [tauto|].
      split; [|done]. right. split; [done|]. apply elem_of_seq. lia.
  - rewrite E. cbn [rbind fst]. exists ys. destruct HG as (A & B). cbn [fst snd] in *. split_and!; [done..|].
    intros y x Hy Hx. destruct fin.
    + destruct B as [B|(i & e & He & Hn)]; [left; pose proof (rcell_size_le y x Hy Hx); lia|].
      right. exists i, e. split; [done|]. pose proof (rcell_size_le y x Hy Hx). lia.
    + apply B. split; [apply elem_of_seq; lia|done].
Qed.

(** ** all widths, with one cell at a time first (Zephyr) or without (Pegasus) *)
Definition peel_holds (minw : nat) (ys : list (list (list nat))) : Prop :=
  forall w Ls n, minw <= w <= D -> peeling D D w Ls -> cap Ls n -> holds ys n.

Lemma zephyr_like bound : 3 <= bound -> (forall w, w <= D -> long w < bound) ->
  exists ys, (let! ys := width_1 t line lm (replicate bound 0, replicate bound []) in
     foldM (fun ys w =>
       let! mem := clique_cache t lm nocheck w in
       process_cliques t line lm w mem ys) (seq 2 (dim_y t `min` dim_x t - 1)) ys) = Ok ys /\
    good_slots bound ys /\ peel_holds 1 ys.2.
Proof.
  intros Hb Hlong. destruct (rwidth_1_ok bound Hb) as (ys & -> & HS & H1). cbn [rbind].
  rewrite (t_x _ _ _ _ _ _ St), (t_y _ _ _ _ _ _ St), Nat.min_id.
  match goal with |- context [foldM ?F ?l ?a] =>
    destruct (foldM_inv F (fun dn ys => good_slots bound ys /\
       (forall y x, y < D -> x < D -> holds ys.2 (cell_size t lm y x)) /\
       forall w Ls n, w ∈ dn -> peeling D D w Ls -> cap Ls n -> holds ys.2 n) l a) as (ys' & E & HS' & H1' & Hw) end.
  - split_and!; [done|done|]. by intros w Ls n ?%elem_of_nil.
  - clear ys HS H1. intros dn w rest ys Hsp (HS & H1 & Hw).
    assert (Hi : w ∈ seq 2 (D - 1)) by (rewrite Hsp; set_solver). apply elem_of_seq in Hi.
    destruct (rprocess_ok nocheck w bound ys ltac:(lia) ltac:(apply Hlong; lia) HS) as (mem & ys' & -> & Ep & HS' & Hg & Hp). cbn [rbind].
    rewrite Ep. eexists. split; [done|]. split_and!; [done| |].
    + intros y x Hy Hx. eapply grows_holds; [exact Hg|]. by apply H1.
    + intros w' Ls n [Hin| ->%elem_of_list_singleton]%elem_of_app HL Hn.
      * eapply grows_holds; [exact Hg|]. by apply (Hw w' Ls).
      * by apply (Hp ltac:(done) Ls).
  - exists ys'. split; [exact E|]. split; [done|]. intros w Ls n Hww HL Hn. destruct (decide (w = 1)) as [->|Hne].
    + pose proof HL as HL'. rewrite <- (t_x _ _ _ _ _ _ St) in HL' at 2. rewrite <- (t_y _ _ _ _ _ _ St) in HL' at 1.
      apply peeling_1 in HL' as (y & x & Hy & Hx & ->). rewrite (t_y _ _ _ _ _ _ St) in Hy. rewrite (t_x _ _ _ _ _ _ St) in Hx.
      pose proof (cell_cap t _ _ lm Hrd y x) as Hc. rewrite (t_x _ _ _ _ _ _ St), (t_y _ _ _ _ _ _ St), (t_s _ _ _ _ _ _ St) in Hc.
      rewrite (capacity_unique _ _ _ _ _ _ _ Hn (Hc Hy Hx)). by apply H1'.
    + apply (Hw w Ls); [|done|done]. apply elem_of_seq. lia.
Qed.

(** checks: any list of checks for each width *)
Lemma pegasus_like bound (checks : nat -> list nat) (ck : nat -> nat -> nat -> nat -> nat -> nat -> nat -> bool) : (forall w, w <= D -> long w < bound) ->
  exists ys, foldM (fun ys w =>
    let! mem := clique_cache t lm nocheck w in
    let! ys := process_cliques t line lm w mem ys in
    foldM (fun ys len =>
      let! mem := clique_cache t lm (ck len) w in
      process_cliques t line lm w mem ys) (checks w) ys)
    (seq 2 (dim_y t `min` dim_x t - 1)) (replicate bound 0, replicate bound []) = Ok ys /\
    good_slots bound ys /\ peel_holds 2 ys.2.
Proof.
  intros Hlong. rewrite (t_x _ _ _ _ _ _ St), (t_y _ _ _ _ _ _ St), Nat.min_id.
  match goal with |- context [foldM ?F ?l ?a] =>
    destruct (foldM_inv F (fun dn ys => good_slots bound ys /\
       forall w Ls n, w ∈ dn -> peeling D D w Ls -> cap Ls n -> holds ys.2 n) l a) as (ys' & E & HS' & Hw) end.
  - split; [apply good_slots_init|]. by intros w Ls n ?%elem_of_nil.
  - intros dn w rest ys Hsp (HS & Hw).
    assert (Hi : w ∈ seq 2 (D - 1)) by (rewrite Hsp; set_solver). apply elem_of_seq in Hi.
    destruct (rprocess_ok nocheck w bound ys ltac:(lia) ltac:(apply Hlong; lia) HS) as (mem & ys1 & -> & Ep & HS1 & Hg1 & Hp). cbn [rbind].
    rewrite Ep. cbn [rbind].
    match goal with |- exists zz, foldM ?F ?l ?a = _ /\ _ =>
      destruct (foldM_inv F (fun _ ys => good_slots bound ys /\ grows ys1.2 ys.2) l a) as (ys2 & E2 & HS2 & Hg2) end.
    + split; [done|apply grows_refl].
    + intros dn' len rest' ys2 _ (HS2 & Hg2).
      destruct (rprocess_ok (ck len) w bound ys2 ltac:(lia) ltac:(apply Hlong; lia) HS2) as (mem' & ys3 & -> & Ep3 & HS3 & Hg3 & _). cbn [rbind].
      exists ys3. split; [done|]. split; [done|]. by eapply grows_trans.
    + exists ys2. split; [exact E2|]. split; [done|]. intros w' Ls n [Hin| ->%elem_of_list_singleton]%elem_of_app HL Hn.
      * eapply grows_holds; [exact Hg2|]. eapply grows_holds; [exact Hg1|]. by apply (Hw w' Ls).
      * eapply grows_holds; [exact Hg2|]. by apply (Hp ltac:(done) Ls).
  - exists ys'. split; [exact E|]. split; [done|]. intros w Ls n Hww HL Hn. apply (Hw w Ls); [|done|done]. apply elem_of_seq. lia.
Qed.
End tables.
