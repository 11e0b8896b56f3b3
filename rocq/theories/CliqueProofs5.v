(** The chains of a peeling are a clique embedding. *)
From stdpp Require Import base list list_numbers numbers gmap relations.
From Verif Require Import Base BusModel CliqueModel SpecBus CoordProofs BitProofs BundleProofs MaskProofs MaskProofs2 TopoProofs BusTop
  CliqueProofs1 CliqueProofs2 CliqueProofs3 CliqueProofs4.

(** ** ordered pairs of a list *)
Inductive pairs {A} (R : A -> A -> Prop) : list A -> Prop :=
  | pairs_nil : pairs R []
  | pairs_cons a l : (forall b, b ∈ l -> R a b) -> pairs R l -> pairs R (a :: l).

Lemma pairs_lookup {A} (R : A -> A -> Prop) l i j a b : pairs R l -> i < j -> l !! i = Some a -> l !! j = Some b -> R a b.
Proof.
  intros H. revert i j. induction H as [|x l Hx H IH]; intros i j Hij Ha Hb; [done|].
  destruct i as [|i], j as [|j]; try lia; simpl in *.
  - injection Ha as ->. apply Hx. by eapply elem_of_list_lookup_2.
  - apply (IH i j); [lia|done..].
Qed.
Lemma pairs_of_lookup {A} (R : A -> A -> Prop) l :
  (forall i j a b, i < j -> l !! i = Some a -> l !! j = Some b -> R a b) -> pairs R l.
Proof.
  induction l as [|x l IH]; intros H; constructor.
  - intros b [j Hj]%elem_of_list_lookup. apply (H 0 (S j)); [lia|done..].
  - apply IH. intros i j a b Hij Ha Hb. apply (H (S i) (S j)); [lia|done..].
Qed.
Lemma pairs_app {A} (R : A -> A -> Prop) l1 l2 : pairs R l1 -> pairs R l2 -> (forall a b, a ∈ l1 -> b ∈ l2 -> R a b) -> pairs R (l1 ++ l2).
Proof.
  intros H1 H2 H. induction H1 as [|x l Hx H1 IH]; [done|]. simpl. constructor.
  - intros b [Hb|Hb]%elem_of_app; [by apply Hx|]. apply H; [left|done].
  - apply IH. intros a b Ha Hb. apply H; [by right|done].
Qed.
Lemma pairs_concat {A} (R : A -> A -> Prop) ls : (forall l, l ∈ ls -> pairs R l) ->
  pairs (fun l l' => forall a b, a ∈ l -> b ∈ l' -> R a b) ls -> pairs R (concat ls).
Proof.
  intros H1 H. induction H as [|l ls Hx H IH]; [constructor|]. simpl. apply pairs_app.
  - apply H1. left.
  - apply IH. intros l' Hl'. apply H1. by right.
  - intros a b Ha Hb. apply elem_of_list_In, in_concat in Hb as (l' & Hl' & Hb).
    apply (Hx l'); [by apply elem_of_list_In|done|by apply elem_of_list_In].
Qed.
Lemma pairs_map {A B} (R : B -> B -> Prop) (f : A -> B) l : pairs (fun a b => R (f a) (f b)) l -> pairs R (map f l).
Proof.
  induction 1 as [|a l Ha H IH]; simpl; constructor; [|done].
  intros b Hb. apply elem_of_list_In, in_map_iff in Hb as (x & <- & Hx). apply Ha. by apply elem_of_list_In.
Qed.
Lemma pairs_impl {A} (R R' : A -> A -> Prop) l : (forall a b, a ∈ l -> b ∈ l -> R a b -> R' a b) -> pairs R l -> pairs R' l.
Proof.
  intros HR H. induction H as [|a l Ha H IH]; constructor.
  - intros b Hb. apply HR; [left|by right|by apply Ha].
  - apply IH. intros x y Hx Hy. apply HR; by right.
Qed.

Definition apart (edges : list (nat * nat)) (c d : list nat) : Prop := c ## d /\ coupled edges c d.
Lemma has_edge_sym edges p q : has_edge edges p q -> has_edge edges q p.
Proof. unfold has_edge. tauto. Qed.
Lemma apart_sym edges c d : apart edges c d -> apart edges d c.
Proof.
  intros [H1 (p & q & Hp & Hq & He)]. split; [intros x Hx Hx'; exact (H1 x Hx' Hx)|]. exists q, p. split_and!; [done|done|by apply has_edge_sym].
Qed.
Lemma clique_of_pairs nodes edges emb :
  (forall c, c ∈ emb -> good_chain nodes edges c) -> pairs (apart edges) emb -> clique_embedding nodes edges emb.
Proof.
  intros H1 H2. split; [done|]. intros i j c d Hij Hc Hd.
  destruct (Nat.lt_total i j) as [Hl|[?|Hl]]; [|done|].
  - by apply (pairs_lookup _ _ _ _ _ _ H2 Hl).
  - apply apart_sym. by apply (pairs_lookup _ _ _ _ _ _ H2 Hl).
Qed.

(** ** nested ells *)
Definition nested (a b : ell) : Prop :=
  ~ (e_top b <= e_row a <= e_bot b) /\ e_top a <= e_top b /\ e_bot b <= e_bot a /\
  e_left b <= e_left a /\ e_right a <= e_right b /\ ~ (e_left a <= e_col b <= e_right a).
Lemma peels_nested m n a b : ell_in m n a -> ell_in m n b -> peels a b -> nested a b.
Proof.
  intros (_ & _ & Ha1 & Ha2) (_ & _ & Hb1 & Hb2) [Hr Hc]. unfold nested.
  destruct Hr as [(? & ? & ?)|(? & ? & ?)], Hc as [(? & ? & ?)|(? & ? & ?)]; lia.
Qed.
Lemma nested_trans a b c : nested a b -> nested b c -> nested a c.
Proof. unfold nested. lia. Qed.
Lemma peeling_nested m n w L : peeling m n w L -> pairs nested L.
Proof.
  intros (_ & Hin & _ & Hp). apply pairs_of_lookup. intros i j a b Hij Ha.
  replace j with (i + S (j - i - 1)) by lia. generalize (j - i - 1) as d. clear j Hij. intros d. revert b.
  induction d as [|d IH]; intros b Hb.
  - rewrite Nat.add_1_r in Hb. eapply peels_nested; [apply Hin; by eapply elem_of_list_lookup_2..|by apply (Hp i)].
  - destruct (lookup_lt_is_Some_2 L (i + S d)) as [c Hc]. { apply lookup_lt_Some in Hb. lia. }
    apply (nested_trans a c b); [by apply IH|]. replace (i + S (S d)) with (S (i + S d)) in Hb by lia.
    eapply peels_nested; [apply Hin; by eapply elem_of_list_lookup_2..|by apply (Hp (i + S d))].
Qed.

Section chains.
Context (t : topo) (nodes : list nat) (edges : list (nat * nat)).
Notation lq := (line_qubit (dim_x t) (shore t)).
Notation line := (chimera_line t).
Notation present := (segment_present (dim_x t) (shore t) nodes edges).
(** in every cell the present qubits of the two shores are coupled *)
Definition full : Prop := forall y x k l, y < dim_y t -> x < dim_x t -> k < shore t -> l < shore t ->
  qubit (dim_x t) (shore t) y x false k ∈ nodes -> qubit (dim_x t) (shore t) y x true l ∈ nodes ->
  has_edge edges (qubit (dim_x t) (shore t) y x false k) (qubit (dim_x t) (shore t) y x true l).
Context (Hfull : full).

Lemma line_elem u w z0 z1 k q : q ∈ line u w z0 z1 k <-> exists z, z0 <= z <= z1 /\ q = lq u w z k.
Proof.
  unfold chimera_line. rewrite elem_of_list_fmap. setoid_rewrite elem_of_seq. setoid_rewrite line_qubit_linear.
  split; intros (z & H); exists z; destruct H as [H1 H2]; (split; [lia|done]) || (split; [done|lia]).
Qed.
Lemma line_length u w z0 z1 k : length (line u w z0 z1 k) = S z1 - z0.
Proof. unfold chimera_line. by rewrite fmap_length, seq_length. Qed.
Lemma line_nodup u w z0 z1 k : w < dim_w t u -> z1 < dim_z t u -> k < shore t -> NoDup (line u w z0 z1 k).
Proof.
  intros Hw Hz Hk. unfold chimera_line. apply NoDup_fmap_2_strong.
  - intros a b Ha%elem_of_seq Hb%elem_of_seq E. rewrite <- !line_qubit_linear in E.
    apply line_qubit_inj in E; [congruence|lia..].
  - rewrite NoDup_ListNoDup. apply seq_NoDup.
Qed.

Notation step c := (fun a b => a ∈ c /\ b ∈ c /\ has_edge edges a b).
Lemma step_sym (c : list nat) p q : rtc (step c) p q -> rtc (step c) q p.
Proof.
  induction 1 as [|x y z (Hx & Hy & He) H IH]; [done|]. eapply rtc_r; [exact IH|].
  split_and!; [done|done|by apply has_edge_sym].
Qed.
Lemma line_reach (c : list nat) u w z0 z1 k z : present u w z0 z1 k ->
  (forall q, q ∈ line u w z0 z1 k -> q ∈ c) -> z0 <= z <= z1 -> rtc (step c) (lq u w z0 k) (lq u w z k).
Proof.
  intros [Hn He] Hc Hz. replace z with (z0 + (z - z0)) by lia. assert (Hd : z0 + (z - z0) <= z1) by lia. revert Hd.
  generalize (z - z0) as d. clear z Hz. induction d as [|d IH]; intros Hd.
  - rewrite Nat.add_0_r. done.
  - eapply rtc_r; [apply IH; lia|]. rewrite Nat.add_succ_r. split_and!.
    + apply Hc, line_elem. exists (z0 + d). split; [lia|done].
    + apply Hc, line_elem. exists (S (z0 + d)). split; [lia|done].
    + apply He. lia.
Qed.

Definition ell_ok (e : ell) (k0 k1 : nat) : Prop :=
  k0 < shore t /\ k1 < shore t /\ present false (e_col e) (e_top e) (e_bot e) k0 /\ present true (e_row e) (e_left e) (e_right e) k1.
Definition ell_chain (e : ell) (k0 k1 : nat) : list nat :=
  line false (e_col e) (e_top e) (e_bot e) k0 ++ line true (e_row e) (e_left e) (e_right e) k1.

Lemma crossing e k0 k1 e' : ell_in (dim_y t) (dim_x t) e -> ell_in (dim_y t) (dim_x t) e' ->
  forall y x k0' k1', ell_ok e k0 k0' -> ell_ok e' k1' k1 -> x = e_col e -> e_top e <= y <= e_bot e ->
  y = e_row e' -> e_left e' <= x <= e_right e' ->
  has_edge edges (lq false (e_col e) y k0) (lq true (e_row e') x k1).
Proof.
  intros (_ & _ & He1 & He2) (_ & _ & Hf1 & Hf2) y x k0' k1' (? & ? & P1 & _) (? & ? & _ & P2) -> Hy -> Hx.
  unfold line_qubit. apply Hfull; [lia|lia|done|done| |].
  - destruct P1 as [P1 _]. apply (P1 (e_row e')). lia.
  - destruct P2 as [P2 _]. apply (P2 (e_col e)). lia.
Qed.

Lemma ell_chain_good e k0 k1 : ell_in (dim_y t) (dim_x t) e -> ell_ok e k0 k1 -> good_chain nodes edges (ell_chain e k0 k1).
Proof.
  intros Hin Hok. pose proof Hin as (Hr & Hc & H1 & H2). pose proof Hok as (K0 & K1 & P0 & P1).
  assert (Ir : e_top e <= e_row e <= e_bot e) by (destruct Hr; lia).
  assert (Ic : e_left e <= e_col e <= e_right e) by (destruct Hc; lia).
  unfold ell_chain. split_and!.
  - intros [E _]%app_eq_nil. apply (f_equal length) in E. rewrite line_length in E. simpl in E. lia.
  - apply NoDup_app. split_and!; [apply line_nodup; simpl; lia| |apply line_nodup; simpl; lia].
    intros q (z & Hz & ->)%line_elem (z' & Hz' & E)%line_elem. apply line_qubit_inj in E; simpl; try lia. congruence.
  - intros q [(z & Hz & ->)%line_elem|(z & Hz & ->)%line_elem]%elem_of_app; [by apply P0|by apply P1].
  - set (c := line false (e_col e) (e_top e) (e_bot e) k0 ++ line true (e_row e) (e_left e) (e_right e) k1).
    assert (V : forall z, e_top e <= z <= e_bot e -> rtc (step c) (lq false (e_col e) (e_top e) k0) (lq false (e_col e) z k0)).
    { intros z Hz. eapply line_reach; [exact P0| |done]. intros q Hq. apply elem_of_app. by left. }
    assert (H : forall z, e_left e <= z <= e_right e -> rtc (step c) (lq true (e_row e) (e_left e) k1) (lq true (e_row e) z k1)).
    { intros z Hz. eapply line_reach; [exact P1| |done]. intros q Hq. apply elem_of_app. by right. }
    assert (X : rtc (step c) (lq false (e_col e) (e_top e) k0) (lq true (e_row e) (e_left e) k1)).
    { etrans; [apply (V (e_row e) Ir)|]. etrans; [|apply step_sym, (H (e_col e) Ic)]. apply rtc_once. split_and!.
      - apply elem_of_app. left. apply line_elem. exists (e_row e). done.
      - apply elem_of_app. right. apply line_elem. exists (e_col e). done.
      - by eapply (crossing e k0 k1 e). }
    assert (A : forall q, q ∈ c -> rtc (step c) (lq false (e_col e) (e_top e) k0) q).
    { intros q [(z & Hz & ->)%line_elem|(z & Hz & ->)%line_elem]%elem_of_app; [by apply V|]. etrans; [exact X|]. by apply H. }
    intros p q Hp Hq. etrans; [apply step_sym, A, Hp|apply A, Hq].
Qed.

Lemma same_ell e k0 k1 k0' k1' : ell_in (dim_y t) (dim_x t) e -> ell_ok e k0 k1 -> ell_ok e k0' k1' -> k0 <> k0' -> k1 <> k1' ->
  apart edges (ell_chain e k0 k1) (ell_chain e k0' k1').
Proof.
  intros Hin Hok Hok' N0 N1. pose proof Hin as (Hr & Hc & H1 & H2). pose proof Hok as (K0 & K1 & P0 & P1).
  pose proof Hok' as (K0' & K1' & P0' & P1').
  assert (Ir : e_top e <= e_row e <= e_bot e) by (destruct Hr; lia).
  assert (Ic : e_left e <= e_col e <= e_right e) by (destruct Hc; lia).
  split.
  - intros q Hq Hq'. unfold ell_chain in Hq, Hq'.
    apply elem_of_app in Hq as [(z & Hz & ->)%line_elem|(z & Hz & ->)%line_elem];
      apply elem_of_app in Hq' as [(z' & Hz' & E)%line_elem|(z' & Hz' & E)%line_elem];
      apply line_qubit_inj in E; simpl; try lia; congruence.
  - exists (lq false (e_col e) (e_row e) k0), (lq true (e_row e) (e_col e) k1'). split_and!.
    + apply elem_of_app. left. apply line_elem. by exists (e_row e).
    + apply elem_of_app. right. apply line_elem. by exists (e_col e).
    + by eapply (crossing e k0 k1' e).
Qed.

Lemma nested_ells a b k0 k1 l0 l1 : ell_in (dim_y t) (dim_x t) a -> ell_in (dim_y t) (dim_x t) b -> nested a b ->
  ell_ok a k0 k1 -> ell_ok b l0 l1 -> apart edges (ell_chain a k0 k1) (ell_chain b l0 l1).
Proof.
  intros Ha Hb (N1 & N2 & N3 & N4 & N5 & N6) Ka Kb.
  pose proof Ha as (Hr & Hc & H1 & H2). pose proof Hb as (Hr' & Hc' & H1' & H2').
  pose proof Ka as (K0 & K1 & _). pose proof Kb as (L0 & L1 & _).
  assert (Ir : e_top a <= e_row a <= e_bot a) by (destruct Hr; lia).
  assert (Ic : e_left a <= e_col a <= e_right a) by (destruct Hc; lia).
  assert (Ir' : e_top b <= e_row b <= e_bot b) by (destruct Hr'; lia).
  assert (Ic' : e_left b <= e_col b <= e_right b) by (destruct Hc'; lia).
  clear Hr Hc Hr' Hc'.
  split.
  - intros q Hq Hq'. unfold ell_chain in Hq, Hq'.
    apply elem_of_app in Hq as [(z & Hz & ->)%line_elem|(z & Hz & ->)%line_elem];
      apply elem_of_app in Hq' as [(z' & Hz' & E)%line_elem|(z' & Hz' & E)%line_elem];
      apply line_qubit_inj in E; simpl; try lia; try congruence.
  - exists (lq false (e_col a) (e_row b) k0), (lq true (e_row b) (e_col a) l1). split_and!.
    + apply elem_of_app. left. apply line_elem. exists (e_row b). split; [lia|done].
    + apply elem_of_app. right. apply line_elem. exists (e_col a). split; [lia|done].
    + eapply (crossing a k0 l1 b); try done; lia.
Qed.

Lemma zip_pairs (k0s k1s : list nat) : NoDup k0s -> NoDup k1s ->
  pairs (fun a b => a.1 <> b.1 /\ a.2 <> b.2) (zip k0s k1s).
Proof.
  intros N0. revert k1s. induction N0 as [|a l Ha N0 IH]; intros [|b l'] N1; simpl; try constructor.
  - intros [x y] Hxy. apply elem_of_zip_l in Hxy as Hx. apply elem_of_zip_r in Hxy as Hy. simpl.
    rewrite NoDup_cons in N1. split; [by intros ->|intros ->; by apply N1].
  - apply IH. rewrite NoDup_cons in N1. apply N1.
Qed.

(** chains of one ell *)
Lemma ell_chains_map e k0s k1s : ell_chains line (e_row e) (e_col e) (e_top e) (e_bot e) (e_left e) (e_right e) k0s k1s =
  map (fun k => ell_chain e k.1 k.2) (zip k0s k1s).
Proof. unfold ell_chains. rewrite zip_with_zip. change (@map (nat * nat) (list nat)) with (@fmap list _ (nat*nat) (list nat)). apply list_fmap_ext. intros i [a b] _. done. Qed.

(** the chains of a list of nested ells *)
Lemma ells_embedding (L : list (ell * list nat * list nat)) :
  (forall e a b, (e, a, b) ∈ L -> ell_in (dim_y t) (dim_x t) e /\ NoDup a /\ NoDup b /\
     forall k0 k1, k0 ∈ a -> k1 ∈ b -> ell_ok e k0 k1) ->
  pairs nested (map (fun x => x.1.1) L) ->
  clique_embedding nodes edges
    (concat (map (fun x => ell_chains line (e_row x.1.1) (e_col x.1.1) (e_top x.1.1) (e_bot x.1.1) (e_left x.1.1) (e_right x.1.1) x.1.2 x.2) L)).
Proof.
  intros HL HN. apply clique_of_pairs.
  - intros c Hc. apply elem_of_list_In, in_concat in Hc as (l & Hl & Hc).
    apply in_map_iff in Hl as ([[e a] b] & <- & Hx). cbn [fst snd] in Hc. rewrite ell_chains_map in Hc.
    apply in_map_iff in Hc as ([k0 k1] & <- & Hk). apply elem_of_list_In in Hk, Hx.
    destruct (HL e a b Hx) as (Hin & _ & _ & Hok). apply ell_chain_good; [done|].
    apply Hok; [by eapply elem_of_zip_l|by eapply elem_of_zip_r].
  - apply pairs_concat.
    + intros l Hl. apply elem_of_list_In, in_map_iff in Hl as ([[e a] b] & <- & Hx). cbn [fst snd]. rewrite ell_chains_map.
      apply elem_of_list_In in Hx. destruct (HL e a b Hx) as (Hin & Na & Nb & Hok).
      apply pairs_map. eapply pairs_impl; [|apply zip_pairs; done].
      intros [x y] [x' y'] Hxy Hxy' [N1 N2]. cbn [fst snd] in *. apply same_ell; try done.
      * apply Hok; [by eapply elem_of_zip_l|by eapply elem_of_zip_r].
      * apply Hok; [by eapply elem_of_zip_l|by eapply elem_of_zip_r].
    + apply pairs_map. 
      assert (HN' : pairs (fun x y => nested x.1.1 y.1.1) L).
      { clear HL. induction L as [|x L IH]; [constructor|]. inversion HN as [|? ? Hx HN']; subst. constructor; [|by apply IH].
        intros y Hy. apply Hx. apply elem_of_list_In, in_map_iff. exists y. split; [done|]. by apply elem_of_list_In. }
      eapply pairs_impl; [|exact HN']. intros [[e a] b] [[e' a'] b'] Hx Hx' Hn c c'. cbn [fst snd] in *. rewrite !ell_chains_map.
      intros Hc Hc'. apply elem_of_list_In, in_map_iff in Hc as ([k0 k1] & <- & Hk). apply elem_of_list_In, in_map_iff in Hc' as ([k0' k1'] & <- & Hk').
      apply elem_of_list_In in Hk, Hk'. destruct (HL _ _ _ Hx) as (Hin & _ & _ & Hok). destruct (HL _ _ _ Hx') as (Hin' & _ & _ & Hok').
      apply nested_ells; try done.
      * apply Hok; [by eapply elem_of_zip_l|by eapply elem_of_zip_r].
      * apply Hok'; [by eapply elem_of_zip_l|by eapply elem_of_zip_r].
Qed.
End chains.
