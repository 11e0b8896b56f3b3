(** What an embedding implies for the degrees: counting in the two graphs. *)
Require Import Lia.
From stdpp Require Import base list numbers relations.
From Verif Require Import Base NxModel SpecNx DiagProofs FeasModel.

Lemma length_le_rel {B C} (R : B -> C -> Prop) (l : list B) (l' : list C) : NoDup l ->
  (forall b, b ∈ l -> exists c, c ∈ l' /\ R b c) ->
  (forall b b' c, b ∈ l -> b' ∈ l -> R b c -> R b' c -> b = b') -> length l <= length l'.
Proof.
  intros ND Hex Hinj.
  assert (H : exists cs, NoDup cs /\ cs ⊆ l' /\ length cs = length l /\ forall c, c ∈ cs -> exists b, b ∈ l /\ R b c).
  { clear - ND Hex Hinj. induction l as [|b l IH].
    - exists []. split; [apply NoDup_nil_2|]. split; [intros c Hc; by apply elem_of_nil in Hc|]. split; [done|].
      intros c Hc. by apply elem_of_nil in Hc.
    - inversion ND as [|? ? Hn Hd]; subst. destruct IH as (cs & H1 & H2 & H3 & H4); [done| | |].
      + intros b' Hb'. apply Hex. by right.
      + intros b1 b2 c Hb1 Hb2. apply Hinj; by right.
      + destruct (Hex b ltac:(left)) as (c & Hc & Hr). exists (c :: cs). split; [|split; [|split]].
        * constructor; [|done]. intros Hin. destruct (H4 c Hin) as (b' & Hb' & Hr').
          assert (b = b') as <-; [|done]. eapply Hinj; eauto; [left|by right].
        * intros z Hz. apply elem_of_cons in Hz as [->|Hz]; auto.
        * simpl. lia.
        * intros z Hz. apply elem_of_cons in Hz as [->|Hz]; [exists b; split; [left|done]|].
          destruct (H4 z Hz) as (b' & ? & ?). exists b'. split; [by right|done]. }
  destruct H as (cs & H1 & H2 & <- & _). by apply submseteq_length, NoDup_submseteq.
Qed.

Definition ind (P : Prop) `{Decision P} : nat := if decide P then 1 else 0.
Lemma length_filter_sum {B} (P : B -> Prop) `{!forall b, Decision (P b)} l :
  length (filter P l) = sum_list_with (fun b => ind (P b)) l.
Proof.
  unfold ind. induction l as [|b l IH]; [done|]. rewrite filter_cons. simpl. destruct (decide (P b)); simpl; lia.
Qed.
Lemma sum_with_ext {B} (f h : B -> nat) l : (forall b, b ∈ l -> f b = h b) -> sum_list_with f l = sum_list_with h l.
Proof.
  induction l as [|b l IH]; intros H; simpl; [done|]. rewrite (H b ltac:(left)), IH; [done|]. intros; apply H; by right.
Qed.
Lemma sum_with_le {B} (f h : B -> nat) l : (forall b, b ∈ l -> f b <= h b) -> sum_list_with f l <= sum_list_with h l.
Proof.
  induction l as [|b l IH]; intros H; simpl; [done|]. assert (f b <= h b) by (apply H; left).
  assert (sum_list_with f l <= sum_list_with h l) by (apply IH; intros; apply H; by right). lia.
Qed.
Lemma sum_with_plus {B} (f h : B -> nat) l : sum_list_with (fun b => f b + h b) l = sum_list_with f l + sum_list_with h l.
Proof. induction l as [|b l IH]; simpl; [done|]. rewrite IH. lia. Qed.
Lemma sum_with_perm {B} (f : B -> nat) l l' : l ≡ₚ l' -> sum_list_with f l = sum_list_with f l'.
Proof. induction 1; simpl; lia. Qed.
Lemma sum_with_submseteq {B} (f : B -> nat) l l' : l ⊆+ l' -> sum_list_with f l <= sum_list_with f l'.
Proof. induction 1; simpl; lia. Qed.
Lemma sum_with_concat {B C} (f : C -> nat) (h : B -> list C) l :
  sum_list_with f (concat (h <$> l)) = sum_list_with (fun b => sum_list_with f (h b)) l.
Proof. induction l as [|b l IH]; [done|]. rewrite fmap_cons. cbn [concat sum_list_with]. rewrite sum_list_with_app, IH. done. Qed.
Lemma elem_concat {B C} (h : B -> list C) l q : q ∈ concat (h <$> l) <-> exists y, y ∈ l /\ q ∈ h y.
Proof.
  induction l as [|b l IH].
  - simpl. split; [intros H; by apply elem_of_nil in H|]. intros (y & H & _). by apply elem_of_nil in H.
  - rewrite fmap_cons. cbn [concat]. rewrite elem_of_app, IH. split.
    + intros [H|(y & H & H')]; [exists b; split; [left|done]|exists y; split; [by right|done]].
    + intros (y & H & H'). apply elem_of_cons in H as [->|H]; [by left|right; by exists y].
Qed.
Lemma sum_with_ge {B} (f : B -> nat) l b : b ∈ l -> f b <= sum_list_with f l.
Proof. intros H. induction H; simpl; lia. Qed.
Lemma sum_with_const {B} c (l : list B) : sum_list_with (fun _ => c) l = c * length l.
Proof. induction l; simpl; lia. Qed.

Section counting.
Context {A : Type} `{!EqDecision A}.

Lemma sum_ind_eq (a : A) C : NoDup C -> sum_list_with (fun n => ind (a = n)) C = ind (a ∈ C).
Proof.
  unfold ind. induction C as [|c C IH]; intros ND; simpl; [done|]. inversion ND; subst. rewrite IH by done.
  destruct (decide (a = c)) as [->|Hne]; destruct (decide (_ ∈ C)) as [Hin|Hnin]; try done.
  - by rewrite decide_True by left.
  - rewrite decide_True; [done|by right].
  - rewrite decide_False; [done|]. rewrite elem_of_cons. naive_solver.
Qed.
(** the degrees of some nodes: each edge counts once for each end among them *)
Lemma degree_sum (g : nxgraph A) C : NoDup C ->
  sum_list_with (nx_degree g) C = sum_list_with (fun e => ind (e.1 ∈ C) + ind (e.2 ∈ C)) (nx_edges g).
Proof.
  intros ND. unfold nx_degree. induction (nx_edges g) as [|[a b] E IH].
  - simpl. rewrite sum_with_const. lia.
  - simpl. rewrite <- IH, <- (sum_ind_eq a C ND), <- (sum_ind_eq b C ND), <- !sum_with_plus. apply sum_with_ext. intros n _.
    rewrite !filter_cons. simpl. unfold ind. destruct (decide (a = n)), (decide (b = n)); simpl; lia.
Qed.

(** ** An embedding with chains without repeats *)
Record chains_ok (S T : nxgraph A) (C : A -> list A) : Prop := {
  ch_nd : forall x, x ∈ nx_nodes S -> NoDup (C x);
  ch_ne : forall x, x ∈ nx_nodes S -> exists q, q ∈ C x;
  ch_in : forall x q, x ∈ nx_nodes S -> q ∈ C x -> q ∈ nx_nodes T;
  ch_join : forall x, x ∈ nx_nodes S -> joined_in (nx_adj T) (fun q => q ∈ C x);
  ch_disj : forall x y q, x ∈ nx_nodes S -> y ∈ nx_nodes S -> q ∈ C x -> q ∈ C y -> x = y;
  ch_edge : forall x y, nx_adj S x y -> x <> y -> exists p q, p ∈ C x /\ q ∈ C y /\ nx_adj T p q
}.
Lemma embedding_chains emb (S T : nxgraph A) : NoDup emb.*1 -> nx_embedding emb S T ->
  chains_ok S T (fun x => remove_dups (default [] (dlookup emb x))).
Proof.
  intros NE [H1 H2 H3 H4 H5].
  assert (E : forall x q, q ∈ remove_dups (default [] (dlookup emb x)) <-> on_chain emb x q).
  { intros x q. rewrite elem_of_remove_dups. destruct (dlookup emb x) as [C|] eqn:Ex; simpl.
    - by rewrite (on_chain_lookup emb x C NE Ex).
    - split; [intros H; by apply elem_of_nil in H|]. intros H. by apply on_chain_none in H. }
  split.
  - intros x _. apply NoDup_remove_dups.
  - intros x Hx. destruct (H1 x Hx) as [q Hq]. exists q. by apply E.
  - intros x q Hx Hq. eapply H2; [done|by apply E].
  - intros x Hx. eapply joined_in_iff; [apply E|done|by apply H3].
  - intros x y q Hx Hy Hqx Hqy. eapply H4; eauto; by apply E.
  - intros x y Hxy Hne. destruct (H5 x y Hxy Hne) as (p & q & Hp & Hq & Ha). exists p, q. by rewrite !E.
Qed.

Section with_chains.
Context (S T : nxgraph A) (C : A -> list A).
Context (WS : nx_wf S) (WT : nx_wf T) (HC : chains_ok S T C).
Context (loopless : forall x, (x, x) ∉ nx_edges S).

(** nodes outside: the edges of a connected part are at least as many as its nodes without one *)
Definition inner (D : list A) : list (A * A) := filter (fun e => e.1 ∈ D /\ e.2 ∈ D) (nx_edges T).
Lemma inner_nodup D : NoDup (inner D).
Proof. apply NoDup_filter, WT. Qed.
Lemma crossing (P Q : A -> Prop) (HQ : forall a, Decision (Q a)) a b : rtc (fun u v => nx_adj T u v /\ P u /\ P v) a b -> Q a -> ~ Q b ->
  exists u v, nx_adj T u v /\ Q u /\ ~ Q v /\ P v.
Proof.
  intros H. induction H as [a|a c b (Hac & Ha & Hc) _ IH]; [done|]. intros Qa Qb.
  destruct (HQ c) as [Qc|Qc]; [by apply IH|]. by exists a, c.
Qed.
Lemma inner_grow x n D : x ∈ nx_nodes S -> NoDup D -> D <> [] -> D ⊆ C x -> length (C x) - length D = n -> length D <= length (inner D) + 1 ->
  length (C x) <= length (inner (C x)) + 1.
Proof.
  intros Hx. revert D. induction n as [|n IH]; intros D ND Hne Hsub Hn Hle.
  - assert (P : D ≡ₚ C x). { apply submseteq_Permutation_length_le; [lia|]. by apply NoDup_submseteq. }
    assert (E : inner (C x) = inner D). { apply list_filter_iff. intros e. by rewrite P. }
    rewrite E, <- P. done.
  - destruct (decide (C x ⊆ D)) as [Hall|Hnot].
    { assert (length (C x) <= length D) by (apply submseteq_length, NoDup_submseteq; [by apply (ch_nd _ _ _ HC)|done]). lia. }
    assert (Hb : exists b, b ∈ C x /\ b ∉ D).
    { clear - Hnot EqDecision0. induction (C x) as [|b l IHl]; [destruct Hnot; intros z Hz; by apply elem_of_nil in Hz|].
      destruct (decide (b ∈ D)) as [Hb|Hb]; [|exists b; split; [left|done]].
      destruct IHl as (z & ? & ?). { intros Hs. apply Hnot. intros z Hz. apply elem_of_cons in Hz as [->|Hz]; auto. }
      exists z. split; [by right|done]. }
    destruct Hb as (b & Hb & HbD). destruct D as [|a D0] eqn:ED; [done|]. rewrite <- ED in *. assert (Ha : a ∈ D) by (rewrite ED; left).
    destruct (crossing (fun q => q ∈ C x) (fun q => q ∈ D) _ a b (ch_join _ _ _ HC x Hx a b (Hsub a Ha) Hb) Ha HbD) as (u & v & Huv & Hu & Hv & HvC).
    apply (IH (v :: D)).
    + by constructor.
    + done.
    + intros z Hz. apply elem_of_cons in Hz as [->|Hz]; [done|by apply Hsub].
    + simpl. lia.
    + assert (Hex : exists e, e ∈ nx_edges T /\ e ∈ inner (v :: D) /\ e ∉ inner D).
      { destruct Huv as [He|He]; [exists (u, v)|exists (v, u)]; (split; [done|]); unfold inner; rewrite !elem_of_list_filter; simpl;
          rewrite !elem_of_cons; tauto. }
      destruct Hex as (e & He & Hin & Hnin).
      assert (Hl : length (e :: inner D) <= length (inner (v :: D))).
      { apply submseteq_length, NoDup_submseteq; [constructor; [done|apply inner_nodup]|].
        intros f Hf. apply elem_of_cons in Hf as [->|Hf]; [done|]. unfold inner in *. rewrite elem_of_list_filter in *.
        rewrite !elem_of_cons. tauto. }
      simpl in *. lia.
Qed.
Lemma inner_tree x : x ∈ nx_nodes S -> length (C x) <= length (inner (C x)) + 1.
Proof.
  intros Hx. destruct (ch_ne _ _ _ HC x Hx) as [q Hq]. apply (inner_grow x (length (C x) - 1) [q]); try done.
  - apply NoDup_singleton.
  - intros z Hz. by apply elem_of_list_singleton in Hz as ->.
  - simpl. lia.
Qed.
(** the source neighbours of [x] *)
Definition star (x : A) : list (A * A) := filter (fun e => e.1 = x \/ e.2 = x) (nx_edges S).
Lemma star_degree x : nx_degree S x = length (star x).
Proof.
  unfold nx_degree, star. clear - loopless. induction (nx_edges S) as [|[a b] E IH]; [done|].
  assert (IH' := IH ltac:(intros z Hz; eapply loopless; right; exact Hz)).
  rewrite !filter_cons. simpl. assert (a <> b) by (intros ->; eapply loopless; left).
  destruct (decide (a = x)), (decide (b = x)), (decide (a = x \/ b = x)); simpl; try lia; exfalso; try tauto; congruence.
Qed.
Definition outer (D : list A) : list (A * A) := filter (fun e => (e.1 ∈ D /\ e.2 ∉ D) \/ (e.1 ∉ D /\ e.2 ∈ D)) (nx_edges T).
Lemma split_sum D : sum_list_with (fun e => ind (e.1 ∈ D) + ind (e.2 ∈ D)) (nx_edges T) = 2 * length (inner D) + length (outer D).
Proof.
  unfold inner, outer. rewrite !length_filter_sum. induction (nx_edges T) as [|[a b] E IH]; [done|]. simpl. rewrite IH.
  unfold ind. simpl. destruct (decide (a ∈ D)), (decide (b ∈ D)); repeat case_decide; try lia; exfalso; tauto.
Qed.
Lemma star_outer x : x ∈ nx_nodes S -> length (star x) <= length (outer (C x)).
Proof.
  intros Hx. apply (length_le_rel (fun e f => exists y, (e = (x, y) \/ e = (y, x)) /\ ((f.1 ∈ C x /\ f.2 ∈ C y) \/ (f.1 ∈ C y /\ f.2 ∈ C x)))).
  - apply NoDup_filter, WS.
  - intros [a b] He. unfold star in He. apply elem_of_list_filter in He as [Hxe He]. simpl in Hxe.
    assert (Hab : a <> b) by (intros ->; by eapply loopless).
    assert (Hy : exists y, y <> x /\ ((a, b) = (x, y) \/ (a, b) = (y, x)) /\ nx_adj S x y).
    { destruct Hxe as [->| ->]; [exists b|exists a]; (split; [congruence|]); (split; [tauto|]); [by left|by right]. }
    destruct Hy as (y & Hne & Hab' & Hadj). destruct (ch_edge _ _ _ HC x y Hadj (not_eq_sym Hne)) as (p & q & Hp & Hq & Hpq).
    assert (HyS : y ∈ nx_nodes S). { destruct Hadj as [H|H]; by apply (nw_ends _ WS) in H as [? ?]. }
    assert (p ∉ C y) by (intros H; apply Hne; by eapply (ch_disj _ _ _ HC)).
    assert (q ∉ C x) by (intros H'; apply Hne; by eapply (ch_disj _ _ _ HC)).
    destruct Hpq as [Hf|Hf]; [exists (p, q)|exists (q, p)]; (split; [apply elem_of_list_filter; simpl; tauto|]); exists y; simpl; tauto.
  - intros e e' f He He' (y & Hy & Hf) (y' & Hy' & Hf').
    unfold star in He, He'. apply elem_of_list_filter in He as [_ He], He' as [_ He'].
    assert (HyS : y ∈ nx_nodes S). { destruct Hy as [->| ->]; by apply (nw_ends _ WS) in He as [? ?]. }
    assert (HyS' : y' ∈ nx_nodes S). { destruct Hy' as [->| ->]; by apply (nw_ends _ WS) in He' as [? ?]. }
    assert (Hd : y <> x). { intros ->. destruct Hy as [->| ->]; by apply loopless in He. }
    assert (Hd' : y' <> x). { intros ->. destruct Hy' as [->| ->]; by apply loopless in He'. }
    assert (y = y') as <-.
    { destruct Hf as [[? ?]|[? ?]], Hf' as [[? ?]|[? ?]].
      - by eapply (ch_disj _ _ _ HC).
      - exfalso. apply Hd. by eapply (ch_disj _ _ _ HC).
      - exfalso. apply Hd. by eapply (ch_disj _ _ _ HC).
      - by eapply (ch_disj _ _ _ HC). }
    destruct Hy as [->| ->], Hy' as [->| ->]; try done; exfalso; apply Hd.
    + symmetry. by apply (nw_once _ WS).
    + by apply (nw_once _ WS).
Qed.
(** a chain of [m] nodes has room for as many neighbours as its degrees add up to, without two for each
    edge that holds it together *)
Lemma capacity x : x ∈ nx_nodes S -> nx_degree S x + 2 * length (C x) <= sum_list_with (nx_degree T) (C x) + 2.
Proof.
  intros Hx. rewrite star_degree, degree_sum by (by apply (ch_nd _ _ _ HC)). rewrite split_sum.
  pose proof (star_outer x Hx). pose proof (inner_tree x Hx). lia.
Qed.
Lemma edges_le : length (nx_edges S) <= length (nx_edges T).
Proof.
  apply (length_le_rel (fun e f => (f.1 ∈ C e.1 /\ f.2 ∈ C e.2) \/ (f.1 ∈ C e.2 /\ f.2 ∈ C e.1))).
  - apply WS.
  - intros [x y] He. assert (x <> y) by (intros ->; by eapply loopless).
    destruct (ch_edge _ _ _ HC x y (or_introl He) ltac:(done)) as (p & q & Hp & Hq & [Hpq|Hpq]); [exists (p, q)|exists (q, p)]; simpl; tauto.
  - intros [x y] [x' y'] f He He' Hf Hf'. simpl in *.
    destruct (nw_ends _ WS _ _ He) as [? ?]. destruct (nw_ends _ WS _ _ He') as [? ?].
    destruct Hf as [[? ?]|[? ?]], Hf' as [[? ?]|[? ?]].
    + f_equal; by eapply (ch_disj _ _ _ HC).
    + assert (x = y') as <- by (by eapply (ch_disj _ _ _ HC)). assert (y = x') as <- by (by eapply (ch_disj _ _ _ HC)).
      assert (x = y) as -> by (by apply (nw_once _ WS)). done.
    + assert (y = x') as <- by (by eapply (ch_disj _ _ _ HC)). assert (x = y') as <- by (by eapply (ch_disj _ _ _ HC)).
      assert (x = y) as -> by (by apply (nw_once _ WS)). done.
    + f_equal; by eapply (ch_disj _ _ _ HC).
Qed.
(** weights of nodes add up over disjoint chains *)
Lemma weights_le (v w : nat -> nat) :
  (forall x, x ∈ nx_nodes S -> v (nx_degree S x) <= sum_list_with (fun q => w (nx_degree T q)) (C x)) ->
  sum_list_with v (nx_degree S <$> nx_nodes S) <= sum_list_with w (nx_degree T <$> nx_nodes T).
Proof.
  intros H.
  assert (F : forall (f : nat -> nat) (h : A -> nat) l, sum_list_with f (h <$> l) = sum_list_with (fun a => f (h a)) l).
  { intros f h l. induction l; simpl; auto. }
  rewrite !F. transitivity (sum_list_with (fun q => w (nx_degree T q)) (concat (C <$> nx_nodes S))).
  - rewrite sum_with_concat. by apply sum_with_le.
  - apply sum_with_submseteq. apply NoDup_submseteq.
    + assert (Hn := nw_nodes _ WS). assert (Hsub : forall x, x ∈ nx_nodes S -> x ∈ nx_nodes S) by done. revert Hn Hsub.
      generalize (nx_nodes S) at 1 2 4. intros l ND Hsub. induction l as [|x l IH]; [apply NoDup_nil_2|]. rewrite fmap_cons. cbn [concat].
      inversion ND as [|? ? Hn Hd]; subst. apply NoDup_app. split; [apply (ch_nd _ _ _ HC), Hsub; left|]. split.
      * intros q Hq Hc. apply elem_concat in Hc as (y & Hy & Hqy).
        assert (x = y) as <-; [|done]. eapply (ch_disj _ _ _ HC); eauto; apply Hsub; [left|by right].
      * apply IH; [done|]. intros y Hy. apply Hsub. by right.
    + intros q Hq. apply elem_concat in Hq as (y & Hy & Hqy).
      by eapply (ch_in _ _ _ HC).
Qed.
Lemma nodes_le : length (nx_nodes S) <= length (nx_nodes T).
Proof.
  pose proof (weights_le (fun _ => 1) (fun _ => 1)) as H. rewrite !sum_with_const, !fmap_length in H.
  enough (1 * length (nx_nodes S) <= 1 * length (nx_nodes T)) by lia. apply H. intros x Hx. rewrite sum_with_const.
  destruct (ch_ne _ _ _ HC x Hx) as [q Hq]. destruct (C x); [by apply elem_of_nil in Hq|simpl; lia].
Qed.
End with_chains.
End counting.
