(** The tree-level pairing queue behaves like a multiset with minimum extraction. *)
From stdpp Require Import base list numbers.
From Verif Require Import Base QueueModel.

(** the order in which elements leave the queue *)
Definition node_le (a b : pnode) : Prop :=
  (pdist a < pdist b)%Z \/ (pdist a = pdist b /\ pdirt a <= pdirt b).

Lemma node_lt_le a b : node_lt a b = true <-> ~ node_le a b.
Proof.
  unfold node_lt, node_le. rewrite orb_true_iff, andb_true_iff, Z.ltb_lt, Z.eqb_eq, Nat.ltb_lt. lia.
Qed.
Lemma node_le_refl a : node_le a a.
Proof. unfold node_le. lia. Qed.
Lemma node_le_trans a b c : node_le a b -> node_le b c -> node_le a c.
Proof. unfold node_le. lia. Qed.
Lemma node_le_total a b : node_le a b \/ node_le b a.
Proof. unfold node_le. lia. Qed.

Fixpoint telems (t : ptree) : list pnode :=
  match t with PNode x d => x :: (fix go l := match l with [] => [] | t :: l => telems t ++ go l end) d end.
Definition felems (l : list ptree) : list pnode := flat_map telems l.
Lemma telems_eq x d : telems (PNode x d) = x :: felems d.
Proof. reflexivity. Qed.
Global Arguments telems : simpl never.

Inductive heap : ptree -> Prop :=
| heap_node x d : (forall t, t ∈ d -> heap t) -> (forall t, t ∈ d -> node_le x (proot t)) -> heap (PNode x d).

Lemma heap_min t : heap t -> forall y, y ∈ telems t -> node_le (proot t) y.
Proof.
  induction 1 as [x d H IH L]. intros y. rewrite telems_eq, elem_of_cons. intros [->|Y]; [apply node_le_refl|].
  unfold felems in Y. apply elem_of_list_In, in_flat_map in Y as (t & T & Y). apply elem_of_list_In in T, Y.
  simpl. eapply node_le_trans; eauto.
Qed.

Lemma merge_roots_elems a b : telems (merge_roots a b) ≡ₚ telems a ++ telems b.
Proof.
  destruct a as [x d], b as [y f]. unfold merge_roots. simpl.
  destruct (node_lt y x); rewrite !telems_eq; simpl; rewrite ?telems_eq.
  - apply perm_skip. simpl. solve_Permutation.
  - simpl. solve_Permutation.
Qed.
Lemma merge_roots_heap a b : heap a -> heap b -> heap (merge_roots a b).
Proof.
  intros A B. unfold merge_roots. destruct (node_lt (proot b) (proot a)) eqn:E.
  - apply node_lt_le in E. destruct A as [x d H L]. simpl in *. constructor.
    + intros t [->|T]%elem_of_cons; auto.
    + intros t [->|T]%elem_of_cons; auto. destruct (node_le_total x (proot b)); [done|]. tauto.
  - assert (~ ~ node_le (proot b) (proot a)) as E' by (rewrite <- node_lt_le, E; done).
    destruct B as [x d H L]. simpl in *. constructor.
    + intros t [->|T]%elem_of_cons; auto.
    + intros t [->|T]%elem_of_cons; auto. unfold node_le in *. lia.
Qed.
Lemma merge_loop_spec n : forall l r, length l <= n ->
  telems (merge_loop l r) ≡ₚ felems l ++ telems r /\
  ((forall t, t ∈ l -> heap t) -> heap r -> heap (merge_loop l r)).
Proof.
  induction n as [|n IH]; intros l r Ln.
  - destruct l; [|simpl in Ln; lia]. simpl. done.
  - destruct l as [|a [|b c]]; simpl.
    + done.
    + rewrite merge_roots_elems, app_nil_r. split; [done|]. intros H R. apply merge_roots_heap; [|done]. apply H. left.
    + destruct (IH c (merge_roots (merge_roots a b) r)) as [P H]; [simpl in Ln; lia|]. split.
      * rewrite P, !merge_roots_elems. solve_Permutation.
      * intros Hl Hr. apply H; [intros t T; apply Hl; by do 2 right|].
        apply merge_roots_heap; [|done]. apply merge_roots_heap; apply Hl; [left|right; left].
Qed.
Lemma merge_pairs_elems a l : telems (merge_pairs a l) ≡ₚ telems a ++ felems l.
Proof.
  unfold merge_pairs. destruct l as [|r c]; [simpl; by rewrite app_nil_r|].
  destruct (merge_loop_spec (length c) c (merge_roots a r)) as [P _]; [done|].
  rewrite P, merge_roots_elems. simpl. solve_Permutation.
Qed.
Lemma merge_pairs_heap a l : heap a -> (forall t, t ∈ l -> heap t) -> heap (merge_pairs a l).
Proof.
  intros A L. unfold merge_pairs. destruct l as [|r c]; [done|].
  destruct (merge_loop_spec (length c) c (merge_roots a r)) as [_ H]; [done|].
  apply H; [intros t T; apply L; by right|]. apply merge_roots_heap; [done|]. apply L. left.
Qed.

Definition qelems (q : pqueue) : list pnode := match qroot q with None => [] | Some t => telems t end.
Definition qheap (q : pqueue) : Prop := match qroot q with None => True | Some t => heap t end.

Lemma q_new_elems n : qelems (q_new n) = [] /\ qheap (q_new n).
Proof. done. Qed.
Lemma q_empty_elems q : q_empty q = true <-> qelems q = [].
Proof. unfold q_empty, qelems. destruct (qroot q) as [[x d]|]; rewrite ?telems_eq; done. Qed.
Lemma q_emplace_ok q x : qcount q < qsize q ->
  exists q', q_emplace q x = Ok q' /\ qelems q' ≡ₚ x :: qelems q /\ qcount q' = S (qcount q) /\ qsize q' = qsize q /\
    (qheap q -> qheap q').
Proof.
  intros H. unfold q_emplace. rewrite decide_True by done. eexists; split; [done|].
  unfold qelems, qheap. simpl. destruct (qroot q) as [t|].
  - rewrite merge_roots_elems. split; [done|]. split; [done|]. split; [done|]. intros Ht.
    apply merge_roots_heap; [|done]. constructor; intros ? X; by apply elem_of_nil in X.
  - split; [done|]. split; [done|]. split; [done|]. intros _. constructor; intros ? X; by apply elem_of_nil in X.
Qed.
Lemma q_top_pop_ok q : q_empty q = false -> qheap q ->
  exists z q', q_top q = Ok z /\ q_pop q = Ok q' /\ qelems q ≡ₚ z :: qelems q' /\ qheap q' /\
    qcount q' = qcount q /\ qsize q' = qsize q /\ (forall y, y ∈ qelems q -> node_le z y).
Proof.
  unfold q_empty, q_top, q_pop, qheap, qelems. destruct (qroot q) as [t|]; [|done]. intros _ H.
  exists (proot t). eexists. split; [done|]. split; [done|]. simpl.
  destruct t as [x d]. simpl in *. inversion H as [? ? Hd Hl]; subst.
  rewrite telems_eq. destruct d as [|a l].
  - simpl. repeat (split; [done|]). intros y Y. apply (heap_min _ H). by rewrite telems_eq.
  - split; [by rewrite merge_pairs_elems|]. split.
    { apply merge_pairs_heap; [apply Hd; left|]. intros t T. apply Hd. by right. }
    repeat (split; [done|]). intros y Y. apply (heap_min _ H). by rewrite telems_eq.
Qed.
