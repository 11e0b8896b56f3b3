(** The filter for subgraph embeddings, exactly. *)
Require Import Lia.
From stdpp Require Import base list numbers relations sorting.
From Verif Require Import Base NxModel SpecNx FeasModel SpecFeas FeasProofs1 FeasProofs2 FeasProofs3.

Lemma dominated (d : nat) (Td Sd : list nat) : length Sd <= length Td ->
  ~ Exists (fun p => p.1 < p.2) (zip (drop (length Td - length Sd) Td) Sd) -> sum_list_with (from d) Sd <= sum_list_with (from d) Td.
Proof.
  intros Hlen HE. rewrite <- (take_drop (length Td - length Sd) Td) at 1. rewrite sum_list_with_app.
  assert (Hd : length (drop (length Td - length Sd) Td) = length Sd) by (rewrite drop_length; lia).
  revert HE. generalize (sum_list_with (from d) (take (length Td - length Sd) Td)) as r. revert Hd. generalize (drop (length Td - length Sd) Td) as l. clear.
  induction Sd as [|s Sd IH]; intros l Hl r HE; [simpl; lia|]. destruct l as [|t l]; [done|]. simpl in HE |- *.
  assert (s <= t) by (destruct (decide (s <= t)); [done|]; exfalso; apply HE; left; simpl; lia).
  specialize (IH l ltac:(simpl in Hl; lia) r ltac:(intros H'; apply HE; by right)). unfold from at 1 3, ind.
  destruct (decide (d <= s)), (decide (d <= t)); lia.
Qed.

Lemma NoDup_take {B} n (l : list B) : NoDup l -> NoDup (take n l).
Proof. intros H. rewrite <- (take_drop n l) in H. by apply NoDup_app in H as [? _]. Qed.
Lemma elem_take {B} n (l : list B) x : x ∈ take n l -> x ∈ l.
Proof. intros H. rewrite <- (take_drop n l). apply elem_of_app. by left. Qed.
Section exact.
Context {A : Type} `{!EqDecision A}.
Implicit Types (g S T : nxgraph A).
Lemma degree_ge_iff g d x : nx_wf g -> no_loops g -> degree_ge g d x <-> d <= nx_degree g x.
Proof.
  intros W NL. split.
  - intros (l & ND & <- & Hl). by apply nbrs_degree.
  - intros Hd. destruct (star_nbrs g x W NL) as (l & ND & Hlen & Hl). exists (take d l). split; [|split].
    + by apply NoDup_take.
    + rewrite take_length. lia.
    + intros b Hb. apply Hl. by eapply elem_take.
Qed.
Lemma count_degree g d : sum_list_with (from d) (degrees_sorted g) = length (filter (fun x => d <= nx_degree g x) (nx_nodes g)).
Proof. rewrite (sum_with_perm _ _ _ (degrees_perm g)), sum_fmap, length_filter_sum. done. Qed.
Lemma as_many_iff S T d : nx_wf S -> nx_wf T -> no_loops S -> no_loops T ->
  as_many S T d <-> length (filter (fun x => d <= nx_degree S x) (nx_nodes S)) <= length (filter (fun x => d <= nx_degree T x) (nx_nodes T)).
Proof.
  intros WS WT NS NT. split.
  - intros H. destruct (H (filter (fun x => d <= nx_degree S x) (nx_nodes S))) as (l & ND & <- & Hl).
    + apply NoDup_filter, WS.
    + intros x Hx. apply elem_of_list_filter in Hx as [Hd Hx]. split; [done|]. by apply degree_ge_iff.
    + apply submseteq_length, NoDup_submseteq; [done|]. intros q Hq. apply Hl in Hq as [Hq Hd]. apply elem_of_list_filter. split; [|done]. by apply degree_ge_iff in Hd.
  - intros H l ND Hl. exists (take (length l) (filter (fun x => d <= nx_degree T x) (nx_nodes T))). split; [|split].
    + apply NoDup_take, NoDup_filter, WT.
    + rewrite take_length. assert (length l <= length (filter (fun x => d <= nx_degree S x) (nx_nodes S))); [|lia].
      apply submseteq_length, NoDup_submseteq; [done|]. intros x Hx. apply Hl in Hx as [Hx Hd]. apply elem_of_list_filter. split; [|done]. by apply degree_ge_iff in Hd.
    + intros q Hq. apply elem_take in Hq. apply elem_of_list_filter in Hq as [Hd Hq]. split; [done|]. by apply degree_ge_iff.
Qed.
Theorem filter_exact S T : nx_wf S -> nx_wf T -> no_loops S -> no_loops T ->
  feasibility_filter S T false true = Ok true <->
  length (nx_nodes S) <= length (nx_nodes T) /\ length (nx_edges S) <= length (nx_edges T) /\ forall d, as_many S T d.
Proof.
  intros WS WT NS NT. unfold feasibility_filter.
  destruct (length (nx_nodes T) <? length (nx_nodes S)) eqn:E1; [apply Nat.ltb_lt in E1; split; [done|intros; lia]|].
  destruct (length (nx_edges T) <? length (nx_edges S)) eqn:E2; [apply Nat.ltb_lt in E2; split; [done|intros; lia]|]. cbn [orb].
  apply Nat.ltb_ge in E1, E2.
  assert (Hmany : (forall d, as_many S T d) <-> forall d, sum_list_with (from d) (degrees_sorted S) <= sum_list_with (from d) (degrees_sorted T)).
  { split; intros H d; specialize (H d).
    - rewrite !count_degree. by apply as_many_iff.
    - rewrite !count_degree in H. by apply as_many_iff. }
  destruct (length (nx_nodes S) =? 0) eqn:E3.
  { apply Nat.eqb_eq in E3. split; [|done]. intros _. split; [done|]. split; [done|]. apply Hmany. intros d.
    rewrite count_degree. apply nil_length_inv in E3. rewrite E3. simpl. lia. }
  apply Nat.eqb_neq in E3. rewrite (proj2 (Nat.eqb_neq (length (nx_nodes T)) 0)) by lia. unfold degree_filter.
  destruct (bool_decide _) eqn:Eb.
  - apply bool_decide_eq_true in Eb. split; [done|]. intros (_ & _ & H). exfalso.
    destruct (undominated (degrees_sorted T) (degrees_sorted S)) as [j Hj]; [apply sorted_degrees|apply sorted_degrees|by rewrite !degrees_length|done|].
    rewrite Hmany in H. specialize (H j). lia.
  - apply bool_decide_eq_false in Eb. split; [|done]. intros _. split; [done|]. split; [done|]. apply Hmany. intros d. apply dominated; [by rewrite !degrees_length|done].
Qed.
End exact.
