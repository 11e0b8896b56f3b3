(** Consequences of the run-level specification, in the form of the property theorems. *)
From stdpp Require Import base list numbers gmap sorting.
From Verif Require Import Base ChainModel EmbModel Spec SpecEmb QueueModel PathModel GraphModel SpecGraph ParamModel Wp SpecTop TopProofs2.

Lemma run_ok vg qg p o r : good_input vg qg p o -> find_embedding vg qg p o = Ok r ->
  outcome vg qg p r /\ (p_skip_init p = true -> good_start vg qg p /\ kept_or_improved vg qg p r).
Proof.
  intros G H. destruct (find_embedding_spec vg qg p o G) as (cp & R & _ & _ & _ & _ & W).
  rewrite H in W. simpl in W. tauto.
Qed.
Lemma run_err vg qg p o x : good_input vg qg p o -> find_embedding vg qg p o = Err x -> documented p x.
Proof.
  intros G H. destruct (find_embedding_spec vg qg p o G) as (cp & R & _ & _ & _ & _ & W).
  rewrite H in W. unfold documented. destruct x; simpl in W; tauto.
Qed.

Lemma success_embedding vg qg p o cs : good_input vg qg p o -> find_embedding vg qg p o = Ok (true, cs) ->
  exists l, cs = Some l /\ overlapping_embedding vg qg p l /\ disjoint_chains l.
Proof.
  intros G H. destruct (run_ok _ _ _ _ _ G H) as [O _]. unfold outcome in O. simpl in O.
  destruct cs as [l|]; [|naive_solver]. exists l. split; [done|].
  destruct O as [_ [[O D]|[? _]]]; [|done]. split; [done|]. by apply D.
Qed.

Lemma success_minor vg qg p o cs : good_input vg qg p o -> p_fixed p = [] ->
  find_embedding vg qg p o = Ok (true, cs) ->
  exists l, cs = Some l /\ length l = gn vg /\ (forall v q, has_qubit l v q -> q < gn qg) /\
    minor_embedding (gn vg) (edge vg) (edge qg) (has_qubit l).
Proof.
  intros G F H. destruct (success_embedding _ _ _ _ _ G H) as (l & -> & O & D). exists l. split; [done|].
  split; [apply O|]. split. { intros v q (C & HC & Hq). by apply (oe_nodup _ _ _ _ O v C HC). }
  assert (NF : forall v, ~ is_fixed p v). { intros v [C HC]. rewrite F in HC. by apply elem_of_nil in HC. }
  split.
  - intros v Hv. destruct (lookup_lt_is_Some_2 l v) as [C HC]; [by rewrite (oe_len _ _ _ _ O)|].
    destruct (oe_nodup _ _ _ _ O v C HC) as (_ & NE & _). destruct C as [|q C]; [done|]. exists q, (q :: C). split; [done|by left].
  - intros v Hv. by apply (oe_connected _ _ _ _ O).
  - intros u v q _ _. apply D.
  - intros u v Hu Hv Ev N. destruct (oe_edges _ _ _ _ O u v Ev N) as (a & b & Ha & Hb & [->|Hab]).
    + intros [K _]. by apply (NF u).
    + by destruct (N (D u v b Ha Hb)).
    + eauto.
Qed.

Lemma success_fixed vg qg p o cs : good_input vg qg p o -> find_embedding vg qg p o = Ok (true, cs) ->
  exists l, cs = Some l /\
    (forall v C, (v, C) ∈ p_fixed p -> forall q, has_qubit l v q <-> q ∈ C) /\
    (forall v C u q, (v, C) ∈ p_fixed p -> q ∈ C -> has_qubit l u q -> u = v) /\
    (forall v, v < gn vg -> ~ is_fixed p v -> (exists q, has_qubit l v q) /\ connected_in (edge qg) (has_qubit l v)) /\
    disjoint_chains l /\
    (forall u v, edge vg u v -> u <> v -> ~ (is_fixed p u /\ is_fixed p v) ->
       exists a b, has_qubit l u a /\ has_qubit l v b /\ edge qg a b).
Proof.
  intros G H. destruct (success_embedding _ _ _ _ _ G H) as (l & -> & O & D). exists l. split; [done|].
  split; [apply O|]. split.
  { intros v C u q Hv Hq Hu. apply (D u v q Hu). by apply (oe_fixed _ _ _ _ O v C). }
  split.
  { intros v Hv Nf. split; [|by apply O]. destruct (lookup_lt_is_Some_2 l v) as [C HC]; [by rewrite (oe_len _ _ _ _ O)|].
    destruct (oe_nodup _ _ _ _ O v C HC) as (_ & NE & _). destruct C as [|q C]; [done|]. exists q, (q :: C). split; [done|by left]. }
  split; [done|]. intros u v Ev N Nf. destruct (oe_edges _ _ _ _ O u v Ev N Nf) as (a & b & Ha & Hb & [->|Hab]); [|eauto].
  by destruct (N (D u v b Ha Hb)).
Qed.

Lemma run_safe vg qg p o : good_input vg qg p o -> match find_embedding vg qg p o with
  | Ok _ => True | Err x => x <> UB /\ x <> OOF /\ documented p x end.
Proof.
  intros G. destruct (find_embedding vg qg p o) as [r|x] eqn:H; [done|].
  pose proof (run_err _ _ _ _ _ G H) as D. split; [|split; [|done]]; intros ->; unfold documented in D; naive_solver.
Qed.

Lemma corrupt_iff vg qg p o : good_input vg qg p o ->
  exists cp R, decomposition qg R cp /\
    (find_embedding vg qg p o = Err Corrupt <-> ~ valid_chains vg cp p).
Proof.
  intros G. destruct (find_embedding_spec vg qg p o G) as (cp & R & D & _ & C & _ & W). exists cp, R. split; [done|].
  split; [|done]. intros H. rewrite H in W. simpl in W. naive_solver.
Qed.

Lemma bad_init_start vg qg p o : good_input vg qg p o -> p_skip_init p = true -> good_start vg qg p ->
  find_embedding vg qg p o <> Err BadInit.
Proof.
  intros G S GS H. destruct (find_embedding_spec vg qg p o G) as (cp & R & _ & _ & _ & _ & W).
  rewrite H in W. simpl in W. naive_solver.
Qed.
Lemma bad_start vg qg p o : good_input vg qg p o -> p_skip_init p = true -> ~ good_start vg qg p ->
  exists cp R, decomposition qg R cp /\
    (find_embedding vg qg p o = Err BadInit \/
     (find_embedding vg qg p o = Err TooSmall /\ too_small vg qg cp p) \/
     (find_embedding vg qg p o = Err Corrupt /\ ~ valid_chains vg cp p)).
Proof.
  intros G S NG. destruct (find_embedding_spec vg qg p o G) as (cp & R & D & _ & C & Bs & W). exists cp, R. split; [done|].
  assert (Bs' : valid_chains vg cp p -> find_embedding vg qg p o = Err BadInit \/
     (find_embedding vg qg p o = Err TooSmall /\ too_small vg qg cp p)) by auto. clear Bs.
  destruct (find_embedding vg qg p o) as [r|x] eqn:Ef; simpl in W; [naive_solver|].
  assert (NV : ~ valid_chains vg cp p -> x = Corrupt) by (intros H; specialize (C H); congruence).
  assert (YV : valid_chains vg cp p -> x = BadInit \/ x = TooSmall) by (intros H; destruct (Bs' H) as [?|[? _]]; [left|right]; congruence).
  destruct x; [done|done|by left|right; right; split; [done|]; naive_solver|right; left; split; [done|]; naive_solver| |].
  - exfalso. assert (~ valid_chains vg cp p) as K by (intros H; destruct (YV H); done). by specialize (NV K).
  - exfalso. assert (~ valid_chains vg cp p) as K by (intros H; destruct (YV H); done). by specialize (NV K).
Qed.
Lemma too_small_ok vg qg p o : good_input vg qg p o -> find_embedding vg qg p o = Err TooSmall ->
  exists cp R, decomposition qg R cp /\ too_small vg qg cp p.
Proof.
  intros G H. destruct (find_embedding_spec vg qg p o G) as (cp & R & D & _ & _ & _ & W). exists cp, R. split; [done|].
  rewrite H in W. simpl in W. naive_solver.
Qed.
Lemma run_no_oof vg qg p o : good_input vg qg p o -> find_embedding vg qg p o <> Err OOF.
Proof. intros G H. pose proof (run_safe vg qg p o G) as R. rewrite H in R. naive_solver. Qed.

Lemma chainlen_mono fuel e : forall ip s em last r, chainlen_loop fuel e ip s em last = r -> r <> Err OOF ->
  forall k, chainlen_loop (fuel + k) e ip s em last = r.
Proof.
  induction fuel as [|fuel IH]; intros ip s em last r H N k; cbn [chainlen_loop Nat.add] in *.
  { case_decide; [|congruence]. destruct k; cbn [chainlen_loop]; by rewrite decide_True. }
  case_decide; [done|].
  destruct (emb_assign last em) as [last1|]; cbn [rbind] in *; [|done].
  destruct (stats_back s) as [z|]; cbn [rbind] in *; [|done].
  destruct (improve_chainlength_pass e _ em) as [[[r1 s1] em1]|]; cbn [rbind] in *; [|done].
  destruct r1 as [| |[]].
  - destruct (emb_assign em1 last1); cbn [rbind] in *; [|done]. by apply IH.
  - done.
  - by apply IH.
  - by apply IH.
Qed.
