(** Property theorems about quick passes, restricted and overlapping input chains, and histories of
    calls on one miner object: C23-C28, C57. *)
From stdpp Require Import base list numbers gmap sorting.
From Verif Require Import Base ChainModel EmbModel Spec SpecEmb QueueModel PathModel GraphModel SpecGraph ParamModel
  SpecTop TopProofs2 TopProofs3 P_run MinerModel SpecMiner MinerProofs3.

(** C57: a history of calls on one object.  [answer_ok] says, for each call, what its answer must
    be; a run of [find_embedding] that is stopped before it has placed everything hands back what
    the object held before. *)
Theorem C57_history_partial : forall vg qg p o cs,
  good_input vg qg p o -> Forall (good_call vg p) cs ->
  match miner_new vg qg p o with
  | Err x => documented p x
  | Ok m0 => match mrun p m0 cs with
    | Err x => documented p x
    | Ok (_, l) => length l = length cs /\
        forall k c a, cs !! k = Some c -> l !! k = Some a ->
          exists m, mrun p m0 (take k cs) = Ok (m, take k l) /\ mi_quick m = existsb is_quick (take k cs) /\
            answer_ok vg qg p (starts_after (p_initial p) (take k cs)) m c a
    end
  end.
Proof. exact history. Qed.
Print Assumptions C57_history_partial.

(** C23: without fixed chains, from any reachable object, starting from the initial chains or from
    those the object holds. *)
Theorem C23_quickpass_keeps_disjoint_partial : forall vg qg p o calls m l vs clb clear wt m' cs cs0,
  good_input vg qg p o -> p_fixed p = [] -> Forall (good_call vg p) calls -> reached vg qg p o calls m l -> good_table wt ->
  mstep p m (CQuick vs clb 0 false clear wt) = Ok (m', APass cs) ->
  pass_start vg p (starts_after (p_initial p) calls) m clear cs0 -> disjoint_chains cs0 ->
  disjoint_chains cs /\
  forall u v, u ∈ vs -> v ∈ vs -> edge vg u v -> u <> v -> has_chain cs u -> has_chain cs v -> touching (edge qg) (has_qubit cs) u v.
Proof. exact quick_disjoint. Qed.
Print Assumptions C23_quickpass_keeps_disjoint_partial.

(** C24: when the fixed variables have the largest labels.  A pass over [a ++ b] is a pass over
    [a] followed by one over [b]; a fixed variable is passed over; a pass over one variable connects
    it, links it to its neighbours that have chains, and neither gives nor takes away the chain of
    any other variable. *)
Theorem C24_in_order_partial : forall vg qg p o calls m l a b clb ov clear wt,
  good_input vg qg p o -> Forall (good_call vg p) calls -> reached vg qg p o calls m l ->
  fixed_last vg p -> good_table wt -> (forall v, v ∈ a ++ b -> v < gn vg) ->
  mstep p m (CQuick (a ++ b) clb ov false clear wt) =
    (let! (m1, _) := mstep p m (CQuick a clb ov false clear wt) in mstep p m1 (CQuick b clb ov false false wt)).
Proof. exact split_reached. Qed.
Print Assumptions C24_in_order_partial.
Theorem C24_fixed_skipped_partial : forall vg qg p o calls m l v clb ov ls wt,
  good_input vg qg p o -> Forall (good_call vg p) calls -> reached vg qg p o calls m l ->
  v < gn vg -> is_fixed p v -> existsb is_quick calls = true ->
  exists cs, miner_chains m = Ok cs /\ mstep p m (CQuick [v] clb ov ls false wt) = Ok (m, APass cs).
Proof. exact fixed_reached. Qed.
Print Assumptions C24_fixed_skipped_partial.
Theorem C24_one_variable_partial : forall vg qg p o calls m l v clb ov clear wt,
  good_input vg qg p o -> Forall (good_call vg p) calls -> reached vg qg p o calls m l -> fixed_last vg p -> good_table wt ->
  match mstep p m (CQuick [v] clb ov false clear wt) with
  | Ok (_, a) => exists cs cs0, a = APass cs /\ pass_start vg p (starts_after (p_initial p) calls) m clear cs0 /\
       pass_result vg qg p (fun w => w = v) (1 + ov) cs0 cs
  | Err x => documented p x end.
Proof. exact one_reached. Qed.
Print Assumptions C24_one_variable_partial.

(** C26: for initial chains away from the fixed ones. *)
Theorem C26_success_avoids_fixed_partial : forall vg qg p o cs,
  good_input vg qg p o -> find_embedding vg qg p o = Ok (true, cs) ->
  exists l, cs = Some l /\ forall v q, ~ is_fixed p v -> has_qubit l v q -> ~ in_fixed p q.
Proof.
  intros vg qg p o cs G H. destruct (success_embedding vg qg p o cs G H) as (l & -> & O & _). exists l. split; [done|]. apply O.
Qed.
Print Assumptions C26_success_avoids_fixed_partial.

(** C27: for disjoint, nonempty fixed chains. *)
Theorem C27_permutation_entries_partial : forall vg qg p o pp e,
  good_input vg qg p o -> process vg qg p (o_sort o) = Ok pp -> make_env pp p o = Ok e ->
  forall v, v < gn vg -> exists r, perm (sr (pathfinder_new e (pp_vnbrs pp))) !! v = Some r /\ r ≡ₚ seq 0 (nq (pb e)).
Proof. exact perm_entries. Qed.
Print Assumptions C27_permutation_entries_partial.

(** C28: local searches that start from complete chains: complete initial chains, or the chains
    of a successful [find_embedding]. *)
Theorem C28_local_search_from_start_partial : forall vg qg p o calls m l vs clb ov clear wt,
  good_input vg qg p o -> Forall (good_call vg p) calls -> reached vg qg p o calls m l ->
  good_table wt -> fixed_last vg p -> NoDup vs ->
  clear = true \/ existsb is_quick calls = false -> good_start vg qg (start_with p (starts_after (p_initial p) calls)) ->
  match mstep p m (CQuick vs clb ov true clear wt) with
  | Ok (_, a) => exists cs cs0, a = APass cs /\ pass_start vg p (starts_after (p_initial p) calls) m clear cs0 /\
       pass_result vg qg p (fun v => v ∈ vs) (Z.max 1 (1 + ov)) cs0 cs
  | Err x => documented p x end.
Proof. exact local_start. Qed.
Print Assumptions C28_local_search_from_start_partial.
Theorem C28_local_search_strategy_partial : forall vg qg p o calls m l vo clb ov clear wt,
  good_input vg qg p o -> Forall (good_call vg p) calls -> reached vg qg p o calls m l ->
  good_table wt -> vo <> VO_KEEP ->
  clear = true \/ existsb is_quick calls = false -> good_start vg qg (start_with p (starts_after (p_initial p) calls)) ->
  match mstep p m (CStrategy vo clb ov true clear wt) with
  | Ok (_, a) => exists cs cs0, a = APass cs /\ pass_start vg p (starts_after (p_initial p) calls) m clear cs0 /\
       pass_result vg qg p (fun v => v < gn vg /\ ~ is_fixed p v) (Z.max 1 (1 + ov)) cs0 cs
  | Err x => documented p x end.
Proof. exact local_start_all. Qed.
Print Assumptions C28_local_search_strategy_partial.
Theorem C28_local_search_after_success_partial : forall vg qg p o calls m l fs m1 vs clb ov wt,
  good_input vg qg p o -> Forall (good_call vg p) calls -> reached vg qg p o calls m l ->
  existsb is_quick calls = true -> mstep p m CFind = Ok (m1, AFound true fs) ->
  good_table wt -> fixed_last vg p -> NoDup vs ->
  match mstep p m1 (CQuick vs clb ov true false wt) with
  | Ok (_, a) => exists cs cs0, a = APass cs /\ miner_chains m1 = Ok cs0 /\
       pass_result vg qg p (fun v => v ∈ vs) (Z.max 1 (1 + ov)) cs0 cs
  | Err x => documented p x end.
Proof. exact local_found. Qed.
Print Assumptions C28_local_search_after_success_partial.

(** ** Concrete inputs *)
Definition ex_wt : Z -> Z -> Z := fun _ c => (c + 1)%Z.
Lemma ex_wt_ok : good_table ex_wt.
Proof. intros m c Hc. unfold ex_wt, max_distance. lia. Qed.

(** [good_input] except for the restricted chains and the initial chains, by computation *)
Definition graph_b (g : graph) : bool := forallb (fun e => bool_decide (e.1 < gn g) && bool_decide (e.2 < gn g)) (ge g) && bool_decide (0 < gn g).
Definition chain_b (n k : nat) (x : nat * list nat) : bool :=
  bool_decide (x.1 < n) && bool_decide (x.2 <> []) && bool_decide (NoDup x.2) && forallb (fun q => bool_decide (q < k)) x.2.
Definition apart_b (x y : nat * list nat) : bool := bool_decide (x.1 = y.1) || forallb (fun q => negb (bool_decide (q ∈ y.2))) x.2.
Definition start_b (fx : cmap) (x : nat * list nat) : bool :=
  bool_decide (x.2 <> []) && bool_decide (NoDup x.2) && forallb (fun y => negb (bool_decide (x.1 = y.1)) && forallb (fun q => negb (bool_decide (q ∈ y.2))) x.2) fx.
Definition allowed_b (p : params) (v q : nat) : bool :=
  forallb (fun x => negb (bool_decide (x.1 = v)) || bool_decide (q ∈ x.2)) (p_restrict p).
(** decides [even_restriction]: the areas of two ends [b], [b'] of edges at [a] *)
Definition even_b (vg qg : graph) (p : params) : bool :=
  let ed := ge vg ++ map (fun e => (e.2, e.1)) (ge vg) in
  let qs := seq 0 (gn qg) in
  forallb (fun e => forallb (fun e' => negb (bool_decide (e.1 = e'.1)) ||
    forallb (fun q => negb (allowed_b p e.1 q || allowed_b p e.2 q) || (allowed_b p e.1 q || allowed_b p e'.2 q)) qs) ed) ed.
Definition input_b (vg qg : graph) (p : params) (o : oracle) : bool :=
  graph_b vg && graph_b qg && bool_decide (NoDup (p_restrict p).*1) && (bool_decide (p_restrict p = []) || even_b vg qg p) && bool_decide (NoDup (p_fixed p).*1) && bool_decide (NoDup (p_initial p).*1)
  && forallb (chain_b (gn vg) (gn qg)) (p_fixed p) && forallb (fun x => forallb (apart_b x) (p_fixed p)) (p_fixed p)
  && forallb (start_b (p_fixed p)) (p_initial p)
  && (bool_decide (p_fixed p = []) || forallb (fun x => existsb (fun e => bool_decide (x = e.1) || bool_decide (x = e.2)) (ge qg)) (seq 0 (gn qg)))
  && (Z.of_nat (gn qg) <? 2147483648)%Z
  && (Z.of_nat (p_chainlength_patience p) * ((Z.of_nat (gn vg) + 1) ^ Z.of_nat (S (gn qg)) + 1) <=? Z.of_nat (o_fuel o))%Z.
Lemma forallb_elem {A} (f : A -> bool) l x : forallb f l = true -> x ∈ l -> f x = true.
Proof. intros H Hx. rewrite forallb_forall in H. apply H. by apply elem_of_list_In. Qed.
Lemma ex_good vg qg p o : o_sort o = run_sort -> (forall margin m c, (0 <= c < 64)%Z -> (0 <= o_wtab o margin m c <= max_distance)%Z) ->
  input_b vg qg p o = true -> good_input vg qg p o.
Proof.
  intros Hs Hw H. unfold input_b in H. rewrite !andb_true_iff in H.
  destruct H as (((((((((((H1 & H2) & H3) & H12) & H4) & H5) & H6) & H7) & H8) & H9) & H10) & H11).
  unfold graph_b in H1, H2. apply andb_true_iff in H1 as [H1a H1b], H2 as [H2a H2b].
  apply bool_decide_eq_true in H1b, H2b, H3, H4, H5. apply Z.ltb_lt in H10. apply Z.leb_le in H11.
  assert (W : forall g, forallb (fun e => bool_decide (e.1 < gn g) && bool_decide (e.2 < gn g)) (ge g) = true -> graph_wf g).
  { intros g Hg a b Hab. pose proof (forallb_elem _ _ _ Hg Hab) as K. apply andb_true_iff in K as [K1%bool_decide_eq_true K2%bool_decide_eq_true]. done. }
  split; auto.
  - rewrite Hs. apply run_sort_ok.
  - apply orb_true_iff in H12 as [H12%bool_decide_eq_true|H12]; [by apply TopProofs.unrestricted_even|].
    assert (AL : forall v q, allowed_b p v q = true <-> allowed p v q).
    { intros v q. unfold allowed_b, allowed. rewrite forallb_forall. split.
      - intros K C HC%elem_of_list_In. specialize (K _ HC). simpl in K. rewrite bool_decide_true in K by done. by apply bool_decide_eq_true in K.
      - intros K [w C] HC%elem_of_list_In. simpl. destruct (decide (w = v)) as [->|N]; [|by rewrite bool_decide_false].
        apply K in HC. apply orb_true_iff. right. by apply bool_decide_eq_true. }
    intros u v v' q Hq _ _ Ev Ev' Ha.
    assert (EI : forall a b, edge vg a b -> (a, b) ∈ ge vg ++ map (fun e => (e.2, e.1)) (ge vg)).
    { intros a b [Hab|Hab]; apply elem_of_app; [by left|right]. apply elem_of_list_fmap. by exists (b, a). }
    unfold even_b in H12. pose proof (forallb_elem _ _ _ (forallb_elem _ _ _ H12 (EI _ _ Ev)) (EI _ _ Ev')) as K. simpl in K.
    rewrite bool_decide_true in K by done. simpl in K. assert (Hin : q ∈ seq 0 (gn qg)) by (apply elem_of_seq; lia).
    apply (forallb_elem _ _ _ K) in Hin. apply orb_true_iff in Hin as [X|X].
    + apply negb_true_iff, orb_false_iff in X as [X1 X2]. destruct Ha as [Ha|Ha]; apply AL in Ha; congruence.
    + apply orb_true_iff in X as [X|X]; apply AL in X; auto.
  - intros v C HC. pose proof (forallb_elem _ _ _ H6 HC) as K. unfold chain_b in K. rewrite !andb_true_iff in K. destruct K as (((K1 & K2) & K3) & K4).
    apply bool_decide_eq_true in K1, K2, K3. do 3 (split; [done|]). intros q Hq. by apply (forallb_elem _ _ _ K4), bool_decide_eq_true in Hq.
  - intros v C v' C' q HC HC' Q Q'. pose proof (forallb_elem _ _ _ (forallb_elem _ _ _ H7 HC) HC') as K. unfold apart_b in K. apply orb_true_iff in K as [K%bool_decide_eq_true|K]; [done|].
    apply (forallb_elem _ _ _ K), negb_true_iff, bool_decide_eq_false in Q. done.
  - intros v C HC. pose proof (forallb_elem _ _ _ H8 HC) as K. unfold start_b in K. rewrite !andb_true_iff in K. destruct K as ((K1 & K2) & K3).
    apply bool_decide_eq_true in K1, K2. do 2 (split; [done|]). split.
    + intros [D HD]. pose proof (forallb_elem _ _ _ K3 HD) as K. apply andb_true_iff in K as [K _]. simpl in K. by rewrite bool_decide_true in K.
    + intros q Hq (w & D & HD & Qd). pose proof (forallb_elem _ _ _ K3 HD) as K. apply andb_true_iff in K as [_ K].
      apply (forallb_elem _ _ _ K), negb_true_iff, bool_decide_eq_false in Hq. done.
  - apply orb_true_iff in H9 as [H9%bool_decide_eq_true|H9]; [by left|right]. intros x Hx.
    assert (Hin : x ∈ seq 0 (gn qg)) by (apply elem_of_seq; lia). pose proof (forallb_elem _ _ _ H9 Hin) as K.
    apply existsb_exists in K as ([a b] & Hab%elem_of_list_In & K). apply orb_true_iff in K as [K%bool_decide_eq_true|K%bool_decide_eq_true]; simpl in K; subst x;
      [exists b; by left|exists a; by right].
Qed.

Definition ex_answers (o : oracle) (vg qg : graph) (p : params) (cs : list call) : res (list answer) :=
  let! m := miner_new vg qg p o in let! (_, l) := mrun p m cs in Ok l.
Definition ex_path : graph := mkGraph 3 [(0, 1); (1, 2)].
Lemma answers_reached o vg qg p cs l : ex_answers o vg qg p cs = Ok l -> exists m, reached vg qg p o cs m l.
Proof.
  unfold ex_answers. intros H. destruct (miner_new vg qg p o) as [m0|x] eqn:E0; [|done]. cbn [rbind] in H.
  destruct (mrun p m0 cs) as [[m l']|x] eqn:E1; [|done]. simplify_eq/=. exists m, m0. done.
Qed.
(** one more call: the answers before it, whether a quick pass was made, the chains held, and its answer *)
Definition ex_step (o : oracle) (vg qg : graph) (p : params) (cs : list call) (c : call) : res (list answer * bool * list (list nat) * answer) :=
  let! m := miner_new vg qg p o in let! (m, l) := mrun p m cs in let! ch := miner_chains m in
  let! (_, a) := mstep p m c in Ok (l, mi_quick m, ch, a).
Lemma step_reached o vg qg p cs c l q ch a : ex_step o vg qg p cs c = Ok (l, q, ch, a) ->
  exists m m', reached vg qg p o cs m l /\ mi_quick m = q /\ miner_chains m = Ok ch /\ mstep p m c = Ok (m', a).
Proof.
  unfold ex_step. intros H. destruct (miner_new vg qg p o) as [m0|x] eqn:E0; [|done]. cbn [rbind] in H.
  destruct (mrun p m0 cs) as [[m l']|x] eqn:E1; [|done]. cbn [rbind] in H. destruct (miner_chains m) as [ch'|x] eqn:E2; [|done]. cbn [rbind] in H.
  destruct (mstep p m c) as [[m' a']|x] eqn:E3; [|done]. simplify_eq/=. exists m, m'. split; [by exists m0|done].
Qed.
Ltac ex_go := first [apply ex_good; [reflexivity|intros ? ? ? ?; cbn; unfold max_distance; lia|vm_compute; reflexivity]].

(** ** Nonvacuity *)
Definition ex_calls : list call :=
  [CQuick [2; 1; 0] 0 0 false true ex_wt; CFind; CInit [(0, [0]); (1, [1])]; CStrategy VO_BFS 1 1 false true ex_wt; CQuick [1] 0 0 false false ex_wt].
Example C57_case : good_input ex_path run_qg (run_p false [(2, [3])] []) run_o /\ Forall (good_call ex_path (run_p false [(2, [3])] [])) ex_calls /\
  exists m, reached ex_path run_qg (run_p false [(2, [3])] []) run_o ex_calls m
    [APass [[1]; [0]; [3]]; AFound true (Some [[1]; [0]; [3]]); ADone; APass [[0]; []; [3]]; APass [[0; 1]; [2]; [3]]].
Proof.
  split; [ex_go|]. split; [|apply answers_reached; vm_compute; reflexivity].
  assert (F : fixed_last ex_path (run_p false [(2, [3])] [])).
  { intros v w [C HC] Hw Hn. apply elem_of_list_singleton in HC. injection HC as -> ->. simpl in Hw. destruct (decide (w = 2)) as [->|]; [|lia].
    destruct Hn. exists [3]. apply elem_of_list_here. }
  unfold ex_calls. rewrite !Forall_cons. unfold good_call. split_and!; try done; try apply ex_wt_ok; try exact F; try apply Forall_nil_2.
  unfold good_chains. split.
  - apply (bool_decide_unpack _). vm_compute. done.
  - intros v C HC. apply elem_of_cons in HC as [HC|HC]; [|apply elem_of_list_singleton in HC]; injection HC as -> ->;
    (split; [done|]; split; [apply NoDup_singleton|]; split;
     [intros [D HD]; apply elem_of_list_singleton in HD; injection HD; lia
     |intros q Hq (w & D & HD & Qd); apply elem_of_list_singleton in HD, Hq; injection HD as -> ->; apply elem_of_list_singleton in Qd; lia]).
Qed.
Example C23_case : good_input ex_path run_qg (run_p false [] []) run_o /\
  exists m m' cs, reached ex_path run_qg (run_p false [] []) run_o [CQuick [0; 1] 0 0 false true ex_wt] m [APass [[0]; [1]; []]] /\
    pass_start ex_path (run_p false [] []) [] m false [[0]; [1]; []] /\ disjoint_chains [[0]; [1]; []] /\
    mstep (run_p false [] []) m (CQuick [2; 1] 0 0 false false ex_wt) = Ok (m', APass cs) /\ has_chain cs 1 /\ has_chain cs 2.
Proof.
  split; [ex_go|].
  assert (H : exists cs, ex_step run_o ex_path run_qg (run_p false [] []) [CQuick [0; 1] 0 0 false true ex_wt] (CQuick [2; 1] 0 0 false false ex_wt)
    = Ok ([APass [[0]; [1]; []]], true, [[0]; [1]; []], APass cs) /\ has_chain cs 1 /\ has_chain cs 2).
  { eexists. split; [vm_compute; reflexivity|]. split; eexists _, _; (split; [reflexivity|apply elem_of_list_here]). }
  destruct H as (cs & H & H1 & H2). apply step_reached in H as (m & m' & R & Q & C & S). exists m, m', cs.
  split; [done|]. split; [unfold pass_start; by rewrite Q|]. split; [|done].
  intros u v q (X & HX & QX) (Y & HY & QY). destruct u as [|[|[|u]]], v as [|[|[|v]]]; simpl in HX, HY; simplify_eq; try done; set_solver.
Qed.

(** C28: a complete start *)
Example C28_case : good_input ex_path run_qg (run_p false [] [(0, [0]); (1, [1]); (2, [2])]) run_o /\
  good_start ex_path run_qg (run_p false [] [(0, [0]); (1, [1]); (2, [2])]) /\
  exists m m', reached ex_path run_qg (run_p false [] [(0, [0]); (1, [1]); (2, [2])]) run_o [CFind] m [AFound true (Some [[0]; [1]; [2]])] /\
    mstep (run_p false [] [(0, [0]); (1, [1]); (2, [2])]) m (CQuick [1; 2; 0] 1 0 true true ex_wt) = Ok (m', APass [[0]; [3]; [2]]).
Proof.
  split; [ex_go|]. split.
  - assert (NF : forall v, ~ is_fixed (run_p false [] [(0, [0]); (1, [1]); (2, [2])]) v) by (intros v [C HC]; by apply elem_of_nil in HC).
    assert (S : forall v q, starting (run_p false [] [(0, [0]); (1, [1]); (2, [2])]) v q <-> v < 3 /\ q = v).
    { intros v q. unfold starting. split.
      - intros (C & HC & Hq). simpl in HC. rewrite !elem_of_cons, elem_of_nil in HC. destruct HC as [[= -> ->]|[[= -> ->]|[[= -> ->]|[]]]]; apply elem_of_list_singleton in Hq; lia.
      - intros [Hv ->]. exists [v]. split; [|by apply elem_of_list_singleton].
        simpl. destruct v as [|[|[|v]]]; [..|lia]; set_solver. }
    split.
    + intros v Hv. exists v. by apply S.
    + intros v Hv _ x y Hx%S Hy%S. destruct Hx as [_ ->], Hy as [_ ->]. apply rtc_refl.
    + intros u v E Huv _. simpl in E. exists u, v. rewrite !S.
      assert (K : (u < 3 /\ v < 3) /\ edge run_qg u v); [|naive_solver].
      unfold edge, ex_path, run_qg in *. simpl in *. rewrite !elem_of_cons, !elem_of_nil in *. naive_solver lia.
  - assert (H : ex_step run_o ex_path run_qg (run_p false [] [(0, [0]); (1, [1]); (2, [2])]) [CFind] (CQuick [1; 2; 0] 1 0 true true ex_wt)
      = Ok ([AFound true (Some [[0]; [1]; [2]])], false, [[0]; [1]; [2]], APass [[0]; [3]; [2]])) by (vm_compute; reflexivity).
    apply step_reached in H as (m & m' & R & _ & _ & S). by exists m, m'.
Qed.

(** ** Refutations of the full statements *)
(** C57: a [find_embedding] that is stopped while it places the first chains returns the chains of
    an earlier quick pass, here with one variable left out *)
Definition ex_stopped : oracle := mkOracle (fun n => n * 7 + n / 3) (fun _ => STimeout) (fun _ _ c => (c + 1)%Z) run_sort 2050.
Theorem C57_refuted : ~ forall vg qg p o cs m l m' ok ch,
  good_input vg qg p o -> Forall (good_call vg p) cs -> reached vg qg p o cs m l ->
  mstep p m CFind = Ok (m', AFound ok (Some ch)) -> overlapping_embedding vg qg p ch.
Proof.
  intros H.
  assert (S : ex_step ex_stopped ex_path run_qg (run_p false [] []) [CQuick [0; 1] 0 0 false true ex_wt] CFind
    = Ok ([APass [[0]; [1]; []]], true, [[0]; [1]; []], AFound false (Some [[0]; [1]; []]))) by (vm_compute; reflexivity).
  apply step_reached in S as (m & m' & R & _ & _ & S).
  assert (O : overlapping_embedding ex_path run_qg (run_p false [] []) [[0]; [1]; []]).
  { refine (H _ _ _ _ _ _ _ _ _ _ _ _ R S); [ex_go|]. constructor; [|constructor]. split; [done|]. split; [apply ex_wt_ok|].
    intros v w [C HC]. by apply elem_of_nil in HC. }
  destruct (oe_nodup _ _ _ _ O 2 [] eq_refl) as (_ & N & _). by apply N.
Qed.
Print Assumptions C57_refuted.

(** C23: a fixed chain lengthens the chain of its neighbour only after a root was found, which may
    run over a chain that was there before *)
Theorem C23_refuted : ~ forall vg qg p o calls m l vs clb clear wt m' cs cs0,
  good_input vg qg p o -> Forall (good_call vg p) calls -> reached vg qg p o calls m l -> good_table wt -> fixed_last vg p ->
  mstep p m (CQuick vs clb 0 false clear wt) = Ok (m', APass cs) ->
  pass_start vg p (starts_after (p_initial p) calls) m clear cs0 -> disjoint_chains cs0 -> disjoint_chains cs.
Proof.
  intros H. set (p := run_p false [(2, [2])] [(0, [0])]).
  assert (S : ex_step run_o (mkGraph 3 [(1, 2)]) (mkGraph 3 [(0, 1); (0, 2)]) p [CInit [(0, [0])]] (CQuick [1] 0 0 false true ex_wt)
    = Ok ([ADone], false, [[]; []; []], APass [[0]; [0; 1]; [2]])) by (vm_compute; reflexivity).
  apply step_reached in S as (m & m' & R & _ & _ & S).
  assert (F : forall v, is_fixed p v <-> v = 2).
  { intros v. split; [intros [C HC]; apply elem_of_list_singleton in HC; by injection HC|intros ->; exists [2]; apply elem_of_list_here]. }
  assert (D : disjoint_chains [[0]; [0; 1]; [2]]).
  { refine (H (mkGraph 3 [(1, 2)]) (mkGraph 3 [(0, 1); (0, 2)]) p run_o [CInit [(0, [0])]] m [ADone] [1] 0 true ex_wt m' _ [[0]; []; [2]] _ _ R ex_wt_ok _ S _ _).
    - ex_go.
    - constructor; [|constructor]. split; [apply NoDup_singleton|]. intros v C HC. apply elem_of_list_singleton in HC. injection HC as -> ->.
      split; [done|]. split; [apply NoDup_singleton|]. split; [rewrite F; lia|].
      intros q Hq (w & D & HD & Qd). apply elem_of_list_singleton in HD, Hq. injection HD as -> ->. apply elem_of_list_singleton in Qd. lia.
    - intros v w ->%F Hw Hn. rewrite F in Hn. simpl in Hw. lia.
    - unfold pass_start. simpl. split; [done|]. unfold starting. intros v C HC.
      destruct v as [|[|[|v]]]; simpl in HC; simplify_eq; (split; [apply (bool_decide_unpack _); vm_compute; done|]); intros q.
      + split.
        * intros ->%elem_of_list_singleton. exists [0]. split; [apply elem_of_list_further|]; apply elem_of_list_here.
        * intros (D & HD & Hq). simpl in HD. rewrite !elem_of_cons, elem_of_nil in HD. destruct HD as [[= ->]|[[= ->]|[]]]; done.
      + split; [intros Hq; by apply elem_of_nil in Hq|].
        intros (D & HD & Hq). simpl in HD. rewrite !elem_of_cons, elem_of_nil in HD. by destruct HD as [[= ->]|[[= ->]|[]]].
      + split.
        * intros ->%elem_of_list_singleton. exists [2]. split; apply elem_of_list_here.
        * intros (D & HD & Hq). simpl in HD. rewrite !elem_of_cons, elem_of_nil in HD. destruct HD as [[= ->]|[[= ->]|[]]]; done.
    - intros u v q (X & HX & QX) (Y & HY & QY). destruct u as [|[|[|u]]], v as [|[|[|v]]]; simpl in HX, HY; simplify_eq; try done; set_solver. }
  assert (0 = 1); [|done]. apply (D 0 1 0); eexists; (split; [reflexivity|]); apply elem_of_list_here.
Qed.
Print Assumptions C23_refuted.

(** C24: with a fixed variable before free ones, a pass over variable 1 places variable 2
    instead, and a pass over variable 2 moves the fixed chain of variable 0 *)
Theorem C24_refuted : exists vg qg p o, good_input vg qg p o /\
  (exists m, reached vg qg p o [CQuick [1] 0 0 false true ex_wt] m [APass [[0]; []; [2]]]) /\ ~ is_fixed p 1 /\
  (exists m, reached vg qg p o [CQuick [2] 0 0 false true ex_wt] m [APass [[3]; []; []]]) /\ (0, [0]) ∈ p_fixed p.
Proof.
  exists ex_path, run_qg, (run_p false [(0, [0])] []), run_o. split; [ex_go|]. split; [apply answers_reached; vm_compute; reflexivity|].
  split; [intros [C HC]; apply elem_of_list_singleton in HC; discriminate|].
  split; [apply answers_reached; vm_compute; reflexivity|]. apply elem_of_list_here.
Qed.
Print Assumptions C24_refuted.

(** C25: variable 0 may only use qubit 0, and is placed on qubit 1 in a successful run *)
Theorem C25_refuted : exists vg qg p o l v C q, graph_wf vg /\ graph_wf qg /\ sorts_by_size (o_sort o) /\ p_fixed p = [] /\
  (forall w D, (w, D) ∈ p_restrict p -> D <> [] /\ forall x, x ∈ D -> x < gn qg) /\
  (forall w D x, (w, D) ∈ p_initial p -> x ∈ D -> exists A, (w, A) ∈ p_restrict p /\ x ∈ A) /\
  find_embedding vg qg p o = Ok (true, Some l) /\ (v, C) ∈ p_restrict p /\ has_qubit l v q /\ q ∉ C.
Proof.
  exists (mkGraph 3 [(0, 1); (0, 2)]), (mkGraph 4 [(0, 1); (1, 2); (1, 3)]),
    (mkParams 10 10 0 true 10 100 true 2 1 false [] [(1, [2]); (2, [3])] [(0, [0]); (1, [1; 2]); (2, [1; 3])]), run_o,
    [[1]; [2]; [3]], 0, [0], 1.
  split_and!; try apply run_sort_ok; try done.
  - intros a b. simpl. rewrite !elem_of_cons, elem_of_nil. naive_solver lia.
  - intros a b. simpl. rewrite !elem_of_cons, elem_of_nil. naive_solver lia.
  - intros w D. simpl. rewrite !elem_of_cons, elem_of_nil.
    intros [[= -> ->]|[[= -> ->]|[[= -> ->]|[]]]]; (split; [done|]); intros x; rewrite !elem_of_cons, elem_of_nil; lia.
  - intros w D x. simpl. rewrite !elem_of_cons, elem_of_nil.
    intros [[= -> ->]|[[= -> ->]|[]]] Hx; apply elem_of_list_singleton in Hx as ->; [exists [1; 2]|exists [1; 3]]; set_solver.
  - apply elem_of_list_here.
  - exists [1]. split; [done|apply elem_of_list_here].
  - rewrite elem_of_list_singleton. lia.
Qed.
Print Assumptions C25_refuted.

(** C26: an initial chain on a fixed qubit stays there *)
Theorem C26_refuted : exists vg qg p o l v q, graph_wf vg /\ graph_wf qg /\ sorts_by_size (o_sort o) /\
  find_embedding vg qg p o = Ok (true, Some l) /\ ~ is_fixed p v /\ has_qubit l v q /\ in_fixed p q.
Proof.
  exists (mkGraph 2 [(0, 1)]), run_qg, (run_p true [(1, [0])] [(0, [0])]), run_o, [[0]; [0]], 0, 0.
  split_and!; try apply run_sort_ok; try done.
  - intros a b. simpl. rewrite !elem_of_cons, elem_of_nil. naive_solver lia.
  - intros a b. simpl. rewrite !elem_of_cons, elem_of_nil. naive_solver lia.
  - intros [C HC]. apply elem_of_list_singleton in HC. discriminate.
  - exists [0]. split; [done|apply elem_of_list_here].
  - exists 1, [0]. split; apply elem_of_list_here.
Qed.
Print Assumptions C26_refuted.

(** C27: fixed chains that overlap pass the parameter checks; the permutation table is then too
    short, and a run indexes beyond its end *)
Theorem C27_refuted : exists vg qg p o pp e v, graph_wf vg /\ graph_wf qg /\ sorts_by_size (o_sort o) /\
  process vg qg p (o_sort o) = Ok pp /\ make_env pp p o = Ok e /\ v < gn vg /\
  perm (sr (pathfinder_new e (pp_vnbrs pp))) !! v = None /\ find_embedding vg qg p o = Err UB.
Proof.
  set (vg := mkGraph 3 [(0, 1); (0, 2)]). set (p := run_p false [(1, [0]); (2, [0])] []).
  assert (K : exists pp e, process vg run_qg p run_sort = Ok pp /\ make_env pp p run_o = Ok e /\ perm (sr (pathfinder_new e (pp_vnbrs pp))) !! 2 = None).
  { destruct (process vg run_qg p run_sort) as [pp|x] eqn:E1; [|by vm_compute in E1].
    destruct (make_env pp p run_o) as [e|x] eqn:E2; [|exfalso; revert E2; vm_compute in E1; injection E1 as <-; by vm_compute].
    exists pp, e. split; [done|]. split; [done|]. vm_compute in E1. injection E1 as <-. vm_compute in E2. injection E2 as <-. vm_compute. done. }
  destruct K as (pp & e & K1 & K2 & K3). exists vg, run_qg, p, run_o, pp, e, 2.
  split_and!; try apply run_sort_ok; try done.
  - intros a b. simpl. rewrite !elem_of_cons, elem_of_nil. naive_solver lia.
  - intros a b. simpl. rewrite !elem_of_cons, elem_of_nil. naive_solver lia.
  - simpl. lia.
Qed.
Print Assumptions C27_refuted.

(** C28: a local search from a partial start uses a link that is not there *)
Theorem C28_refuted : exists vg qg p o m0, good_input vg qg p o /\ p_fixed p = [] /\ miner_new vg qg p o = Ok m0 /\
  mstep p m0 (CQuick [1] 0 0 true true ex_wt) = Err UB.
Proof.
  assert (K : exists m0, miner_new ex_path run_qg (run_p false [] [(0, [0])]) run_o = Ok m0 /\
    mstep (run_p false [] [(0, [0])]) m0 (CQuick [1] 0 0 true true ex_wt) = Err UB).
  { assert (H : (let! m := miner_new ex_path run_qg (run_p false [] [(0, [0])]) run_o in
      Ok (match mstep (run_p false [] [(0, [0])]) m (CQuick [1] 0 0 true true ex_wt) with Err UB => true | _ => false end)) = Ok true) by (vm_compute; reflexivity).
    destruct (miner_new ex_path run_qg (run_p false [] [(0, [0])]) run_o) as [m0|x]; [|done]. cbn [rbind] in H. exists m0. split; [done|].
    destruct (mstep _ m0 _) as [?|[]]; done. }
  destruct K as (m0 & K1 & K2). exists ex_path, run_qg, (run_p false [] [(0, [0])]), run_o, m0. split; [ex_go|]. done.
Qed.
Print Assumptions C28_refuted.
