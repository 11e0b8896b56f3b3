(** Proofs about parameter processing. *)
From stdpp Require Import base list numbers gmap relations sorting.
From Verif Require Import Base ChainModel EmbModel QueueModel PathModel GraphModel SpecGraph GraphProofs GraphProofs2 ParamModel.

(** ** translation into and out of a component *)
Lemma located_det g R cp x c j c' j' : decomposition g R cp -> located cp x c j -> located cp x c' j' -> c = c' /\ j = j'.
Proof. intros D H H'. apply (dc_located _ _ _ D) in H as (_ & ? & ?), H' as (_ & ? & ?). split; congruence. Qed.

Lemma index_located g R cp x c : decomposition g R cp -> cindex cp !! x = Some c -> exists j, located cp x c j.
Proof.
  intros D E. assert (Hx : x < gn g).
  { destruct (dc_len _ _ _ D) as (<- & _). by eapply lookup_lt_Some. }
  destruct (dc_partition _ _ _ D x Hx) as (c' & j & L). pose proof (dc_located _ _ _ D _ _ _ L) as (_ & E' & _).
  assert (c' = c) as -> by congruence. eauto.
Qed.

Lemma into_ok g R cp c nodes : decomposition g R cp ->
  exists o, into_component cp c nodes = Ok o /\
    match o with
    | Some D => Forall2 (fun x j => located cp x c j) nodes D
    | None => exists x, x ∈ nodes /\ forall j, ~ located cp x c j
    end.
Proof.
  intros D. unfold into_component.
  apply (foldM_inv _ (fun dn o => match o with
    | Some D => Forall2 (fun x j => located cp x c j) dn D
    | None => exists x, x ∈ nodes /\ forall j, ~ located cp x c j
    end)); [constructor|].
  intros dn x rest [out|] El H.
  - destruct (cindex cp !! x) as [i|] eqn:Ex.
    + destruct (index_located _ _ _ _ _ D Ex) as [j Lj]. case_decide as Hi.
      * subst i. destruct (dc_located _ _ _ D _ _ _ Lj) as (_ & _ & El'). rewrite (vget_ok _ _ _ El'). simpl.
        eexists; split; [done|]. apply Forall2_app; [done|]. by repeat constructor.
      * exists None. split; [done|]. exists x. split; [rewrite El; set_solver|]. intros j' L'.
        by destruct (located_det _ _ _ _ _ _ _ _ D Lj L').
    + exists None. split; [done|]. exists x. split; [rewrite El; set_solver|]. intros j L.
      apply (dc_located _ _ _ D) in L as (_ & ? & _). congruence.
  - by exists None.
Qed.

Lemma from_ok g R cp c nodes D : decomposition g R cp -> c < length (cnodes cp) ->
  Forall2 (fun x j => located cp x c j) nodes D -> from_component cp c D = Ok nodes.
Proof.
  intros Dc Hc H. unfold from_component. destruct (lookup_lt_is_Some_2 _ _ Hc) as [l El]. rewrite (vget_ok _ _ _ El). cbn [rbind].
  enough (G : forall acc, foldM (fun out x => let! y := vget l x in Ok (out ++ [y])) D acc = Ok (acc ++ nodes)) by apply G.
  induction H as [|x j nodes D (l' & El' & Ej) _ IH]; intros acc; simpl; [by rewrite app_nil_r|].
  assert (l' = l) as -> by congruence. rewrite (vget_ok _ _ _ Ej). cbn [rbind]. rewrite IH, <- app_assoc. done.
Qed.
Lemma from_ok2 g R cp c l D : decomposition g R cp -> cnodes cp !! c = Some l -> (forall j, j ∈ D -> j < length l) ->
  exists nodes, from_component cp c D = Ok nodes /\ Forall2 (fun x j => located cp x c j) nodes D.
Proof.
  intros Dc El B. assert (exists nodes, Forall2 (fun x j => located cp x c j) nodes D) as [nodes H].
  { induction D as [|j D IH]; [exists []; constructor|]. destruct IH as [nodes H]; [intros; apply B; set_solver|].
    destruct (lookup_lt_is_Some_2 l j) as [x Ex]; [apply B; set_solver|]. exists (x :: nodes). constructor; [|done]. by exists l. }
  exists nodes. split; [|done]. eapply from_ok; [done| |done]. by eapply lookup_lt_Some.
Qed.

(** ** reserved qubits and fixed variables *)
Definition mem_chain (m : cmap) (q : nat) : Prop := exists v C, (v, C) ∈ m /\ q ∈ C.

Lemma reserved_ok nvars nqubits m :
  (forall v C, (v, C) ∈ m -> v < nvars /\ forall q, q ∈ C -> q < nqubits) ->
  exists qr vf r, reserved_of nvars nqubits m = Ok (qr, vf, r) /\ length qr = nqubits /\ length vf = nvars /\
    (forall q b, qr !! q = Some b -> b = true <-> mem_chain m q) /\
    (forall v b, vf !! v = Some b -> b = true <-> v ∈ m.*1).
Proof.
  intros B. unfold reserved_of.
  edestruct (foldM_inv (fun '(qr, vf, r) '(v, C) =>
      let! vf := vset vf v true in
      let! (qr, r) := foldM (fun '(qr, r) q =>
          let! b := vget qr q in
          if negb b then let! qr := vset qr q true in Ok (qr, r + 1) else Ok (qr, r)) C (qr, r) in
      Ok (qr, vf, r))
    (fun dn '(qr, vf, r) => length qr = nqubits /\ length vf = nvars /\
      (forall q b, qr !! q = Some b -> b = true <-> mem_chain dn q) /\
      (forall v b, vf !! v = Some b -> b = true <-> v ∈ dn.*1)) m (replicate nqubits false, replicate nvars false, 0))
    as ([[qr vf] r] & E & H).
  - rewrite !replicate_length. split; [done|]. split; [done|]. split.
    + intros q b (-> & _)%lookup_replicate. split; [done|]. intros (v & C & []%elem_of_nil & _).
    + intros v b (-> & _)%lookup_replicate. split; [done|]. intros []%elem_of_nil.
  - intros dn [v C] rest [[qr vf] r] El (L1 & L2 & K1 & K2).
    destruct (B v C) as [Hv HC]; [rewrite El; set_solver|].
    rewrite vset_ok by lia. cbn [rbind].
    edestruct (foldM_inv (fun '(qr, r) q =>
          let! b := vget qr q in
          if negb b then let! qr := vset qr q true in Ok (qr, r + 1) else Ok (qr, r))
      (fun d '(qr', r) => length qr' = nqubits /\ (forall q b, qr' !! q = Some b -> b = true <-> mem_chain dn q \/ q ∈ d)) C (qr, r))
      as ([qr' r'] & E & L1' & K1').
    + split; [done|]. intros q b Eq. rewrite (K1 _ _ Eq). set_solver.
    + intros d q rest' [qr' r'] El' [L1' K1'].
      assert (Hq : q < nqubits) by (apply HC; rewrite El'; set_solver).
      destruct (lookup_lt_is_Some_2 qr' q) as [b Eb]; [lia|]. rewrite (vget_ok _ _ _ Eb). cbn [rbind].
      destruct b; cbn [negb].
      * eexists; split; [done|]. split; [done|]. intros q' b' Eq'. rewrite (K1' _ _ Eq'), elem_of_app, elem_of_list_singleton.
        split; [tauto|]. intros [|[| ->]]; try tauto. by apply (K1' _ _ Eb).
      * rewrite vset_ok by lia. cbn [rbind]. eexists; split; [done|]. cbv beta iota. rewrite insert_length. split; [done|].
        intros q' b'. destruct (decide (q' = q)) as [->|N].
        -- rewrite list_lookup_insert by lia. intros [= <-]. set_solver.
        -- rewrite list_lookup_insert_ne by done. intros Eq'. rewrite (K1' _ _ Eq'). set_solver.
    + rewrite E. cbn [rbind]. eexists; split; [done|]. cbv beta iota. rewrite insert_length. split; [done|]. split; [done|]. split.
      * intros q b Eq. rewrite (K1' _ _ Eq). unfold mem_chain. split.
        -- intros [(v' & C' & ? & ?)|Hq]; [exists v', C'|exists v, C]; set_solver.
        -- intros (v' & C' & [?|[= -> ->]%elem_of_list_singleton]%elem_of_app & ?); [left; eauto|by right].
      * intros v' b. rewrite fmap_app, elem_of_app. simpl. rewrite elem_of_list_singleton.
        destruct (decide (v' = v)) as [->|N].
        -- rewrite list_lookup_insert by lia. intros [= <-]. tauto.
        -- rewrite list_lookup_insert_ne by done. intros Ev. rewrite (K2 _ _ Ev). tauto.
  - exists qr, vf, r. split; [done|]. exact H.
Qed.

(** ** relabelling of the variables *)
Definition free_of (vf : list bool) (x : nat) : bool := negb (default false (vf !! x)).

Lemma filter_seq_S (P : nat -> bool) i : List.filter P (seq 0 (S i)) = List.filter P (seq 0 i) ++ (if P i then [i] else []).
Proof.
  rewrite seq_S, List.filter_app. simpl. by destruct (P i).
Qed.
Lemma filter_split_length (P : nat -> bool) l : length (List.filter P l) + length (List.filter (fun x => negb (P x)) l) = length l.
Proof. induction l as [|x l IH]; simpl; [done|]. destruct (P x); simpl; lia. Qed.
Lemma filter_seq_le (P : nat -> bool) i n : i <= n -> length (List.filter P (seq 0 i)) <= length (List.filter P (seq 0 n)).
Proof.
  intros H. replace n with (i + (n - i)) by lia. rewrite seq_app, List.filter_app, app_length. lia.
Qed.

Lemma filter_fixed_ok n nfixed vf : length vf = n ->
  length (List.filter (fun x => negb (free_of vf x)) (seq 0 n)) = nfixed ->
  filter_fixed n nfixed vf = Ok (List.filter (free_of vf) (seq 0 n) ++ List.filter (fun x => negb (free_of vf x)) (seq 0 n)).
Proof.
  intros Lv Ln.
  set (F := fun i => List.filter (free_of vf) (seq 0 i)). set (G := fun i => List.filter (fun x => negb (free_of vf x)) (seq 0 i)).
  assert (LS : length (F n) + length (G n) = n) by (unfold F, G; rewrite filter_split_length, seq_length; done).
  fold (F n) (G n). fold (G n) in Ln. unfold filter_fixed. rewrite decide_False by lia.
  edestruct (foldM_inv (fun '(un, front, back) i =>
      let! f := vget vf i in
      if (f : bool) then let! un := vset un back i in Ok (un, front, S back)
      else let! un := vset un front i in Ok (un, S front, back))
    (fun dn '(un, front, back) => length un = n /\ front = length (F (length dn)) /\ back = n - nfixed + length (G (length dn)) /\
       (forall k x, F (length dn) !! k = Some x -> un !! k = Some x) /\
       (forall k x, G (length dn) !! k = Some x -> un !! (n - nfixed + k) = Some x)) (seq 0 n) (replicate n 0, 0, n - nfixed))
    as ([[un front] back] & E & H).
  - rewrite replicate_length. simpl. split; [done|]. split; [done|]. split; [lia|]. done.
  - intros dn i rest [[un front] back] El (Lu & -> & -> & KF & KG).
    assert (Hi : i = length dn /\ i < n).
    { assert (seq 0 n !! length dn = Some i) as [Hi ?]%lookup_seq by (rewrite El; by apply list_lookup_middle). lia. }
    destruct Hi as [-> Hi]. set (i := length dn) in *.
    rewrite app_length. simpl. replace (length dn + 1) with (S i) by (unfold i; lia).
    destruct (lookup_lt_is_Some_2 vf i) as [b Eb]; [lia|]. rewrite (vget_ok _ _ _ Eb). cbn [rbind].
    assert (Fi : free_of vf i = negb b) by (unfold free_of; rewrite Eb; done).
    pose proof (filter_seq_le (free_of vf) (S i) n Hi) as B1. pose proof (filter_seq_le (fun x => negb (free_of vf x)) (S i) n Hi) as B2.
    fold (F (S i)) (F n) in B1. fold (G (S i)) (G n) in B2.
    assert (FS : F (S i) = F i ++ if free_of vf i then [i] else []) by (unfold F; apply filter_seq_S).
    assert (GS : G (S i) = G i ++ if negb (free_of vf i) then [i] else []) by (unfold G; apply filter_seq_S).
    rewrite Fi in FS, GS. rewrite FS in B1 |- *. rewrite GS in B2 |- *. destruct b; simpl in *; rewrite ?app_nil_r in *; rewrite app_length in *; simpl in *.
    + rewrite vset_ok by lia. cbn [rbind]. eexists; split; [done|]. cbv beta iota. rewrite insert_length. split; [done|]. split; [done|]. split; [lia|]. split.
      * intros k x Ek. rewrite list_lookup_insert_ne; [eauto|]. apply lookup_lt_Some in Ek. lia.
      * intros k x [Ek|[Hk [Z <-]%list_lookup_singleton_Some]]%lookup_app_Some.
        -- rewrite list_lookup_insert_ne; [eauto|]. apply lookup_lt_Some in Ek. lia.
        -- replace k with (length (G i)) by lia. apply list_lookup_insert. lia.
    + rewrite vset_ok by lia. cbn [rbind]. eexists; split; [done|]. cbv beta iota. rewrite insert_length. split; [done|]. split; [lia|]. split; [done|]. split.
      * intros k x [Ek|[Hk [Z <-]%list_lookup_singleton_Some]]%lookup_app_Some.
        -- rewrite list_lookup_insert_ne; [eauto|]. apply lookup_lt_Some in Ek. lia.
        -- replace k with (length (F i)) by lia. apply list_lookup_insert. lia.
      * intros k x Ek. rewrite list_lookup_insert_ne; [eauto|]. lia.
  - rewrite E. cbn [rbind]. f_equal. rewrite seq_length in H. destruct H as (Lu & -> & -> & KF & KG).
    apply list_eq. intros k. destruct (decide (k < length (F n))) as [Hk|Hk].
    + rewrite lookup_app_l by done. destruct (lookup_lt_is_Some_2 _ _ Hk) as [x Ex]. rewrite Ex. eauto.
    + rewrite lookup_app_r by lia. destruct (decide (k < n)) as [Hn|Hn].
      * destruct (lookup_lt_is_Some_2 (G n) (k - length (F n))) as [x Ex]; [lia|]. rewrite Ex.
        specialize (KG _ _ Ex). replace (n - nfixed + (k - length (F n))) with k in KG by lia. done.
      * rewrite !lookup_ge_None_2 by lia. done.
Qed.

Lemma inverse_ok f : NoDup f -> (forall x, x ∈ f <-> x < length f) ->
  exists r, inverse_perm f = Ok r /\ length r = length f /\ forall i x, r !! x = Some i <-> f !! i = Some x.
Proof.
  intros ND B. unfold inverse_perm.
  assert (IM : forall j x, (j, x) ∈ rev (imap pair f) <-> f !! j = Some x).
  { intros j x. rewrite elem_of_list_In, <- in_rev, <- elem_of_list_In, elem_of_lookup_imap. split.
    - intros (i & y & [= -> ->] & E). done.
    - intros E. eauto. }
  edestruct (foldM_inv (fun r '(i, x) => vset r x i)
    (fun dn r => length r = length f /\ forall i x, (i, x) ∈ dn -> r !! x = Some i) (rev (imap pair f)) (replicate (length f) 0))
    as (r & -> & L & K).
  - split; [apply replicate_length|]. intros i x []%elem_of_nil.
  - intros dn [i x] rest r El [L K].
    assert (Ei : f !! i = Some x) by (apply IM; rewrite El; set_solver).
    assert (x < length f) by (apply B; by eapply elem_of_list_lookup_2).
    rewrite vset_ok by lia. eexists; split; [done|]. rewrite insert_length. split; [done|].
    intros j y [Hj|[= -> ->]%elem_of_list_singleton]%elem_of_app.
    + destruct (decide (y = x)) as [->|N].
      * assert (f !! j = Some x) by (apply IM; rewrite El; set_solver).
        assert (j = i) as -> by (eapply NoDup_lookup; eauto). apply list_lookup_insert. lia.
      * rewrite list_lookup_insert_ne by done. eauto.
    + apply list_lookup_insert. lia.
  - exists r. split; [done|]. split; [done|]. intros i x. split.
    + intros Er. assert (x < length f) as Hx by (rewrite <- L; by eapply lookup_lt_Some).
      apply B in Hx. apply elem_of_list_lookup in Hx as [j Ej]. specialize (K j x (proj2 (IM _ _) Ej)).
      assert (i = j) as -> by congruence. done.
    + intros Ei. by apply K, IM.
Qed.

(** ** chains given by the caller *)
Lemma map_append_perm k l m : k ∉ m.*1 -> map_append k l m ≡ₚ (k, l) :: m.
Proof.
  induction m as [|[k' l'] m IH]; simpl; intros N; [done|].
  repeat case_decide; [done|set_solver|]. rewrite IH by set_solver. constructor.
Qed.

(** every variable is in range and every qubit in the main component *)
Definition chains_in (nvars : nat) (cp : comps) (m : cmap) : Prop :=
  forall v C, (v, C) ∈ m -> v < nvars /\ forall q, q ∈ C -> exists j, located cp q 0 j.

Lemma input_chains_ok g R nvars cp screw m : decomposition g R cp -> NoDup m.*1 ->
  length screw = nvars -> NoDup screw ->
  (exists n, input_chains nvars cp screw m = Ok n /\ chains_in nvars cp m /\ NoDup n.*1 /\
     forall u D, (u, D) ∈ n <-> exists v C, (v, C) ∈ m /\ screw !! v = Some u /\ Forall2 (fun x j => located cp x 0 j) C D) \/
  (input_chains nvars cp screw m = Err Corrupt /\ ~ chains_in nvars cp m).
Proof.
  intros Dc ND Ls NDs. unfold input_chains.
  set (f := fun n '(v, C) => if decide (nvars <= v) then Err Corrupt else
      let! u := vget screw v in
      let! o := into_component cp 0 C in
      match o with None => Err Corrupt | Some D => Ok (map_append u D n) end).
  enough (G : forall rest dn n, m = dn ++ rest -> chains_in nvars cp dn -> NoDup n.*1 ->
     (forall u D, (u, D) ∈ n <-> exists v C, (v, C) ∈ dn /\ screw !! v = Some u /\ Forall2 (fun x j => located cp x 0 j) C D) ->
     (exists n', foldM f rest n = Ok n' /\ chains_in nvars cp m /\ NoDup n'.*1 /\
     forall u D, (u, D) ∈ n' <-> exists v C, (v, C) ∈ m /\ screw !! v = Some u /\ Forall2 (fun x j => located cp x 0 j) C D) \/
     (foldM f rest n = Err Corrupt /\ ~ chains_in nvars cp m)).
  { apply (G m [] []); [done| | |].
    - intros v C []%elem_of_nil.
    - constructor.
    - intros u D. split; [intros []%elem_of_nil|]. intros (v & C & []%elem_of_nil & _). }
  induction rest as [|[v C] rest IH]; intros dn n Em CI NDn H.
  { left. rewrite app_nil_r in Em. subst dn. eauto. }
  simpl. case_decide as Hv.
  { right. split; [done|]. intros CC. destruct (CC v C); [rewrite Em; set_solver|lia]. }
  destruct (lookup_lt_is_Some_2 screw v) as [u Eu]; [lia|]. rewrite (vget_ok _ _ _ Eu). cbn [rbind].
  destruct (into_ok _ _ _ 0 C Dc) as ([D|] & -> & HD); cbn [rbind].
  2:{ right. split; [done|]. intros CC. destruct (CC v C) as [_ CQ]; [rewrite Em; set_solver|].
      destruct HD as (x & Hx & Nx). destruct (CQ x Hx) as [j Lj]. by apply (Nx j). }
  assert (Nu : u ∉ n.*1).
  { intros ([u' D'] & -> & Hu)%elem_of_list_fmap. apply H in Hu as (v' & C' & Hv' & Ev' & _). simpl in Eu.
    assert (v' = v) as -> by exact (NoDup_lookup screw v' v u' NDs Ev' Eu).
    rewrite Em, fmap_app in ND. apply NoDup_app in ND as (_ & ND & _). apply (ND v); [|set_solver].
    apply elem_of_list_fmap. by exists (v, C'). }
  pose proof (map_append_perm u D n Nu) as P.
  apply (IH (dn ++ [(v, C)])).
  - by rewrite <- app_assoc.
  - intros v' C' [?|[= -> ->]%elem_of_list_singleton]%elem_of_app; [by apply CI|]. split; [lia|].
    intros q Hq. apply elem_of_list_lookup in Hq as [i Ei]. eapply Forall2_lookup_l in HD as (j & _ & Lj); [|done]. eauto.
  - rewrite P. simpl. by constructor.
  - intros u' D'. rewrite P, elem_of_cons. split.
    + intros [[= -> ->]|Hu]; [exists v, C; set_solver|]. apply H in Hu as (v' & C' & ? & ?). exists v', C'. set_solver.
    + intros (v' & C' & [?|[= -> ->]%elem_of_list_singleton]%elem_of_app & Es & Hf); [right; apply H; eauto|].
      left. assert (u' = u) as -> by congruence. f_equal.
      clear -Dc HD Hf. revert D' Hf. induction HD as [|x j C D L _ IH]; intros D' Hf; inversion Hf; subst; [done|].
      f_equal; [|by apply IH]. by destruct (located_det _ _ _ _ _ _ _ _ Dc L H1).
Qed.
