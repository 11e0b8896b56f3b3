(** Label translations and validation, in the form of the property theorems. *)
From stdpp Require Import base list numbers gmap relations sorting.
From Verif Require Import Base ChainModel EmbModel SpecEmb QueueModel PathModel GraphModel SpecGraph GraphProofs GraphProofs2
  ParamModel ParamProofs ParamProofs2 SpecTop TopProofs2.

Lemma neighbors_symmetric g mask relabel M R : graph_wf g ->
  (forall x, x < gn g -> mask x = Ok (M x) /\ relabel x = Ok (R x) /\ R x < gn g) ->
  exists nb, get_neighbors g (fun _ => Ok false) (fun _ => Ok false) mask relabel = Ok nb /\
    forall i j, (exists l, nb !! i = Some l /\ j ∈ l) <-> (exists l, nb !! j = Some l /\ i ∈ l).
Proof.
  intros W T. destruct (get_neighbors_spec g (fun _ => Ok false) (fun _ => Ok false) mask relabel (fun _ => false) (fun _ => false) M R W) as (nb & H & _ & _ & K).
  { intros x Hx. destruct (T x Hx) as (? & ? & ?). auto. }
  exists nb. split; [done|]. intros i j. rewrite !K. naive_solver.
Qed.

Lemma into_from g R cp c nodes : decomposition g R cp -> c < length (cnodes cp) ->
  exists o, into_component cp c nodes = Ok o /\
    (o = None <-> exists x, x ∈ nodes /\ forall j, ~ located cp x c j) /\
    (forall D, o = Some D -> from_component cp c D = Ok nodes).
Proof.
  intros Dc Hc. destruct (into_ok g R cp c nodes Dc) as (o & H & Ho). exists o. split; [done|]. destruct o as [D|].
  - split; [split; [done|]|].
    + intros (x & Hx & N). apply elem_of_list_lookup in Hx as [i Hi].
      destruct (Forall2_lookup_l _ _ _ _ _ Ho Hi) as (j & _ & L). by destruct (N j).
    + intros D' [= <-]. by eapply from_ok.
  - split; [|done]. split; [done|]. done.
Qed.
Lemma from_into g R cp c l D : decomposition g R cp -> cnodes cp !! c = Some l -> (forall j, j ∈ D -> j < length l) ->
  exists nodes, from_component cp c D = Ok nodes /\ into_component cp c nodes = Ok (Some D).
Proof.
  intros Dc El B. destruct (from_ok2 g R cp c l D Dc El B) as (nodes & Hf & F2). exists nodes. split; [done|].
  destruct (into_ok g R cp c nodes Dc) as (o & H & Ho). rewrite H. destruct o as [D'|].
  - do 2 f_equal. clear -F2 Ho Dc. revert D' Ho. induction F2 as [|x j ns D L _ IH]; intros D' Ho; inversion Ho; subst; [done|].
    f_equal; [by eapply located_det|]. by apply IH.
  - destruct Ho as (x & Hx & N). apply elem_of_list_lookup in Hx as [i Hi].
    destruct (Forall2_lookup_l _ _ _ _ _ F2 Hi) as (j & _ & L). by destruct (N j).
Qed.

Lemma relabel_variables n (vf : list bool) : length vf = n ->
  let free := List.filter (fun v => negb (default true (vf !! v))) (seq 0 n) in
  let fixed := List.filter (fun v => default true (vf !! v)) (seq 0 n) in
  exists sc, filter_fixed n (length fixed) vf = Ok (free ++ fixed) /\ inverse_perm (free ++ fixed) = Ok sc /\
    length sc = n /\ free ++ fixed ≡ₚ seq 0 n /\
    forall i x, sc !! x = Some i <-> (free ++ fixed) !! i = Some x.
Proof.
  intros L free fixed.
  assert (E1 : List.filter (free_of vf) (seq 0 n) = free /\ List.filter (fun x => negb (free_of vf x)) (seq 0 n) = fixed).
  { unfold free, fixed. split; apply filter_ext_in; intros a Ha; apply in_seq in Ha; unfold free_of;
      destruct (lookup_lt_is_Some_2 vf a) as [b ->]; try lia; by destruct b. }
  destruct E1 as [E1 E2].
  assert (Pm : free ++ fixed ≡ₚ seq 0 n).
  { rewrite <- E1, <- E2. clear. induction (seq 0 n) as [|x l IH]; [done|]. simpl. destruct (free_of vf x); simpl; [by constructor|].
    rewrite <- Permutation_middle. by constructor. }
  assert (Ln : length (free ++ fixed) = n) by (by rewrite Pm, seq_length).
  destruct (inverse_ok (free ++ fixed)) as (sc & Hs & Ls & K).
  { rewrite Pm. apply NoDup_seq. }
  { intros x. rewrite Ln, Pm, elem_of_seq. lia. }
  exists sc. split; [|split; [done|]; split; [by rewrite Ls|]; split; [done|done]].
  rewrite (filter_fixed_ok n (length fixed) vf L); [by rewrite E1, E2|by rewrite E2].
Qed.

Lemma validation vg qg p srt : graph_wf vg -> graph_wf qg -> 0 < gn qg -> sorts_by_size srt ->
  NoDup (p_fixed p).*1 -> NoDup (p_initial p).*1 -> NoDup (p_restrict p).*1 ->
  (forall v C, (v, C) ∈ p_fixed p -> v < gn vg /\ forall q, q ∈ C -> q < gn qg) ->
  exists cp R, decomposition qg R cp /\
    (process vg qg p srt = Err Corrupt <-> ~ valid_chains vg cp p) /\
    (process vg qg p srt <> Err Corrupt -> exists pp, process vg qg p srt = Ok pp) /\
    (~ valid_chains vg cp p -> forall o, o_sort o = srt -> find_embedding vg qg p o = Err Corrupt).
Proof.
  intros H1 H2 H3 H4 H5 H6 H7 H8. destruct (process_spec vg qg p srt) as (cp & R & D & _ & Hp); [by split|done|].
  exists cp, R. split; [done|]. setoid_rewrite <- (valid_iff vg cp p) in Hp.
  destruct Hp as [(pp & E & V & _)|[E NV]]; rewrite E.
  - split; [split; [done|tauto]|]. split; [eauto|tauto].
  - split; [split; [done|done]|]. split; [done|]. intros _ o <-. unfold find_embedding. by rewrite E.
Qed.
