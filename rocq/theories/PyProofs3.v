(** The Python front end as a whole (PyModel.v): a successful call returns a minor embedding in
    terms of the caller's labels, and hits every blob of a suspended variable. *)
Require Import Lia.
From stdpp Require Import base list numbers relations.
From Verif Require Import Base GraphModel SpecGraph Spec SpecEmb PyModel SpecPy ParamModel SpecTop TopProofs TopProofs3 PyProofs1 PyProofs2.
From stdpp Require Import list.
From Verif Require Import GraphModel.

Section main.
Context {A : Type} `{!EqDecision A}.
Context (pin : A -> nat -> A).

Lemma add_blob_err v (s : parsed) ib e : add_blob pin v s ib = Err e -> e = Corrupt.
Proof.
  destruct ib as [i blob]. unfold add_blob. case_bool_decide; [congruence|]. case_bool_decide; [congruence|].
  destruct (foldM _ blob _) as [[TL Tg]|e'] eqn:E; cbn [rbind].
  - destruct blob; [done|]. destruct (lget (ps_SL s) _) as [SL k]. destruct (lget TL _) as [TL' t].
    case_bool_decide; [|congruence]. by destruct (lget SL v).
  - intros [= <-]. revert E. generalize (ps_TL s, ps_Tg s). induction blob as [|q blob IH]; intros [TL Tg]; cbn; [done|].
    case_bool_decide; [|cbn; congruence]. destruct (lget TL (pin v i)) as [TL' a]. destruct (lget TL' q) as [TL'' b]. apply IH.
Qed.
Lemma foldM_err {B St} (f : St -> B -> res St) l s e : (forall s x e, f s x = Err e -> e = Corrupt) ->
  foldM f l s = Err e -> e = Corrupt.
Proof.
  intros H. revert s. induction l as [|x l IH]; intros s; cbn; [done|]. destruct (f s x) as [s'|e'] eqn:E; cbn; [apply IH|].
  intros [= <-]. eauto.
Qed.
Lemma parse_err (S T : pygraph A) p e : parse pin S T p = Err e -> e = Corrupt.
Proof.
  unfold parse. destruct (read_graph S) as [SL Sg]. destruct SL as [|a SL]; [done|].
  destruct (read_graph T) as [TL Tg]. destruct TL as [|b TL]; [congruence|].
  destruct (get_chainmap _ _ (py_fixed p)) eqn:E1; cbn [rbind]; [|intros [= <-]; by eapply get_chainmap_safe].
  destruct (get_chainmap _ _ (py_initial p)) eqn:E2; cbn [rbind]; [|intros [= <-]; by eapply get_chainmap_safe].
  destruct (get_chainmap _ _ (py_restrict p)) eqn:E3; cbn [rbind]; [|intros [= <-]; by eapply get_chainmap_safe].
  destruct (foldM _ (py_suspend p) _) eqn:E4; cbn [rbind]; [done|]. intros [= <-].
  eapply foldM_err; [|exact E4]. intros s x e'. unfold add_suspension. apply foldM_err. intros s1 x1 e1. apply add_blob_err.
Qed.

(** what parsing produces *)
Record parsed_ok (S T : pygraph A) (p : pyparams A) (s : parsed) (prm : params) : Prop := {
  po_ex : exists SL0 Sg0 TL0 Tg0 F0 W,
    read_graph S = (SL0, Sg0) /\ read_graph T = (TL0, Tg0) /\ SL0 <> [] /\ TL0 <> []
    /\ mapped SL0 TL0 (py_fixed p) F0 /\ mapped SL0 TL0 (py_initial p) (p_initial prm)
    /\ sus pin SL0 TL0 Sg0 Tg0 F0 W s /\ length W <= blobs_of p /\ covers W (py_suspend p);
  po_fixed : p_fixed prm = ps_fixed s;
  po_restrict : py_restrict p = [] -> p_restrict prm = [];
  po_overlap : p_return_overlap prm = p_return_overlap (py_opts p);
  po_pat : p_chainlength_patience prm = p_chainlength_patience (py_opts p) }.

Lemma parse_spec (S T : pygraph A) p s prm : good_maps (py_fixed p) (py_initial p) ->
  parse pin S T p = Ok (Some (s, prm)) -> parsed_ok S T p s prm.
Proof.
  intros HG E. unfold parse in E. destruct (read_graph S) as [SL Sg] eqn:ES. destruct SL as [|a SL]; [done|].
  set (SL0 := a :: SL) in *.
  destruct (read_graph T) as [TL Tg] eqn:ET. destruct TL as [|b TL]; [done|]. set (TL0 := b :: TL) in *.
  destruct (get_chainmap SL0 TL0 (py_fixed p)) as [F|] eqn:E1; [|done]. cbn [rbind] in E.
  destruct (get_chainmap SL0 TL0 (py_initial p)) as [ini|] eqn:E2; [|done]. cbn [rbind] in E.
  destruct (get_chainmap SL0 TL0 (py_restrict p)) as [R|] eqn:E3; [|done]. cbn [rbind] in E.
  destruct (foldM (add_suspension pin) (py_suspend p) _) as [s0|] eqn:E4; [|done]. cbn [rbind] in E.
  injection E as <- <-.
  destruct (read_graph_spec _ _ _ ES) as (HS1 & HS2 & HS3). destruct (read_graph_spec _ _ _ ET) as (HT1 & HT2 & HT3).
  assert (HF : mapped SL0 TL0 (py_fixed p) F) by (apply get_chainmap_spec; [apply HS1|apply HG|done]).
  assert (HI : mapped SL0 TL0 (py_initial p) ini) by (apply get_chainmap_spec; [apply HS1|apply HG|done]).
  assert (HF0 : forall k C, (k, C) ∈ F -> k < length SL0).
  { intros k C HkC. destruct (mp_to _ _ _ _ HF _ _ HkC) as (x & ch & _ & _ & Hk & _). by apply lookup_lt_Some in Hk. }
  assert (H0 : sus pin SL0 TL0 Sg Tg F [] (mkParsed SL0 Sg TL0 Tg F 0)).
  { split; cbn [ps_SL ps_TL ps_Sg ps_Tg ps_fixed ps_pins]; try done.
    - by rewrite app_nil_r.
    - by rewrite app_nil_r.
    - apply HS1.
    - apply HT1.
    - intros x y. split; [by left|]. intros [?|(k & v & i & bl & H & _)]; done.
    - intros x y. split; [by left|]. intros [?|(k & v & i & bl & q & H & _)]; done.
    - intros c. split; [by left|]. intros [?|(k & H & _)]; [done|]. cbn in H. lia.
    - apply HF. }
  destruct (suspensions_spec pin SL0 TL0 Sg Tg F _ _ _ HF0 H0 E4) as (W & HW & Hl & Hc).
  split; try done.
  - exists SL0, Sg, TL0, Tg, F, W. split_and!; done.
  - cbn. intros HR. rewrite HR in E3. cbn in E3. by injection E3 as <-.
Qed.

Section good.
Context (S T : pygraph A) (p : pyparams A) (o : oracle).
Context (HG : good_maps (py_fixed p) (py_initial p)) (HR : py_restrict p = []) (HO : py_fits S T p o).
Context (s : @parsed A) (prm : params) (HP : parse pin S T p = Ok (Some (s, prm))).
Context (SL0 : list A) (Sg0 : graph) (TL0 : list A) (Tg0 : graph) (F0 : list (nat * list nat)) (W : list (A * nat * list A)).
Context (ES : read_graph S = (SL0, Sg0)) (ET : read_graph T = (TL0, Tg0)) (NS : SL0 <> []) (NT : TL0 <> [])
  (HF : mapped SL0 TL0 (py_fixed p) F0) (HI : mapped SL0 TL0 (py_initial p) (p_initial prm))
  (HW : sus pin SL0 TL0 Sg0 Tg0 F0 W s) (HWl : length W <= blobs_of p).
Context (HPO : parsed_ok S T p s prm).

Local Notation n0 := (length SL0).
Local Notation m0 := (length TL0).

Lemma seenS : first_seen (stream S) SL0. Proof using All. by destruct (read_graph_spec _ _ _ ES). Qed.
Lemma seenT : first_seen (stream T) TL0. Proof using All. by destruct (read_graph_spec _ _ _ ET). Qed.
Lemma sl_low k : k < n0 -> ps_SL s !! k = SL0 !! k.
Proof using All. intros. rewrite (su_SL _ _ _ _ _ _ _ _ HW). by apply lookup_app_l. Qed.
Lemma tl_low k : k < m0 -> ps_TL s !! k = TL0 !! k.
Proof using All. intros. rewrite (su_TL _ _ _ _ _ _ _ _ HW). by apply lookup_app_l. Qed.
Lemma sl_len : length (ps_SL s) = n0 + length W.
Proof using All. rewrite (su_SL _ _ _ _ _ _ _ _ HW). by rewrite app_length, fmap_length. Qed.
Lemma tl_len : length (ps_TL s) = m0 + length W.
Proof using All. rewrite (su_TL _ _ _ _ _ _ _ _ HW). by rewrite app_length, fmap_length. Qed.

Lemma old_edge_S x y : (x, y) ∈ ge Sg0 -> x < n0 /\ y < n0.
Proof using All.
  destruct (read_graph_spec _ _ _ ES) as (_ & _ & H). intros [(a & b & _ & Hx & Hy)|(-> & a & Hx & _)]%H;
    split; by eapply lookup_lt_Some.
Qed.
Lemma old_edge_T x y : (x, y) ∈ ge Tg0 -> x < m0 /\ y < m0.
Proof using All.
  destruct (read_graph_spec _ _ _ ET) as (_ & _ & H). intros [(a & b & _ & Hx & Hy)|(-> & a & Hx & _)]%H;
    split; by eapply lookup_lt_Some.
Qed.

Lemma fixed_low k C : (k, C) ∈ p_fixed prm -> k < n0 -> (k, C) ∈ F0.
Proof using All.
  rewrite (po_fixed _ _ _ _ _ HPO), (su_F _ _ _ _ _ _ _ _ HW). intros [?|(j & _ & [= -> ->])] ?; [done|lia].
Qed.
Lemma fixed_cases k C : (k, C) ∈ p_fixed prm ->
  ((k, C) ∈ F0 /\ k < n0 /\ forall q, q ∈ C -> q < m0) \/ (exists j, j < length W /\ k = n0 + j /\ C = [m0 + j]).
Proof using All.
  rewrite (po_fixed _ _ _ _ _ HPO), (su_F _ _ _ _ _ _ _ _ HW). intros [Hin|(j & Hj & [= -> ->])].
  - left. split; [done|]. destruct (mp_to _ _ _ _ HF _ _ Hin) as (a & ch & _ & _ & Hk & Hst).
    split; [by apply lookup_lt_Some in Hk|]. intros q Hq.
    apply (stands_in _ _ _ Hst (proj1 seenT)) in Hq as (x & _ & Hx). by apply lookup_lt_Some in Hx.
  - right. by exists j.
Qed.
Lemma pin_fixed j : j < length W -> (n0 + j, [m0 + j]) ∈ p_fixed prm.
Proof using All. intros. rewrite (po_fixed _ _ _ _ _ HPO), (su_F _ _ _ _ _ _ _ _ HW). right. by exists j. Qed.
Lemma given_index v k : SL0 !! k = Some v -> is_fixed prm k <-> given (py_fixed p) v.
Proof using All.
  intros Hk. split.
  - intros [C HC]. apply fixed_low in HC; [|by eapply lookup_lt_Some].
    destruct (mp_to _ _ _ _ HF _ _ HC) as (a & ch & Hin & Hne & Hk' & _). assert (a = v) as -> by congruence. by exists ch.
  - intros (C & HC & Hne). destruct (mp_from _ _ _ _ HF _ _ HC Hne) as (k' & D & Hin & Hk' & _).
    assert (k' = k) as -> by (eapply NoDup_lookup; [apply seenS|done|done]).
    exists D. rewrite (po_fixed _ _ _ _ _ HPO), (su_F _ _ _ _ _ _ _ _ HW). by left.
Qed.

Lemma good : good_input (ps_Sg s) (ps_Tg s) prm o.
Proof using All.
  assert (Hfit : fits (length (ps_SL s)) (length (ps_TL s)) (py_opts p) o).
  { apply (HO _ _ seenS seenT); rewrite ?sl_len, ?tl_len; lia. }
  destruct Hfit as (Hf1 & Hf2 & Hf3 & Hf4).
  pose proof (su_nS _ _ _ _ _ _ _ _ HW) as HnS. pose proof (su_nT _ _ _ _ _ _ _ _ HW) as HnT.
  split.
  - intros x y Hxy. rewrite HnS, sl_len. apply (su_eS _ _ _ _ _ _ _ _ HW) in Hxy as [H%old_edge_S|(k & v & i & bl & Hk & -> & Hx)]; [lia|].
    apply lookup_lt_Some in Hk, Hx. rewrite sl_len in Hx. lia.
  - intros x y Hxy. rewrite HnT, tl_len. apply (su_eT _ _ _ _ _ _ _ _ HW) in Hxy as [H%old_edge_T|(k & v & i & bl & q & Hk & -> & _ & Hx)]; [lia|].
    apply lookup_lt_Some in Hk, Hx. rewrite tl_len in Hx. lia.
  - rewrite HnS, sl_len. destruct SL0; [done|]. cbn. lia.
  - rewrite HnT, tl_len. destruct TL0; [done|]. cbn. lia.
  - by rewrite HnT.
  - done.
  - done.
  - rewrite (po_restrict _ _ _ _ _ HPO HR). constructor.
  - apply unrestricted_even. by apply (po_restrict _ _ _ _ _ HPO).
  - rewrite (po_fixed _ _ _ _ _ HPO). apply (su_Fnd _ _ _ _ _ _ _ _ HW).
  - apply HI.
  - intros v C HC. rewrite HnS, HnT, sl_len, tl_len. apply fixed_cases in HC as [(HC & Hv & Hq)|(j & Hj & -> & ->)].
    + destruct (mp_to _ _ _ _ HF _ _ HC) as (a & ch & Hin & Hne & Hk & Hst). split; [lia|].
      split; [by rewrite (stands_nil _ _ _ Hst)|]. split.
      * eapply stands_NoDup; [done|]. eapply (gm_nd _ _ HG). apply elem_of_app. by left.
      * intros q Hqq. apply Hq in Hqq. lia.
    + split; [lia|]. split; [done|]. split; [apply NoDup_singleton|]. intros q ->%elem_of_list_singleton. lia.
  - intros v C v' C' q HC HC' Hq Hq'. apply fixed_cases in HC as [(HC & Hv & Hl)|(j & Hj & -> & ->)];
      apply fixed_cases in HC' as [(HC' & Hv' & Hl')|(j' & Hj' & -> & ->)].
    + destruct (mp_to _ _ _ _ HF _ _ HC) as (a & ch & Hin & Hne & Hk & Hst).
      destruct (mp_to _ _ _ _ HF _ _ HC') as (a' & ch' & Hin' & Hne' & Hk' & Hst').
      apply (stands_in _ _ _ Hst (proj1 seenT)) in Hq as (x & Hx & Hqx).
      apply (stands_in _ _ _ Hst' (proj1 seenT)) in Hq' as (x' & Hx' & Hqx').
      assert (x' = x) as -> by congruence. assert (a = a') as <- by exact (gm_disj _ _ HG _ _ _ _ _ Hin Hin' Hx Hx').
      exact (NoDup_lookup _ _ _ _ (proj1 seenS) Hk Hk').
    + apply elem_of_list_singleton in Hq'. apply Hl in Hq. lia.
    + apply elem_of_list_singleton in Hq. apply Hl' in Hq'. lia.
    + apply elem_of_list_singleton in Hq, Hq'. lia.
  - intros v C HC. destruct (mp_to _ _ _ _ HI _ _ HC) as (a & ch & Hin & Hne & Hk & Hst).
    destruct (gm_init _ _ HG _ _ Hin) as [Hg1 Hg2]. split; [by rewrite (stands_nil _ _ _ Hst)|]. split; [|split].
    + eapply stands_NoDup; [done|]. eapply (gm_nd _ _ HG). apply elem_of_app. by right.
    + intros Hfx. by apply (given_index _ _ Hk) in Hfx.
    + intros q Hq (v' & C' & HC' & Hq'). apply (stands_in _ _ _ Hst (proj1 seenT)) in Hq as (x & Hx & Hqx).
      apply fixed_cases in HC' as [(HC' & Hv' & Hl')|(j' & Hj' & -> & ->)].
      * destruct (mp_to _ _ _ _ HF _ _ HC') as (a' & ch' & Hin' & Hne' & Hk' & Hst').
        apply (stands_in _ _ _ Hst' (proj1 seenT)) in Hq' as (x' & Hx' & Hqx').
        assert (x' = x) as -> by congruence. by apply (Hg2 _ _ _ Hx Hin').
      * apply elem_of_list_singleton in Hq'. apply lookup_lt_Some in Hqx. lia.
  - right. intros x Hx. rewrite HnT, tl_len in Hx. destruct (decide (x < m0)) as [Hlt|Hge].
    + destruct (lookup_lt_is_Some_2 TL0 x Hlt) as [a Ha].
      destruct (read_graph_spec _ _ _ ET) as (Hs & _ & He).
      destruct (decide (a ∈ endpoints T)) as [Hin|Hout].
      * unfold endpoints in Hin. apply elem_of_list_In, in_concat in Hin as (l & Hl & Ha').
        apply elem_of_list_In, elem_of_list_fmap in Hl as ([b c] & -> & Hbc).
        assert (Hb : b ∈ TL0 /\ c ∈ TL0).
        { split; apply Hs; unfold stream; apply elem_of_app; left; apply elem_of_list_In, in_concat; exists [b; c];
            (split; [apply elem_of_list_In, elem_of_list_fmap; by exists (b, c)|cbn; auto]). }
        destruct Hb as [(xb & Hxb)%elem_of_list_lookup (xc & Hxc)%elem_of_list_lookup].
        assert (Hbcin : (xb, xc) ∈ ge (ps_Tg s)).
        { apply (su_eT _ _ _ _ _ _ _ _ HW). left. apply He. left. by exists b, c. }
        cbn in Ha'. destruct Ha' as [<-|[<-|[]]].
        -- exists xc. left. by rewrite (NoDup_lookup _ _ _ _ (proj1 Hs) Ha Hxb).
        -- exists xb. right. by rewrite (NoDup_lookup _ _ _ _ (proj1 Hs) Ha Hxc).
      * exists x. left. apply (su_eT _ _ _ _ _ _ _ _ HW). left. apply He. right. split; [done|]. by exists a.
    + destruct (lookup_lt_is_Some_2 W (x - m0)) as [[[v i] bl] Hk]; [lia|].
      destruct (su_blob _ _ _ _ _ _ _ _ HW _ _ _ _ Hk) as (Hne & _ & Hb). destruct bl as [|q bl]; [done|].
      assert (Hq : q ∈ ps_TL s) by (apply Hb; left). apply elem_of_list_lookup in Hq as (y & Hy). exists y. left.
      apply (su_eT _ _ _ _ _ _ _ _ HW). right. exists (x - m0), v, i, (q :: bl), q.
      split; [done|]. split; [lia|]. split; [left|done].
  - rewrite (po_pat _ _ _ _ _ HPO), HnS, HnT. done.
Qed.

(** ** the dict *)
Lemma labels_spec (L : list A) C D : labels L C = Ok D -> stands L D C.
Proof.
  clear. intros E. unfold labels in E.
  refine (foldM_inv_ok _ (fun dn r => stands L r dn) C [] D (Forall2_nil_2 _ _ _) _ E).
  intros dn x rest r r' _ H Hx. unfold label in Hx. destruct (L !! x) as [a|] eqn:Ea; [|done]. cbn [rbind] in Hx.
  injection Hx as <-. apply Forall2_app; [done|]. constructor; [done|constructor].
Qed.
Lemma labels_err (L : list A) C e : labels L C = Err e -> e = Corrupt.
Proof.
  clear. unfold labels. apply foldM_err. intros r x e'. unfold label. destruct (L !! x); cbn; congruence.
Qed.

Section dict.
Context (l : list (list nat)) (d : list (A * list A)).
Context (HL : overlapping_embedding (ps_Sg s) (ps_Tg s) prm l) (HD : disjoint_chains l).
Context (Hd : foldM (fun d v =>
          let! C := vget l v in
          let! a := label (ps_SL s) v in
          let! D := labels (ps_TL s) C in
          Ok (d ++ [(a, D)])) (seq 0 (length l - ps_pins s)) [] = Ok d).

Lemma dict_len : length l - ps_pins s = n0.
Proof using All.
  rewrite (oe_len _ _ _ _ HL), (su_nS _ _ _ _ _ _ _ _ HW), sl_len, (su_pins _ _ _ _ _ _ _ _ HW). lia.
Qed.
Lemma dict_at : length d = n0 /\ forall v, v < n0 -> exists C a D, l !! v = Some C /\ SL0 !! v = Some a
  /\ stands (ps_TL s) D C /\ d !! v = Some (a, D).
Proof using All.
  pose proof Hd as Hd'. rewrite dict_len in Hd'.
  assert (G : length d = length (seq 0 n0) /\ forall v, v < length (seq 0 n0) -> exists C a D, l !! v = Some C /\ SL0 !! v = Some a
    /\ stands (ps_TL s) D C /\ d !! v = Some (a, D)); [|by rewrite seq_length in G].
  refine (foldM_inv_ok _ (fun dn d => length d = length dn /\ forall v, v < length dn -> exists C a D, l !! v = Some C
    /\ SL0 !! v = Some a /\ stands (ps_TL s) D C /\ d !! v = Some (a, D)) _ [] d _ _ Hd').
  - split; [done|]. cbn. intros v Hv. lia.
  - intros dn x rest d1 d2 Hs [H1 H2] Hx.
    assert (x = length dn /\ x < n0) as [-> Hxn].
    { pose proof (f_equal (fun l => l !! length dn) Hs) as Hq. cbn in Hq. rewrite lookup_app_r, Nat.sub_diag in Hq by lia.
      cbn in Hq. apply lookup_seq in Hq. lia. }
    unfold vget in Hx. destruct (l !! length dn) as [C|] eqn:EC; [|done]. cbn [rbind] in Hx.
    unfold label in Hx. rewrite sl_low in Hx by done. destruct (SL0 !! length dn) as [a|] eqn:Ea; [|done]. cbn [rbind] in Hx.
    destruct (labels (ps_TL s) C) as [D|] eqn:ED; [|done]. cbn [rbind] in Hx. injection Hx as <-.
    rewrite !app_length. cbn. split; [lia|]. intros v Hv. destruct (decide (v < length dn)) as [Hlt|Hge].
    + destruct (H2 v Hlt) as (C' & a' & D' & ? & ? & ? & ?). exists C', a', D'. split; [done|]. split; [done|]. split; [done|].
      by apply lookup_app_l_Some.
    + assert (v = length dn) as -> by lia. exists C, a, D. split; [done|]. split; [done|]. split; [by apply labels_spec|].
      by rewrite <- H1, lookup_app_r, Nat.sub_diag by lia.
Qed.
Lemma dict_keys : d.*1 = SL0.
Proof using All.
  destruct dict_at as [H1 H2]. apply list_eq. intros v. rewrite list_lookup_fmap.
  destruct (decide (v < n0)) as [Hlt|Hge].
  - destruct (H2 v Hlt) as (C & a & D & _ & -> & _ & ->). done.
  - rewrite !lookup_ge_None_2 by lia. done.
Qed.
Lemma low_chain v x : v < n0 -> has_qubit l v x -> x < m0.
Proof using All.
  intros Hv Hx. destruct (decide (x < m0)) as [?|Hge]; [done|]. exfalso.
  assert (Hlt : x < m0 + length W).
  { destruct Hx as (C & HC & Hin). destruct (oe_nodup _ _ _ _ HL _ _ HC) as (_ & _ & Hb). apply Hb in Hin.
    by rewrite (su_nT _ _ _ _ _ _ _ _ HW), tl_len in Hin. }
  assert (Hj : x - m0 < length W) by lia. apply pin_fixed in Hj.
  assert (Hp : has_qubit l (n0 + (x - m0)) x).
  { apply (oe_fixed _ _ _ _ HL _ _ Hj). apply elem_of_list_singleton. lia. }
  specialize (HD _ _ _ Hx Hp). lia.
Qed.
Lemma dict_in a q : in_dict d a q <-> exists v x, SL0 !! v = Some a /\ TL0 !! x = Some q /\ has_qubit l v x.
Proof using All.
  destruct dict_at as [H1 H2]. split.
  - intros (D & (v & Hv)%elem_of_list_lookup & Hq). pose proof (lookup_lt_Some _ _ _ Hv) as Hlt. rewrite H1 in Hlt.
    destruct (H2 v Hlt) as (C & a' & D' & HC & Ha & Hst & Hv'). rewrite Hv in Hv'. injection Hv' as <- <-.
    apply elem_of_list_lookup in Hq as (i & Hi). destruct (Forall2_lookup_l _ _ _ _ _ Hst Hi) as (x & Hx & Hxq).
    assert (Hh : has_qubit l v x) by (exists C; split; [done|by eapply elem_of_list_lookup_2]).
    exists v, x. split; [done|]. split; [|done]. rewrite <- tl_low; [done|]. by eapply low_chain.
  - intros (v & x & Ha & Hx & (C & HC & Hin)). pose proof (lookup_lt_Some _ _ _ Ha) as Hlt.
    destruct (H2 v Hlt) as (C' & a' & D' & HC' & Ha' & Hst & Hv'). rewrite HC in HC'. injection HC' as <-.
    rewrite Ha in Ha'. injection Ha' as <-. exists D'. split; [by eapply elem_of_list_lookup_2|].
    apply elem_of_list_lookup in Hin as (i & Hi). destruct (Forall2_lookup_r _ _ _ _ _ Hst Hi) as (q' & Hq' & Hxq).
    rewrite tl_low in Hxq by (by eapply lookup_lt_Some). assert (q' = q) as -> by congruence. by eapply elem_of_list_lookup_2.
Qed.

Lemma low_edge x y a b : x < m0 -> y < m0 -> TL0 !! x = Some a -> TL0 !! y = Some b -> edge (ps_Tg s) x y -> ladj T a b \/ x = y.
Proof using All.
  intros Hx Hy Ha Hb He.
  assert (G : forall x y a b, x < m0 -> y < m0 -> TL0 !! x = Some a -> TL0 !! y = Some b -> (x, y) ∈ ge (ps_Tg s) -> (a, b) ∈ pg_edges T \/ x = y).
  { clear x y a b Hx Hy Ha Hb He. intros x y a b Hx Hy Ha Hb He. apply (su_eT _ _ _ _ _ _ _ _ HW) in He as [He|(k & v & i & bl & q & _ & -> & _)]; [|lia].
    destruct (read_graph_spec _ _ _ ET) as (_ & _ & H). apply H in He as [(a' & b' & Hab & Ha' & Hb')|[-> _]]; [|by right].
    left. congruence. }
  destruct He as [He|He].
  - destruct (G x y a b Hx Hy Ha Hb He) as [?|?]; [left; by left|by right].
  - destruct (G y x b a Hy Hx Hb Ha He) as [?|?]; [left; by right|by right].
Qed.
Lemma src_edge u v a b : SL0 !! u = Some a -> SL0 !! v = Some b -> ladj S a b -> edge (ps_Sg s) u v.
Proof using All.
  intros Ha Hb Hab. destruct (read_graph_spec _ _ _ ES) as (_ & _ & H).
  destruct Hab as [Hab|Hab]; [left|right]; apply (su_eS _ _ _ _ _ _ _ _ HW); left; apply H; left; eauto.
Qed.
Lemma occ_S a : occurs S a <-> exists v, SL0 !! v = Some a.
Proof using All. rewrite <- (elem_of_list_lookup SL0 a). symmetry. apply seenS. Qed.

Lemma embedding_labels : label_embedding_fixed S T (py_fixed p) d.
Proof using All.
  split.
  - split; [rewrite dict_keys; apply seenS|]. split; [intros v; rewrite dict_keys; apply seenS|].
    intros v q (v' & x & _ & Hx & _)%dict_in. apply seenT. by eapply elem_of_list_lookup_2.
  - intros v C HC Hne q. destruct (mp_from _ _ _ _ HF _ _ HC Hne) as (k & D & Hin & Hk & Hst).
    assert (Hfx : (k, D) ∈ p_fixed prm).
    { rewrite (po_fixed _ _ _ _ _ HPO), (su_F _ _ _ _ _ _ _ _ HW). by left. }
    rewrite dict_in. split.
    + intros (v' & x & Hv' & Hx & Hh). rewrite (NoDup_lookup _ _ _ _ (proj1 seenS) Hv' Hk) in Hh.
      apply (oe_fixed _ _ _ _ HL _ _ Hfx) in Hh. apply (stands_in _ _ _ Hst (proj1 seenT)) in Hh as (q' & Hq' & Hx').
      assert (q' = q) as -> by congruence. done.
    + intros Hq. assert (Hx : exists x, x ∈ D /\ TL0 !! x = Some q).
      { apply elem_of_list_lookup in Hq as (i & Hi). destruct (Forall2_lookup_l _ _ _ _ _ Hst Hi) as (x & Hx & Hxq).
        exists x. split; [by eapply elem_of_list_lookup_2|done]. }
      destruct Hx as (x & HxD & Hx). exists k, x. split; [done|]. split; [done|]. by apply (oe_fixed _ _ _ _ HL _ _ Hfx).
  - intros a (v & Hv)%occ_S. pose proof (lookup_lt_Some _ _ _ Hv) as Hlt.
    destruct (lookup_lt_is_Some_2 l v) as [C HC].
    { rewrite (oe_len _ _ _ _ HL), (su_nS _ _ _ _ _ _ _ _ HW), sl_len. lia. }
    destruct (oe_nodup _ _ _ _ HL _ _ HC) as (_ & Hne & _). destruct C as [|x C]; [done|].
    assert (Hh : has_qubit l v x) by (exists (x :: C); split; [done|left]).
    destruct (lookup_lt_is_Some_2 TL0 x) as [q Hq]; [by eapply low_chain|]. exists q. apply dict_in. by exists v, x.
  - intros a (v & Hv)%occ_S Hng q q' Hq Hq'. pose proof (lookup_lt_Some _ _ _ Hv) as Hlt.
    assert (Hc : connected_in (edge (ps_Tg s)) (has_qubit l v)).
    { apply (oe_connected _ _ _ _ HL); [rewrite (su_nS _ _ _ _ _ _ _ _ HW), sl_len; lia|].
      intros Hfx. by apply (given_index _ _ Hv) in Hfx. }
    assert (Hat : forall q, in_dict d a q -> exists x, TL0 !! x = Some q /\ has_qubit l v x).
    { intros r (v' & x & Hv' & Hx & Hh)%dict_in. exists x. split; [done|].
      by rewrite <- (NoDup_lookup _ _ _ _ (proj1 seenS) Hv' Hv). }
    destruct (Hat _ Hq) as (x & Hx & Hhx). destruct (Hat _ Hq') as (y & Hy & Hhy).
    specialize (Hc x y Hhx Hhy). clear Hq Hq' Hhx. revert q Hx. induction Hc as [x|x z y (He & H1 & H2) Hr IH]; intros q Hx.
    + assert (q = q') as -> by congruence. apply rtc_refl.
    + pose proof (low_chain _ _ Hlt H1). pose proof (low_chain _ _ Hlt H2).
      destruct (lookup_lt_is_Some_2 TL0 z) as [r Hz]; [done|].
      destruct (low_edge x z q r) as [Hadj|Heq]; try done.
      * eapply rtc_l; [|by apply (IH Hy Hhy r Hz)]. split; [done|]. split; apply dict_in; eauto.
      * subst z. assert (r = q) as -> by congruence. by apply IH.
  - intros a b q (u & x & Hu & Hx & Hhu)%dict_in (v & y & Hv & Hy & Hhv)%dict_in.
    rewrite (NoDup_lookup _ _ _ _ (proj1 seenT) Hx Hy) in Hhu. assert (u = v) as -> by by eapply HD. congruence.
  - intros a b Hab Hne Hng.
    assert (Hocc : occurs S a /\ occurs S b).
    { unfold occurs, stream, endpoints. split; apply elem_of_app; left; apply elem_of_list_In, in_concat;
        destruct Hab as [Hab|Hab]; (eexists; split; [apply elem_of_list_In, elem_of_list_fmap; by eexists|cbn; auto]). }
    destruct Hocc as [(u & Hu)%occ_S (v & Hv)%occ_S]. assert (Huv : u <> v) by (intros ->; congruence).
    destruct (oe_edges _ _ _ _ HL u v) as (x & y & Hx & Hy & Hxy).
    { by eapply src_edge. } { done. }
    { intros [H1 H2]. apply Hng. split; [by apply (given_index _ _ Hu)|by apply (given_index _ _ Hv)]. }
    pose proof (low_chain _ _ (lookup_lt_Some _ _ _ Hu) Hx). pose proof (low_chain _ _ (lookup_lt_Some _ _ _ Hv) Hy).
    assert (x <> y). { intros ->. apply Huv. by eapply HD. }
    destruct Hxy as [?|Hxy]; [done|].
    destruct (lookup_lt_is_Some_2 TL0 x) as [qx Hqx]; [done|]. destruct (lookup_lt_is_Some_2 TL0 y) as [qy Hqy]; [done|].
    exists qx, qy. split; [apply dict_in; eauto|]. split; [apply dict_in; eauto|].
    by destruct (low_edge x y qx qy) as [?|?].
Qed.

Lemma blobs_hit a : covers W (py_suspend p) -> occurs S a -> ~ given (py_fixed p) a -> hits (py_suspend p) d a.
Proof using All.
  intros Hcov (v & Hv)%occ_S Hng blobs blob HX Hb Hne. pose proof (lookup_lt_Some _ _ _ Hv) as Hlt.
  destruct (Hcov _ _ _ HX Hb Hne) as (i & (k & Hk)%elem_of_list_lookup). pose proof (lookup_lt_Some _ _ _ Hk) as HkW.
  destruct (oe_edges _ _ _ _ HL v (n0 + k)) as (x & y & Hx & Hy & Hxy).
  { left. apply (su_eS _ _ _ _ _ _ _ _ HW). right. exists k, a, i, blob. split; [done|]. split; [done|]. by rewrite sl_low. }
  { lia. }
  { intros [H1 _]. by apply (given_index _ _ Hv) in H1. }
  pose proof (low_chain _ _ Hlt Hx) as Hxm.
  apply (oe_fixed _ _ _ _ HL _ _ (pin_fixed _ HkW)) in Hy. apply elem_of_list_singleton in Hy. subst y.
  destruct Hxy as [?|Hxy]; [lia|].
  assert (Hin : (m0 + k, x) ∈ ge (ps_Tg s)).
  { destruct Hxy as [Hxy|Hxy]; [|done]. exfalso.
    apply (su_eT _ _ _ _ _ _ _ _ HW) in Hxy as [H%old_edge_T|(k' & v' & i' & b' & q & _ & -> & _)]; lia. }
  apply (su_eT _ _ _ _ _ _ _ _ HW) in Hin as [H%old_edge_T|(k' & v' & i' & b' & q & Hk' & Heq & Hq & Hxq)]; [lia|].
  assert (k' = k) as -> by lia. rewrite Hk in Hk'. injection Hk' as <- <- <-. exists q. split; [done|].
  apply dict_in. exists v, x. split; [done|]. split; [|done]. by rewrite <- tl_low.
Qed.
End dict.
End good.

Lemma py_success S T p o r d : good_maps (py_fixed p) (py_initial p) -> py_restrict p = [] -> py_fits S T p o ->
  py_find_embedding pin S T p o = Ok r -> reports r d ->
  label_embedding_fixed S T (py_fixed p) d
  /\ forall v, occurs S v -> ~ given (py_fixed p) v -> hits (py_suspend p) d v.
Proof.
  intros HG HR HO E Hr. unfold py_find_embedding in E. destruct (parse pin S T p) as [[[s prm]|]|] eqn:EP; [| |done].
  2: { cbn [rbind] in E. injection E as <-. destruct Hr as [?|[[= ->] ?]]; done. }
  cbn [rbind] in E. pose proof (parse_spec _ _ _ _ _ HG EP) as HPO.
  destruct (po_ex _ _ _ _ _ HPO) as (SL0 & Sg0 & TL0 & Tg0 & F0 & W & ES & ET & NS & NT & HF & HI & HW & HWl & HWc).
  pose proof (good S T p o HG HR HO s prm EP SL0 Sg0 TL0 Tg0 F0 W ES ET NS NT HF HI HW HWl HPO) as HGI.
  destruct (find_embedding (ps_Sg s) (ps_Tg s) prm o) as [[ok cs]|] eqn:EF; [|done]. cbn [rbind] in E.
  destruct (foldM _ (seq 0 _) []) as [d'|] eqn:Ed; [|done]. cbn [rbind] in E. injection E as <-.
  assert (Hok : ok = true /\ d' = d).
  { destruct (run_ok _ _ _ _ _ HGI EF) as [Ho _]. unfold outcome in Ho. cbn in Ho.
    destruct (p_return_overlap prm) eqn:Eo.
    - destruct Hr as [[= -> ->]|[[=] _]]. done.
    - destruct Hr as [[=]|[[= ->] Hne]]. split; [|done]. destruct cs as [l|]; [naive_solver|].
      cbn in Ed. injection Ed as <-. done. }
  destruct Hok as [-> ->]. destruct (success_embedding _ _ _ _ _ HGI EF) as (l & -> & HL & HD). cbn [default from_option] in Ed. unfold id in Ed.
  split.
  - eapply embedding_labels; done.
  - intros v Hv Hng. eapply blobs_hit; done.
Qed.

Lemma py_safe S T p o e : good_maps (py_fixed p) (py_initial p) -> py_restrict p = [] -> py_fits S T p o ->
  py_find_embedding pin S T p o = Err e -> e <> UB /\ e <> OOF.
Proof.
  intros HG HR HO E. unfold py_find_embedding in E. destruct (parse pin S T p) as [[[s prm]|]|e'] eqn:EP; cbn [rbind] in E.
  2: done.
  2: { injection E as <-. apply parse_err in EP as ->. done. }
  pose proof (parse_spec _ _ _ _ _ HG EP) as HPO.
  destruct (po_ex _ _ _ _ _ HPO) as (SL0 & Sg0 & TL0 & Tg0 & F0 & W & ES & ET & NS & NT & HF & HI & HW & HWl & HWc).
  pose proof (good S T p o HG HR HO s prm EP SL0 Sg0 TL0 Tg0 F0 W ES ET NS NT HF HI HW HWl HPO) as HGI.
  pose proof (run_safe _ _ _ _ HGI) as Hsafe.
  destruct (find_embedding (ps_Sg s) (ps_Tg s) prm o) as [[ok cs]|e'] eqn:EF; cbn [rbind] in E.
  2: { injection E as <-. tauto. }
  destruct (foldM _ (seq 0 _) []) as [d'|e'] eqn:Ed; [done|]. cbn [rbind] in E. injection E as <-.
  assert (Hc : e' = Corrupt); [|by subst].
  revert Ed. set (l := default [] cs). assert (G : forall ks d, (forall v, v ∈ ks -> v < length l) ->
    foldM (fun d v => let! C := vget l v in let! a := label (ps_SL s) v in let! D := labels (ps_TL s) C in Ok (d ++ [(a, D)])) ks d = Err e' -> e' = Corrupt).
  { induction ks as [|v ks IH]; intros d Hks; cbn; [done|]. unfold vget at 1.
    destruct (lookup_lt_is_Some_2 l v) as [C HC]; [apply Hks; left|]. rewrite HC. cbn [rbind].
    unfold label at 1. destruct (ps_SL s !! v) as [a|]; cbn [rbind]; [|congruence].
    destruct (labels (ps_TL s) C) as [D|e1] eqn:ED; cbn [rbind]; [|intros [= <-]; by eapply labels_err].
    apply IH. intros w Hw. apply Hks. by right. }
  intros Ed. eapply G; [|exact Ed]. intros v Hv%elem_of_seq. lia.
Qed.

Lemma py_shape S T p o r : (exists a : A, occurs S a) -> py_find_embedding pin S T p o = Ok r ->
  if p_return_overlap (py_opts p) then exists d ok, r = PyPair d ok else exists d, r = PyDict d.
Proof.
  intros [a Ha] E. unfold py_find_embedding, parse in E. destruct (read_graph S) as [SL Sg] eqn:ES.
  destruct (read_graph_spec _ _ _ ES) as (HS & _). apply HS in Ha. destruct SL as [|b SL]; [by apply elem_of_nil in Ha|].
  destruct (read_graph T) as [[|c TL] Tg]; [done|].
  destruct (get_chainmap _ _ (py_fixed p)); [|done]. cbn [rbind] in E.
  destruct (get_chainmap _ _ (py_initial p)); [|done]. cbn [rbind] in E.
  destruct (get_chainmap _ _ (py_restrict p)); [|done]. cbn [rbind] in E.
  destruct (foldM _ (py_suspend p) _) as [s|]; [|done]. cbn [rbind] in E.
  destruct (find_embedding _ _ _ _) as [[ok cs]|]; [|done]. cbn [rbind] in E.
  destruct (foldM _ (seq 0 _) []) as [d|]; [|done]. cbn [rbind p_return_overlap] in E. injection E as <-.
  destruct (p_return_overlap (py_opts p)); eauto.
Qed.
End main.
