(** The checks of an embedding report the defects and nothing else. *)
Require Import Lia.
From stdpp Require Import base list numbers relations.
From Verif Require Import Base NxModel SpecNx.

Section proofs.
Context {A : Type} `{!EqDecision A}.
Implicit Types (g S T : nxgraph A) (emb : list (A * list A)) (x y q : A).

(** ** Dicts *)
Lemma dlookup_Some {B} (d : list (A * B)) k b : NoDup d.*1 -> dlookup d k = Some b <-> (k, b) ∈ d.
Proof.
  induction d as [|[k' b'] d IH]; intros ND; simpl.
  - split; [done|]. intros H. by apply elem_of_nil in H.
  - inversion ND as [|? ? Hn Hd]; subst. rewrite elem_of_cons. destruct (decide (k' = k)) as [->|Hk].
    + split; [intros [= ->]; by left|]. intros [[= ->]|Hin]; [done|]. exfalso. apply Hn.
      apply elem_of_list_fmap. by exists (k, b).
    + rewrite IH by done. split; [by right|]. intros [[= -> ->]|]; done.
Qed.
Lemma dlookup_in {B} (d : list (A * B)) k b : dlookup d k = Some b -> (k, b) ∈ d.
Proof.
  induction d as [|[k' b'] d IH]; simpl; [done|]. destruct (decide (k' = k)) as [->|]; [intros [= ->]; left|right; auto].
Qed.
Lemma dlookup_key {B} (d : list (A * B)) k : k ∈ d.*1 <-> is_Some (dlookup d k).
Proof.
  induction d as [|[k' b] d IH]; simpl.
  - split; [intros H; by apply elem_of_nil in H|]. intros [? [=]].
  - rewrite elem_of_cons. destruct (decide (k' = k)) as [->|Hk].
    + split; [by eexists|by left].
    + rewrite IH. split; [intros [->|]; done|by right].
Qed.
Lemma dlookup_dstore {B} (d : list (A * B)) k b k' : dlookup (dstore d k b) k' = if decide (k = k') then Some b else dlookup d k'.
Proof.
  induction d as [|[k1 b1] d IH]; simpl.
  - destruct (decide (k = k')); done.
  - destruct (decide (k1 = k)) as [->|Hk]; simpl.
    + destruct (decide (k = k')); done.
    + rewrite IH. destruct (decide (k1 = k')) as [->|]; destruct (decide (k = k')); congruence.
Qed.

Lemma on_chain_lookup emb x C : NoDup emb.*1 -> dlookup emb x = Some C -> forall q, on_chain emb x q <-> q ∈ C.
Proof.
  intros ND E q. apply dlookup_Some in E as E'; [|done]. split.
  - intros (C' & HC & Hq). apply (dlookup_Some emb x C' ND) in HC. congruence.
  - intros Hq. by exists C.
Qed.
Lemma on_chain_none emb x q : NoDup emb.*1 -> dlookup emb x = None -> ~ on_chain emb x q.
Proof. intros ND E (C & HC & _). apply (dlookup_Some emb x C ND) in HC. congruence. Qed.

(** ** Connectedness *)
Lemma has_edge_adj g a b : nx_has_edge g a b = true <-> nx_adj g a b.
Proof. unfold nx_has_edge, nx_adj. by rewrite bool_decide_eq_true. Qed.
Lemma elem_spread g seen y : y ∈ nx_spread g seen <-> (y ∈ seen \/ exists x, x ∈ seen /\ nx_adj g x y) /\ y ∈ nx_nodes g.
Proof.
  unfold nx_spread. rewrite elem_of_list_filter, Exists_exists. split; intros [[H|(x & H & H')] Hy]; split; auto.
  - right. exists x. by rewrite <- has_edge_adj.
  - right. exists x. by rewrite has_edge_adj.
Qed.
Lemma spread_nodup g seen : NoDup (nx_nodes g) -> NoDup (nx_spread g seen).
Proof. intros. by apply NoDup_filter. Qed.
Lemma reach_nodup n g seen : NoDup (nx_nodes g) -> NoDup seen -> NoDup (nx_reach n g seen).
Proof. revert seen. induction n as [|n IH]; intros seen ND Hs; simpl; [done|]. apply IH; [done|by apply spread_nodup]. Qed.
Lemma reach_nodes n g seen : (forall y, y ∈ seen -> y ∈ nx_nodes g) -> forall y, y ∈ nx_reach n g seen -> y ∈ nx_nodes g.
Proof.
  revert seen. induction n as [|n IH]; intros seen Hs y; simpl; [apply Hs|]. apply IH. intros z Hz.
  by apply elem_spread in Hz as [_ ?].
Qed.
Lemma reach_keeps n g seen : (forall y, y ∈ seen -> y ∈ nx_nodes g) -> forall y, y ∈ seen -> y ∈ nx_reach n g seen.
Proof.
  revert seen. induction n as [|n IH]; intros seen Hs y Hy; simpl; [done|]. apply IH.
  - intros z Hz. by apply elem_spread in Hz as [_ ?].
  - apply elem_spread. auto.
Qed.
Definition closed_in g (seen : list A) : Prop := forall x y, x ∈ seen -> nx_adj g x y -> y ∈ nx_nodes g -> y ∈ seen.
Lemma reach_closed_id n g seen : (forall y, y ∈ seen -> y ∈ nx_nodes g) -> closed_in g seen ->
  forall y, y ∈ nx_reach n g seen <-> y ∈ seen.
Proof.
  revert seen. induction n as [|n IH]; intros seen Hs Hc y; simpl; [done|].
  assert (E : forall z, z ∈ nx_spread g seen <-> z ∈ seen).
  { intros z. rewrite elem_spread. split; [|auto]. intros [[?|(x & Hx & Ha)] Hz]; [done|]. eapply Hc; eauto. }
  rewrite IH; [apply E| |].
  - intros z Hz. apply Hs. by apply E.
  - intros a b Ha Hab Hb. apply E. apply E in Ha. eapply Hc; eauto.
Qed.
(** either everything that is reached is closed, or the number of what is reached grows *)
Lemma reach_grows n g seen : NoDup (nx_nodes g) -> NoDup seen -> (forall y, y ∈ seen -> y ∈ nx_nodes g) ->
  closed_in g (nx_reach n g seen) \/ length seen + n <= length (nx_reach n g seen).
Proof.
  revert seen. induction n as [|n IH]; intros seen ND NS Hs; simpl; [right; lia|].
  assert (Hs' : forall y, y ∈ nx_spread g seen -> y ∈ nx_nodes g) by (intros z Hz; by apply elem_spread in Hz as [_ ?]).
  assert (NS' : NoDup (nx_spread g seen)) by by apply spread_nodup.
  destruct (IH _ ND NS' Hs') as [?|Hl]; [by left|].
  assert (Hsub : seen ⊆ nx_spread g seen) by (intros z Hz; apply elem_spread; auto).
  destruct (decide (nx_spread g seen ⊆ seen)) as [Hin|Hout].
  - left. assert (closed_in g (nx_spread g seen)) as Hc.
    { intros a b Ha Hab Hb. apply elem_spread. split; [|done]. right. exists a. split; [|done]. by apply Hin. }
    intros a b Ha Hab Hb. apply (reach_closed_id n g _ Hs' Hc) in Ha. apply (reach_closed_id n g _ Hs' Hc). eapply Hc; eauto.
  - right. assert (length seen < length (nx_spread g seen)); [|lia].
    assert (length seen <= length (nx_spread g seen)) by (apply submseteq_length, NoDup_submseteq; done).
    destruct (decide (length seen = length (nx_spread g seen))) as [E|]; [|lia]. exfalso. apply Hout.
    assert (P : seen ≡ₚ nx_spread g seen) by (apply submseteq_Permutation_length_le; [lia|by apply NoDup_submseteq]).
    intros z Hz. by rewrite P.
Qed.
Lemma reach_joined n g seen y : y ∈ nx_reach n g seen -> (forall y, y ∈ seen -> y ∈ nx_nodes g) ->
  exists x, x ∈ seen /\ rtc (fun a b => nx_adj g a b /\ a ∈ nx_nodes g /\ b ∈ nx_nodes g) x y.
Proof.
  revert seen. induction n as [|n IH]; intros seen Hy Hs; simpl in Hy; [by exists y|].
  destruct (IH _ Hy) as (x & Hx & Hr). { intros z Hz. by apply elem_spread in Hz as [_ ?]. }
  apply elem_spread in Hx as [[Hx|(z & Hz & Ha)] Hn]; [by exists x|]. exists z. split; [done|].
  eapply rtc_l; [|exact Hr]. auto.
Qed.
Lemma nx_adj_sym g a b : nx_adj g a b -> nx_adj g b a.
Proof. unfold nx_adj. tauto. Qed.
Lemma rtc_in_sym (adj : A -> A -> Prop) (P : A -> Prop) x y : (forall a b, adj a b -> adj b a) ->
  rtc (fun a b => adj a b /\ P a /\ P b) x y -> rtc (fun a b => adj a b /\ P a /\ P b) y x.
Proof.
  intros Hs H. induction H as [x|x z y (Ha & Hx & Hz) _ IH]; [done|]. eapply rtc_r; [exact IH|]. auto.
Qed.
Lemma is_connected_spec g : NoDup (nx_nodes g) -> nx_nodes g <> [] ->
  nx_is_connected g = true <-> joined_in (nx_adj g) (fun a => a ∈ nx_nodes g).
Proof.
  intros ND HN. unfold nx_is_connected. destruct (nx_nodes g) as [|a l] eqn:E; [done|].
  assert (Ha : forall y, y ∈ [a] -> y ∈ nx_nodes g). { intros y Hy. apply elem_of_list_singleton in Hy as ->. rewrite E. left. }
  rewrite Nat.eqb_eq. rewrite <- E in *. set (n := length (nx_nodes g)). split.
  - intros HL.
    assert (P : nx_reach n g [a] ≡ₚ nx_nodes g).
    { apply submseteq_Permutation_length_le; [fold n; lia|]. apply NoDup_submseteq; [apply reach_nodup; [done|apply NoDup_singleton]|].
      intros y Hy. by apply (reach_nodes n g [a] Ha). }
    assert (HR : forall y, y ∈ nx_nodes g -> rtc (fun b c => nx_adj g b c /\ b ∈ nx_nodes g /\ c ∈ nx_nodes g) a y).
    { intros y Hy. rewrite <- P in Hy. destruct (reach_joined n g [a] y Hy Ha) as (x & Hx & Hr).
      by apply elem_of_list_singleton in Hx as ->. }
    intros x y Hx Hy. transitivity a; [|by apply HR]. apply rtc_in_sym; [apply nx_adj_sym|by apply HR].
  - intros HJ.
    assert (NR : NoDup (nx_reach n g [a])) by (apply reach_nodup; [done|apply NoDup_singleton]).
    assert (HRn : forall y, y ∈ nx_reach n g [a] -> y ∈ nx_nodes g) by by apply (reach_nodes n g [a] Ha).
    assert (Hle : length (nx_reach n g [a]) <= n) by (apply submseteq_length, NoDup_submseteq; done).
    destruct (reach_grows n g [a] ND (NoDup_singleton a) Ha) as [Hc|Hl]; [|simpl in Hl; lia].
    assert (Hall : forall y, y ∈ nx_nodes g -> y ∈ nx_reach n g [a]).
    { intros y Hy. assert (Hr := HJ a y (Ha a ltac:(left)) Hy).
      assert (H0 : a ∈ nx_reach n g [a]) by (apply reach_keeps; [done|left]).
      clear - Hc Hr H0. revert Hc H0. generalize (nx_reach n g [a]). intros R Hc H0.
      induction Hr as [u|u v w (Huv & _ & Hv) _ IH]; [done|]. apply IH. eapply Hc; eauto. }
    enough (n <= length (nx_reach n g [a])) by lia. apply submseteq_length, NoDup_submseteq; [done|exact Hall].
Qed.
Lemma subgraph_nodes g s a : a ∈ nx_nodes (nx_subgraph g s) <-> a ∈ nx_nodes g /\ a ∈ s.
Proof. unfold nx_subgraph; simpl. rewrite elem_of_list_filter. tauto. Qed.
Lemma subgraph_edges g s a b : (a, b) ∈ nx_edges (nx_subgraph g s) <-> (a, b) ∈ nx_edges g /\ a ∈ s /\ b ∈ s.
Proof. unfold nx_subgraph; simpl. rewrite elem_of_list_filter. simpl. tauto. Qed.
Lemma subgraph_adj g s a b : nx_adj (nx_subgraph g s) a b <-> nx_adj g a b /\ a ∈ s /\ b ∈ s.
Proof. unfold nx_adj. rewrite !subgraph_edges. tauto. Qed.
Lemma joined_in_iff (adj adj' : A -> A -> Prop) (P Q : A -> Prop) : (forall a, P a <-> Q a) ->
  (forall a b, P a -> P b -> adj a b <-> adj' a b) -> joined_in adj P <-> joined_in adj' Q.
Proof.
  intros HP Ha. unfold joined_in. split; intros H x y Hx Hy.
  - eapply (rtc_subrel _ _ x y); [|apply H; by apply HP]. intros a b (Hab & H1 & H2).
    rewrite <- !HP. split; [|done]. by apply Ha.
  - eapply (rtc_subrel _ _ x y); [|apply H; by apply HP]. intros a b (Hab & H1 & H2).
    rewrite !HP. split; [|done]. apply Ha; by try apply HP.
Qed.
Lemma subgraph_connected T C : NoDup (nx_nodes T) -> C <> [] -> (forall q, q ∈ C -> q ∈ nx_nodes T) ->
  nx_is_connected (nx_subgraph T C) = true <-> joined_in (nx_adj T) (fun q => q ∈ C).
Proof.
  intros ND HC HT. rewrite is_connected_spec.
  - apply joined_in_iff.
    + intros a. rewrite subgraph_nodes. split; [tauto|]. auto.
    + intros a b Hx Hy. rewrite subgraph_nodes in Hx, Hy. rewrite subgraph_adj. tauto.
  - by apply NoDup_filter.
  - destruct C as [|q C]; [done|]. intros E. assert (H : q ∈ nx_nodes (nx_subgraph T (q :: C))).
    { apply subgraph_nodes. split; [apply HT|]; left. }
    rewrite E in H. by apply elem_of_nil in H.
Qed.

(** ** The labels *)
Record labels_ok (labels : list (A * list A)) (overlaps : list A) (R : A -> A -> Prop) : Prop := {
  lo_rel : forall x q, R x q <-> exists l, dlookup labels q = Some l /\ x ∈ l;
  lo_nd : forall q l, dlookup labels q = Some l -> NoDup l /\ l <> [];
  lo_over : forall q, q ∈ overlaps <-> exists l, dlookup labels q = Some l /\ 2 <= length l
}.
Lemma elem_sadd s x y : y ∈ sadd s x <-> y ∈ s \/ y = x.
Proof.
  unfold sadd. destruct (decide (x ∈ s)); [|by rewrite elem_of_app, elem_of_list_singleton].
  split; [tauto|]. intros [?| ->]; done.
Qed.
Lemma diag_node_ok T x q s ap R : labels_ok (dg_labels s) (dg_overlaps s) R ->
  let '(s', ap') := diag_node T x (s, ap) q in
  labels_ok (dg_labels s') (dg_overlaps s') (fun y p => R y p \/ (y = x /\ p = q /\ q ∈ nx_nodes T))
  /\ dg_embedded s' = dg_embedded s
  /\ dg_out s' = dg_out s ++ (if decide (q ∈ nx_nodes T) then [] else [InvalidNodeError x q])
  /\ ap' = ap && bool_decide (q ∈ nx_nodes T).
Proof.
  intros [Hr Hn Ho]. unfold diag_node. destruct (decide (q ∈ nx_nodes T)) as [HT|HT].
  2: { simpl. repeat split; try done.
    - rewrite Hr. intros [H|(? & ? & ?)]; [|done]. exact H.
    - intros H. left. by apply Hr.
    - by eapply Hn.
    - by eapply Hn.
    - apply Ho.
    - apply Ho.
    - by rewrite bool_decide_eq_false_2, andb_false_r. }
  rewrite (bool_decide_eq_true_2 _ HT), andb_true_r.
  destruct (dlookup (dg_labels s) q) as [l|] eqn:E.
  - destruct (decide (x ∈ l)) as [Hx|Hx]; simpl; rewrite ?app_nil_r.
    + repeat split; try done.
      * rewrite Hr. intros [H|(-> & -> & ?)]; [exact H|]. by exists l.
      * intros H. left. by apply Hr.
      * by eapply Hn.
      * by eapply Hn.
      * apply Ho.
      * apply Ho.
    + repeat split; try done.
      * intros [H|(-> & -> & ?)].
        -- rewrite dlookup_dstore. destruct (decide (q = q0)) as [<-|].
           ++ exists (l ++ [x]). split; [done|]. apply Hr in H as (l' & E' & Hl'). rewrite E in E'. injection E' as <-. apply elem_of_app. by left.
           ++ by apply Hr.
        -- exists (l ++ [x]). rewrite dlookup_dstore, decide_True by done. split; [done|]. apply elem_of_app. right. left.
      * rewrite dlookup_dstore. intros (l' & E' & Hl'). destruct (decide (q = q0)) as [<-|].
        -- injection E' as <-. apply elem_of_app in Hl' as [Hl'|Hl'].
           ++ left. apply Hr. by exists l.
           ++ apply elem_of_list_singleton in Hl' as ->. by right.
        -- left. apply Hr. by exists l'.
      * rewrite dlookup_dstore in H. destruct (decide (q = q0)) as [<-|].
        -- injection H as <-. apply NoDup_app. split; [by eapply Hn|]. split; [|apply NoDup_singleton].
           intros z Hz Hz'. apply elem_of_list_singleton in Hz' as ->. done.
        -- by eapply Hn.
      * rewrite dlookup_dstore in H. destruct (decide (q = q0)) as [<-|].
        -- injection H as <-. intros H'. by apply app_nil in H' as [_ ?].
        -- by eapply Hn.
      * rewrite elem_sadd. rewrite dlookup_dstore. destruct (decide (q = q0)) as [<-|Hq].
        -- intros _. exists (l ++ [x]). split; [done|]. rewrite app_length. simpl. apply Hn in E as [_ E]. destruct l; [done|]. simpl. lia.
        -- intros [H| ->]; [|done]. by apply Ho.
      * rewrite elem_sadd. rewrite dlookup_dstore. destruct (decide (q = q0)) as [<-|Hq]; [by right|].
        intros H. left. by apply Ho.
  - simpl; rewrite app_nil_r. repeat split; try done.
    + intros [H|(-> & -> & ?)]; rewrite dlookup_dstore.
      * apply Hr in H as (l' & E' & Hl'). rewrite decide_False by congruence. by exists l'.
      * rewrite decide_True by done. exists [x]. split; [done|left].
    + rewrite dlookup_dstore. intros (l' & E' & Hl'). destruct (decide (q = q0)) as [<-|].
      * injection E' as <-. apply elem_of_list_singleton in Hl' as ->. by right.
      * left. apply Hr. by exists l'.
    + rewrite dlookup_dstore in H. destruct (decide (q = q0)) as [<-|]; [injection H as <-; apply NoDup_singleton|by eapply Hn].
    + rewrite dlookup_dstore in H. destruct (decide (q = q0)) as [<-|]; [by injection H as <-|by eapply Hn].
    + intros H. apply Ho in H as (l' & E' & Hl'). rewrite dlookup_dstore, decide_False by congruence. by exists l'.
    + rewrite dlookup_dstore. intros (l' & E' & Hl'). destruct (decide (q = q0)) as [<-|].
      * injection E' as <-. simpl in Hl'. lia.
      * apply Ho. by exists l'.
Qed.
Lemma labels_ok_iff labels ov (R R' : A -> A -> Prop) : (forall x q, R x q <-> R' x q) -> labels_ok labels ov R -> labels_ok labels ov R'.
Proof. intros H [H1 H2 H3]. split; [|done..]. intros x q. by rewrite <- H. Qed.
Lemma diag_chain_ok T x C s ap R s' ap' : labels_ok (dg_labels s) (dg_overlaps s) R ->
  foldl (diag_node T x) (s, ap) C = (s', ap') ->
  labels_ok (dg_labels s') (dg_overlaps s') (fun y p => R y p \/ (y = x /\ p ∈ C /\ p ∈ nx_nodes T))
  /\ dg_embedded s' = dg_embedded s
  /\ (exists out, dg_out s' = dg_out s ++ out /\ forall r, r ∈ out <-> exists q, q ∈ C /\ q ∉ nx_nodes T /\ r = InvalidNodeError x q)
  /\ (ap' = true <-> ap = true /\ forall q, q ∈ C -> q ∈ nx_nodes T).
Proof.
  revert s ap R. induction C as [|q C IH]; intros s ap R HR; cbn [foldl].
  - intros [= <- <-]. split; [|split; [done|split]].
    + eapply labels_ok_iff; [|exact HR]. intros y p. split; [by left|]. intros [H|(? & H & ?)]; [done|]. by apply elem_of_nil in H.
    + exists []. rewrite app_nil_r. split; [done|]. intros r. split; [intros H; by apply elem_of_nil in H|].
      intros (q & H & _). by apply elem_of_nil in H.
    + split; [intros ->; split; [done|]; intros q H; by apply elem_of_nil in H|tauto].
  - pose proof (diag_node_ok T x q s ap R HR) as H1. destruct (diag_node T x (s, ap) q) as [s1 ap1].
    destruct H1 as (L1 & E1 & O1 & A1). intros HF. destruct (IH _ _ _ L1 HF) as (L2 & E2 & (out & O2 & Hout) & A2).
    split; [|split; [congruence|split]].
    + eapply labels_ok_iff; [|exact L2]. intros y p. rewrite elem_of_cons. split.
      * intros [[H|(? & -> & ?)]|(? & ? & ?)]; [by left|right; auto|right; auto].
      * intros [H|(-> & [->|H] & H')]; [left; left; done|left; right; done|right; done].
    + eexists. rewrite O2, O1, <- app_assoc. split; [done|]. intros r. rewrite elem_of_app, Hout. split.
      * destruct (decide (q ∈ nx_nodes T)) as [|Hq]; intros [H|(p & H & H' & ->)].
        -- by apply elem_of_nil in H.
        -- exists p. split; [by right|done].
        -- apply elem_of_list_singleton in H as ->. exists q. split; [left|done].
        -- exists p. split; [by right|done].
      * intros (p & H & H' & ->). apply elem_of_cons in H as [->|H].
        -- left. rewrite decide_False by done. left.
        -- right. by exists p.
    + rewrite A2, A1, andb_true_iff, bool_decide_eq_true. split.
      * intros [[Hap HqT] HCT]. split; [done|]. intros p Hp. apply elem_of_cons in Hp as [->|Hp]; auto.
      * intros [Hap HCT]. split; [split; [done|apply HCT; left]|]. intros p Hp. apply HCT. by right.
Qed.

(** ** The first loop *)
Definition loop_report emb S T (x : A) (r : report A) : Prop :=
  match r with
  | MissingChainError y => y = x /\ forall q, ~ on_chain emb x q
  | InvalidNodeError y q => y = x /\ on_chain emb x q /\ q ∉ nx_nodes T
  | DisconnectedChainError y => y = x /\ placed emb T x /\ ~ joined_in (nx_adj T) (on_chain emb x)
  | _ => False
  end.
Record diag_inv emb S T (done : A -> Prop) (s : dstate) : Prop := {
  di_labels : labels_ok (dg_labels s) (dg_overlaps s) (fun x q => done x /\ on_chain emb x q /\ q ∈ nx_nodes T);
  di_embedded : forall x, x ∈ dg_embedded s <-> done x /\ placed emb T x;
  di_out : forall r, r ∈ dg_out s <-> exists x, done x /\ loop_report emb S T x r
}.
Lemma diag_var_ok emb S T P s x : NoDup emb.*1 -> NoDup (nx_nodes T) -> diag_inv emb S T P s ->
  diag_inv emb S T (fun y => P y \/ y = x) (diag_var emb T s x).
Proof.
  intros NE NT [HL HE HO]. unfold diag_var.
  assert (Hmiss : (forall q, ~ on_chain emb x q) ->
    diag_inv emb S T (fun y => P y \/ y = x) (mkDiag (dg_labels s) (dg_embedded s) (dg_overlaps s) (dg_out s ++ [MissingChainError x]))).
  { intros Hq. split; simpl.
    - eapply labels_ok_iff; [|exact HL]. intros y q. simpl. split; [tauto|]. intros [[H| ->] [H1 H2]]; [tauto|]. by apply Hq in H1.
    - intros y. rewrite HE. split; [tauto|]. intros [[H| ->] H']; [tauto|]. destruct H' as [[q H'] _]. by apply Hq in H'.
    - intros r. rewrite elem_of_app, HO, elem_of_list_singleton. split.
      + intros [(y & Hy & H)| ->]; [exists y; auto|]. exists x. simpl. auto.
      + intros (y & [Hy| ->] & H); [left; by exists y|]. right. destruct r as [y|y q|y|q y z|y z]; simpl in H; try done.
        * by destruct H as [-> _].
        * destruct H as (-> & H & _). by apply Hq in H.
        * destruct H as (-> & [[q H] _] & _). by apply Hq in H. }
  destruct (dlookup emb x) as [[|q0 C0]|] eqn:Ex.
  { apply Hmiss. intros q Hq. apply (on_chain_lookup emb x [] NE Ex) in Hq. by apply elem_of_nil in Hq. }
  2: { apply Hmiss. intros q. by apply on_chain_none. }
  pose proof (on_chain_lookup emb x _ NE Ex) as Hon. remember (q0 :: C0) as C eqn:EC.
  assert (HC : C <> []) by (by subst C). clear Hmiss.
  assert (Hpl : placed emb T x <-> forall q, q ∈ C -> q ∈ nx_nodes T).
  { unfold placed. split.
    - intros [_ H] q Hq. apply H. by apply Hon.
    - intros H. split; [exists q0; apply Hon; subst C; left|]. intros q Hq. apply H. by apply Hon. }
  destruct (foldl (diag_node T x) (s, true) C) as [s1 ap] eqn:EF.
  destruct (diag_chain_ok T x C s true _ s1 ap HL EF) as (L1 & E1 & (out & O1 & Hout) & A1).
  assert (L2 : labels_ok (dg_labels s1) (dg_overlaps s1) (fun y q => (P y \/ y = x) /\ on_chain emb y q /\ q ∈ nx_nodes T)).
  { eapply labels_ok_iff; [|exact L1]. intros y q. simpl. split.
    - intros [(? & ? & ?)|(-> & ? & ?)]; [tauto|]. rewrite Hon. tauto.
    - intros [[H| ->] [H1 H2]]; [tauto|]. rewrite Hon in H1. tauto. }
  destruct ap.
  - destruct A1 as [A1 _]. specialize (A1 eq_refl) as [_ A1]. split; simpl; [exact L2| |].
    + intros y. rewrite elem_sadd, E1, HE. split; [intros [[? ?]| ->]; tauto|]. intros [[H| ->] H']; tauto.
    + assert (Hnil : out = []). { destruct out as [|r out]; [done|]. destruct (proj1 (Hout r) ltac:(left)) as (q & Hq & Hq' & _). by apply A1 in Hq. }
      subst out. rewrite O1, app_nil_r. intros r. rewrite elem_of_app, HO.
      pose proof (subgraph_connected T C NT HC A1) as Hcon.
      assert (Hj : joined_in (nx_adj T) (on_chain emb x) <-> joined_in (nx_adj T) (fun q => q ∈ C)) by (by apply joined_in_iff).
      destruct (nx_is_connected (nx_subgraph T C)).
      * split.
        -- intros [(y & Hy & H)|H]; [exists y; auto|]. by apply elem_of_nil in H.
        -- intros (y & [Hy| ->] & H); [left; by exists y|]. exfalso. destruct r as [y|y q|y|q y z|y z]; simpl in H; try done.
           ++ destruct H as [-> H]. apply (H q0), Hon. subst C. left.
           ++ destruct H as (-> & H & H'). apply Hon, A1 in H. done.
           ++ destruct H as (-> & _ & H). by apply H, Hj, Hcon.
      * rewrite elem_of_list_singleton. split.
        -- intros [(y & Hy & H)| ->]; [exists y; auto|]. exists x. simpl. split; [auto|]. split; [done|]. split; [by apply Hpl|].
           intros H. apply Hj, Hcon in H. done.
        -- intros (y & [Hy| ->] & H); [left; by exists y|]. right. destruct r as [y|y q|y|q y z|y z]; simpl in H; try done.
           ++ destruct H as [-> H]. exfalso. apply (H q0), Hon. subst C. left.
           ++ destruct H as (-> & H & H'). apply Hon, A1 in H. done.
           ++ by destruct H as (-> & _ & _).
  - assert (Hnot : ~ forall q, q ∈ C -> q ∈ nx_nodes T) by (intros H; destruct A1 as [_ A1]; by specialize (A1 (conj eq_refl H))).
    split; [exact L2| |].
    + intros y. rewrite E1, HE. split; [tauto|]. intros [[H| ->] H']; [tauto|]. exfalso. by apply Hnot, Hpl.
    + intros r. rewrite O1, elem_of_app, HO, Hout. split.
      * intros [(y & Hy & H)|(q & H & H' & ->)]; [exists y; auto|]. exists x. simpl. rewrite Hon. auto.
      * intros (y & [Hy| ->] & H); [left; by exists y|]. right. destruct r as [y|y q|y|q y z|y z]; simpl in H; try done.
        -- destruct H as [-> H]. exfalso. apply (H q0), Hon. subst C. left.
        -- destruct H as (-> & H & H'). exists q. rewrite <- Hon. done.
        -- destruct H as (-> & H & _). exfalso. by apply Hnot, Hpl.
Qed.
Lemma diag_loop_ok emb S T : NoDup emb.*1 -> NoDup (nx_nodes T) ->
  diag_inv emb S T (fun x => x ∈ nx_nodes S) (foldl (diag_var emb T) (mkDiag [] [] [] []) (nx_nodes S)).
Proof.
  intros NE NT.
  enough (H : forall xs P s, diag_inv emb S T P s -> diag_inv emb S T (fun x => P x \/ x ∈ xs) (foldl (diag_var emb T) s xs)).
  { specialize (H (nx_nodes S) (fun _ => False) (mkDiag [] [] [] [])). destruct H as [H1 H2 H3].
    - split; simpl.
      + split; simpl; [|done|].
        * intros x q. split; [tauto|]. intros (l & ? & _). done.
        * intros q. split; [intros H; by apply elem_of_nil in H|]. intros (l & ? & _). done.
      + intros x. split; [intros H; by apply elem_of_nil in H|tauto].
      + intros r. split; [intros H; by apply elem_of_nil in H|]. intros (x & ? & _). done.
    - split.
      + eapply labels_ok_iff; [|exact H1]. intros x q. simpl. tauto.
      + intros x. rewrite H2. tauto.
      + intros r. rewrite H3. split; intros (x & Hx & ?); exists x; tauto. }
  induction xs as [|x xs IH]; intros P s Hs; simpl.
  - destruct Hs as [H1 H2 H3]. split.
    + eapply labels_ok_iff; [|exact H1]. intros x q. simpl. rewrite elem_of_nil. tauto.
    + intros x. rewrite H2, elem_of_nil. tauto.
    + intros r. rewrite H3. split; intros (x & Hx & ?); exists x; rewrite elem_of_nil in *; tauto.
  - destruct (IH _ _ (diag_var_ok emb S T P s x NE NT Hs)) as [H1 H2 H3]. split.
    + eapply labels_ok_iff; [|exact H1]. intros y q. simpl. rewrite elem_of_cons. tauto.
    + intros y. rewrite H2, elem_of_cons. tauto.
    + intros r. rewrite H3. split; intros (y & Hy & ?); exists y; rewrite elem_of_cons in *; tauto.
Qed.

(** ** All reports *)
Definition about_overlap (r : report A) : Prop := match r with ChainOverlapError _ _ _ => True | _ => False end.
Lemma diag_overlaps_in S T emb s : diag_inv emb S T (fun x => x ∈ nx_nodes S) s -> forall r, r ∈ diag_overlaps s ->
  about_overlap r /\ real_defect emb S T r.
Proof.
  intros [HL _ _] r. unfold diag_overlaps. rewrite elem_of_list_bind. intros (q & Hr & Hq).
  destruct (dlookup (dg_labels s) q) as [[|root rest]|] eqn:E; try by apply elem_of_nil in Hr.
  apply elem_of_list_fmap in Hr as (x & -> & Hx). split; [done|]. simpl.
  assert (H1 := proj2 (lo_rel _ _ _ HL root q)). assert (H2 := proj2 (lo_rel _ _ _ HL x q)). simpl in H1, H2.
  destruct H1 as (? & ? & ?). { exists (root :: rest). split; [done|left]. }
  destruct H2 as (? & ? & ?). { exists (root :: rest). split; [done|by right]. }
  repeat split; try done. intros ->. apply (lo_nd _ _ _ HL) in E as [ND _]. by inversion ND.
Qed.
Lemma diag_overlaps_all S T emb s x y q : diag_inv emb S T (fun x => x ∈ nx_nodes S) s ->
  real_defect emb S T (ChainOverlapError q x y) ->
  exists z, (z = x \/ z = y) /\ exists w, ChainOverlapError q w z ∈ diag_overlaps s.
Proof.
  intros [HL _ _] (Hx & Hy & Hne & HT & Hqx & Hqy).
  destruct (proj1 (lo_rel _ _ _ HL x q) ltac:(simpl; auto)) as (l & E & Hxl).
  destruct (proj1 (lo_rel _ _ _ HL y q) ltac:(simpl; auto)) as (l' & E' & Hyl).
  assert (l' = l) as -> by congruence. destruct l as [|root rest]; [by apply elem_of_nil in Hxl|].
  assert (Ho : q ∈ dg_overlaps s).
  { apply (lo_over _ _ _ HL). exists (root :: rest). split; [done|]. destruct rest; [|simpl; lia].
    apply elem_of_list_singleton in Hxl, Hyl. congruence. }
  assert (Hz : exists z, (z = x \/ z = y) /\ z ∈ rest).
  { apply elem_of_cons in Hxl as [->|]; [|exists x; auto]. apply elem_of_cons in Hyl as [->|]; [done|exists y; auto]. }
  destruct Hz as (z & Hz & Hzr). exists z. split; [done|]. exists root. unfold diag_overlaps. apply elem_of_list_bind.
  exists q. split; [|done]. rewrite E. apply elem_of_list_fmap. by exists z.
Qed.
Lemma yielded_adj S T emb s x y : nx_wf T -> diag_inv emb S T (fun x => x ∈ nx_nodes S) s -> x ∈ nx_nodes S -> y ∈ nx_nodes S ->
  nx_has_edge (mkNx [] (diag_yielded T s)) x y = true <-> exists p q, on_chain emb x p /\ on_chain emb y q /\ nx_adj T p q.
Proof.
  intros WT [HL _ _] Hx Hy. rewrite has_edge_adj. unfold nx_adj at 1. simpl.
  assert (E : forall u v, u ∈ nx_nodes S -> v ∈ nx_nodes S -> (u, v) ∈ diag_yielded T s <-> exists p q, on_chain emb u p /\ on_chain emb v q /\ (p, q) ∈ nx_edges T).
  { intros u v Hu Hv. unfold diag_yielded. rewrite elem_of_list_bind. split.
    - intros ([p q] & He & Hpq). simpl in He. apply subgraph_edges in Hpq as (Hpq & _ & _).
      apply elem_of_list_bind in He as (u' & He & Hu'). apply elem_of_list_bind in He as (v' & He & Hv').
      apply elem_of_list_singleton in He. injection He as <- <-. exists p, q.
      destruct (dlookup (dg_labels s) p) as [lp|] eqn:Ep; [|by apply elem_of_nil in Hu'].
      destruct (dlookup (dg_labels s) q) as [lq|] eqn:Eq; [|by apply elem_of_nil in Hv'].
      destruct (proj2 (lo_rel _ _ _ HL u p)) as (_ & ? & _); [by exists lp|].
      destruct (proj2 (lo_rel _ _ _ HL v q)) as (_ & ? & _); [by exists lq|]. done.
    - intros (p & q & Hp & Hq & Hpq). exists (p, q). destruct (nw_ends _ WT _ _ Hpq) as [HpT HqT].
      destruct (proj1 (lo_rel _ _ _ HL u p) ltac:(simpl; auto)) as (lp & Ep & Hup).
      destruct (proj1 (lo_rel _ _ _ HL v q) ltac:(simpl; auto)) as (lq & Eq & Hvq). split.
      + apply elem_of_list_bind. exists u. simpl. rewrite Ep, Eq. simpl. split; [|done].
        apply elem_of_list_bind. exists v. split; [left|done].
      + apply subgraph_edges. rewrite !dlookup_key, Ep, Eq. split; [done|]. split; by eexists. }
  rewrite !E by done. split.
  - intros [(p & q & ? & ? & ?)|(p & q & ? & ? & ?)]; [exists p, q|exists q, p]; (split; [done|split; [done|]]); [by left|by right].
  - intros (p & q & ? & ? & [?|?]); [left; exists p, q|right; exists q, p]; done.
Qed.
Lemma diag_edges_in S T emb s : nx_wf S -> nx_wf T -> diag_inv emb S T (fun x => x ∈ nx_nodes S) s -> forall r, r ∈ diag_edges S T s <->
  exists x y, r = MissingEdgeError x y /\ real_defect emb S T r.
Proof.
  intros WS WT HI r. unfold diag_edges. rewrite elem_of_list_bind. split.
  - intros ([x y] & Hr & He). simpl in Hr. destruct (decide (x = y)); [by apply elem_of_nil in Hr|].
    destruct (decide (x ∈ dg_embedded s /\ y ∈ dg_embedded s)) as [[Hx Hy]|]; [|by apply elem_of_nil in Hr].
    apply (di_embedded _ _ _ _ _ HI) in Hx as [Hx Hpx]. apply (di_embedded _ _ _ _ _ HI) in Hy as [Hy Hpy].
    pose proof (yielded_adj S T emb s x y WT HI Hx Hy) as Hyi.
    destruct (nx_has_edge (mkNx [] (diag_yielded T s)) x y); [by apply elem_of_nil in Hr|].
    apply elem_of_list_singleton in Hr as ->. exists x, y. split; [done|]. repeat split; try done; try apply Hpx; try apply Hpy.
    intros H. by apply Hyi in H.
  - intros (x & y & -> & He & Hne & Hpx & Hpy & Hno). exists (x, y). split; [|done]. simpl. rewrite decide_False by done.
    destruct (nw_ends _ WS _ _ He) as [Hx Hy].
    rewrite decide_True by (split; apply (di_embedded _ _ _ _ _ HI); auto).
    pose proof (yielded_adj S T emb s x y WT HI Hx Hy) as Hyi.
    destruct (nx_has_edge (mkNx [] (diag_yielded T s)) x y); [|left]. exfalso. by apply Hno, Hyi.
Qed.
Lemma loop_report_real emb S T r : (exists x, x ∈ nx_nodes S /\ loop_report emb S T x r) <->
  real_defect emb S T r /\ ~ about_overlap r /\ (forall x y, r <> MissingEdgeError x y).
Proof.
  destruct r as [y|y q|y|q y z|y z]; simpl; (split; [intros (x & Hx & H)|intros (H & H1 & H2)]); try tauto.
  - destruct H as [-> H]. auto.
  - exists y. tauto.
  - destruct H as (-> & H). auto.
  - exists y. tauto.
  - destruct H as (-> & H). auto.
  - exists y. tauto.
  - exfalso. by eapply H2.
Qed.
Theorem diagnose_sound emb S T r : NoDup emb.*1 -> nx_wf S -> nx_wf T ->
  r ∈ diagnose_embedding emb S T -> real_defect emb S T r.
Proof.
  intros NE WS WT. pose proof (diag_loop_ok emb S T NE (nw_nodes _ WT)) as HI. unfold diagnose_embedding.
  rewrite !elem_of_app. intros [H|[H|H]].
  - apply (di_out _ _ _ _ _ HI), loop_report_real in H. tauto.
  - exact (proj2 (diag_overlaps_in _ _ _ _ HI r H)).
  - apply (diag_edges_in _ _ _ _ WS WT HI) in H as (x & y & -> & H). done.
Qed.
Theorem diagnose_complete emb S T r : NoDup emb.*1 -> nx_wf S -> nx_wf T ->
  real_defect emb S T r ->
  match r with
  | ChainOverlapError q x y => exists z, (z = x \/ z = y) /\ exists w, ChainOverlapError q w z ∈ diagnose_embedding emb S T
  | _ => r ∈ diagnose_embedding emb S T
  end.
Proof.
  intros NE WS WT HR. pose proof (diag_loop_ok emb S T NE (nw_nodes _ WT)) as HI. unfold diagnose_embedding.
  set (s := foldl _ _ _) in *.
  assert (HO : ~ about_overlap r -> (forall x y, r <> MissingEdgeError x y) -> r ∈ dg_out s).
  { intros. apply (di_out _ _ _ _ _ HI), loop_report_real. done. }
  destruct r as [y|y q|y|q y z|y z].
  - rewrite !elem_of_app. left. apply HO; [simpl; tauto|done].
  - rewrite !elem_of_app. left. apply HO; [simpl; tauto|done].
  - rewrite !elem_of_app. left. apply HO; [simpl; tauto|done].
  - destruct (diag_overlaps_all S T emb s y z q HI HR) as (u & Hu & w & Hw). exists u. split; [done|]. exists w. rewrite !elem_of_app. auto.
  - rewrite !elem_of_app. right. right. apply (diag_edges_in _ _ _ _ WS WT HI). by exists y, z.
Qed.
Lemma no_reports emb S T : is_valid_embedding emb S T = true <-> forall r, r ∉ diagnose_embedding emb S T.
Proof.
  unfold is_valid_embedding. destruct (diagnose_embedding emb S T) as [|r l]; split; try done.
  - intros _ r H. by apply elem_of_nil in H.
  - intros H. exfalso. apply (H r). left.
Qed.
Lemma chain_nonempty emb x : NoDup emb.*1 -> (exists q, on_chain emb x q) \/ forall q, ~ on_chain emb x q.
Proof.
  intros NE. destruct (dlookup emb x) as [[|q C]|] eqn:E.
  - right. intros q Hq. apply (on_chain_lookup emb x [] NE E) in Hq. by apply elem_of_nil in Hq.
  - left. exists q. apply (on_chain_lookup emb x _ NE E). left.
  - right. intros q. by apply on_chain_none.
Qed.
Theorem valid_iff emb S T : NoDup emb.*1 -> nx_wf S -> nx_wf T ->
  is_valid_embedding emb S T = true <-> nx_embedding emb S T.
Proof.
  intros NE WS WT. rewrite no_reports. split.
  - intros HV.
    assert (Hno : forall r, ~ real_defect emb S T r).
    { intros r Hr. pose proof (diagnose_complete emb S T r NE WS WT Hr) as H. destruct r as [y|y q|y|q y z|y z]; try by apply HV in H.
      destruct H as (u & _ & w & H). by apply HV in H. }
    assert (H1 : forall x, x ∈ nx_nodes S -> exists q, on_chain emb x q).
    { intros x Hx. destruct (chain_nonempty emb x NE) as [?|Hn]; [done|]. by destruct (Hno (MissingChainError x)). }
    assert (H2 : forall x q, x ∈ nx_nodes S -> on_chain emb x q -> q ∈ nx_nodes T).
    { intros x q Hx Hq. destruct (decide (q ∈ nx_nodes T)) as [|Hn]; [done|]. by destruct (Hno (InvalidNodeError x q)). }
    assert (H3 : forall x, x ∈ nx_nodes S -> placed emb T x) by (intros x Hx; split; [auto|]; intros q; by apply H2).
    pose proof (diag_loop_ok emb S T NE (nw_nodes _ WT)) as HI. set (s := foldl _ _ _) in HI.
    split; [done|done| | |].
    + intros x Hx. destruct (dlookup emb x) as [C|] eqn:E.
      2: { destruct (H1 x Hx) as [q Hq]. by apply on_chain_none in Hq. }
      pose proof (on_chain_lookup emb x C NE E) as Hon. destruct (H1 x Hx) as [q Hq].
      assert (Hj : joined_in (nx_adj T) (on_chain emb x) <-> joined_in (nx_adj T) (fun q => q ∈ C)) by (by apply joined_in_iff).
      pose proof (subgraph_connected T C (nw_nodes _ WT)) as Hc. destruct (nx_is_connected (nx_subgraph T C)).
      * apply Hj, Hc; [|intros p Hp; apply (H2 x); [done|by apply Hon]|done]. intros ->. apply Hon in Hq. by apply elem_of_nil in Hq.
      * exfalso. apply (Hno (DisconnectedChainError x)). split; [done|]. split; [auto|]. rewrite Hj. intros Hjn. apply Hc in Hjn; [done| |].
        -- intros ->. apply Hon in Hq. by apply elem_of_nil in Hq.
        -- intros p Hp. apply (H2 x); [done|by apply Hon].
    + intros x y q Hx Hy Hqx Hqy. destruct (decide (x = y)) as [|Hne]; [done|]. exfalso.
      apply (Hno (ChainOverlapError q x y)). repeat split; try done. by apply (H2 x).
    + intros x y Hxy Hne.
      assert (Hd : forall u v, (u, v) ∈ nx_edges S -> u <> v -> exists p q, on_chain emb u p /\ on_chain emb v q /\ nx_adj T p q).
      { intros u v He Huv. destruct (nw_ends _ WS _ _ He) as [Hu Hv].
        pose proof (yielded_adj S T emb s u v WT HI Hu Hv) as Hy. destruct (nx_has_edge (mkNx [] (diag_yielded T s)) u v); [by apply Hy|].
        exfalso. apply (Hno (MissingEdgeError u v)). repeat split; try done; try (by apply H3). intros H. by apply Hy in H. }
      destruct Hxy as [He|He]; [by apply Hd|]. destruct (Hd y x He (not_eq_sym Hne)) as (p & q & Hp & Hq & Ha). exists q, p.
      split; [done|]. split; [done|]. by apply nx_adj_sym.
  - intros [N1 N2 N3 N4 N5] r Hr. apply diagnose_sound in Hr; [|done..]. destruct r as [y|y q|y|q y z|y z]; simpl in Hr.
    + destruct Hr as [Hy Hn]. destruct (N1 y Hy) as [q Hq]. by apply Hn in Hq.
    + destruct Hr as (Hy & Hq & Hn). by apply Hn, (N2 y).
    + destruct Hr as (Hy & _ & Hn). by apply Hn, N3.
    + destruct Hr as (Hy & Hz & Hne & _ & Hqy & Hqz). by apply Hne, (N4 y z q).
    + destruct Hr as (He & Hne & _ & _ & Hn). apply Hn, N5; [by left|done].
Qed.
(** [verify_embedding] raises the first report that is not ignored *)
Theorem verify_spec emb S T ign : NoDup emb.*1 -> nx_wf S -> nx_wf T ->
  match verify_embedding emb S T ign with
  | Some r => real_defect emb S T r /\ ign r = false
  | None => forall r, r ∈ diagnose_embedding emb S T -> ign r = true
  end.
Proof.
  intros NE WS WT. unfold verify_embedding. destruct (List.find _ _) as [r|] eqn:E.
  - apply List.find_some in E as [H1 H2]. split; [|by apply negb_true_iff].
    apply diagnose_sound; [done..|]. by apply elem_of_list_In.
  - intros r Hr. apply elem_of_list_In in Hr. pose proof (List.find_none _ _ E r Hr) as H. simpl in H.
    by apply negb_false_iff in H.
Qed.
End proofs.
