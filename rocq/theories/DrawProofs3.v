(** The picture of a graph that is cut into fragments, and the picture of a chain. *)
From stdpp Require Import base list list_numbers numbers gmap relations sorting.
From Verif Require Import Base BusModel CliqueModel FragModel DrawModel SpecBus SpecFrag SpecDraw CoordProofs BitProofs BundleProofs MaskProofs MaskProofs2 TopoProofs
  CliqueProofs5 FragProofs1 FragProofs2 FragTop DrawProofs1 DrawProofs2.

Section frag.
Context (fs : fspec) (D sh nz : nat) (off : bool -> nat -> nat -> nat) (coupler : nat -> nat -> Prop).
Context (St : striped fs D sh nz off coupler).
Context (nodes : list nat) (edges : list (nat * nat)) (HLt : lattice D sh nz coupler nodes edges).
Notation L := (fs_len fs).
Notation num := (fun u w k j => linemajor_linear u w k j D sh nz).
Notation t := (fs_topo fs).
Notation lq := (line_qubit D sh).
Notation fn := (fnodes fs D sh nodes).
Notation fe := (fedges fs D sh nodes edges).

Definition st_owner (u : bool) (w k pos q : nat) : Prop :=
  exists j, j < nz /\ off u w k + L * j <= pos < off u w k + L * S j /\ q = num u w k j.

Lemma lines_D u : nlines D D u = D /\ npositions D D u = D.
Proof. by destruct u. Qed.

Lemma fn_in u w pos k : w < D -> pos < D -> k < sh -> lq u w pos k ∈ fn <-> exists q, q ∈ nodes /\ st_owner u w k pos q.
Proof.
  intros Hw Hp Hk. rewrite (frag_member _ _ _ _ _ _ St) by (done || apply HLt). split.
  - intros (j & Hj & Hb & Hin). exists (num u w k j). split; [done|]. by exists j.
  - intros (q & Hq & j & Hj & Hb & ->). by exists j.
Qed.
Lemma fn_lq f : f ∈ fn -> exists u w pos k, w < D /\ pos < D /\ k < sh /\ f = lq u w pos k.
Proof.
  unfold fnodes. intros (q & Hf & Hq)%elem_of_list_bind. destruct (place D sh nz q) as (u & w & k & j & Hw & Hk & Hj & ->); [by apply HLt|].
  rewrite (frags_num _ _ _ _ _ _ St) in Hf by done. apply elem_of_list_fmap in Hf as (i & -> & Hi%elem_of_seq).
  exists u, w, (off u w k + L * j + i), k. split_and!; try done. apply (fit _ _ _ _ _ _ St); done || lia.
Qed.

Lemma owner_own u w k pos q : st_owner u w k pos q -> q = own fs D sh nz off u w pos k.
Proof. intros (j & Hj & Hb & ->). unfold own. by rewrite (place_div _ _ _ _ _ j). Qed.

(** neighbours on a wire *)
Lemma fe_line u w pos k : w < D -> S pos < D -> k < sh ->
  has_edge fe (lq u w pos k) (lq u w (S pos) k) <->
  exists p q, st_owner u w k pos p /\ st_owner u w k (S pos) q /\ (p = q /\ p ∈ nodes \/ has_edge edges p q).
Proof.
  intros Hw Hp Hk. pose proof HLt as (Hn & He & Hg). split.
  - intros H. assert (Hin : lq u w pos k ∈ fn /\ lq u w (S pos) k ∈ fn).
    { pose proof (fgood _ _ _ _ _ _ St nodes edges HLt) as [_ HG]. destruct H as [H|H]; apply HG in H; tauto. }
    destruct Hin as [H1 H2]. apply fn_in in H1 as (p & Hpn & Ho1); [|lia..]. apply fn_in in H2 as (q & Hqn & Ho2); [|lia..].
    exists p, q. split_and!; [done..|]. pose proof (own_adj _ _ _ _ _ _ St nodes edges HLt u w pos k Hw Hp Hk H) as Ha.
    rewrite <- (owner_own _ _ _ _ _ Ho1), <- (owner_own _ _ _ _ _ Ho2) in Ha. naive_solver.
  - intros (p & q & (j & Hj & Hb & ->) & (j' & Hj' & Hb' & ->) & H).
    assert (Hcase : j' = j \/ j' = S j). { destruct (decide (j' <= j)); [|destruct (decide (j' <= S j))]; [left|right|exfalso]; nia. }
    unfold has_edge. left. unfold fedges. apply elem_of_app. destruct Hcase as [->| ->].
    + left. assert (Hin : num u w k j ∈ nodes). { destruct H as [[_ ?]|[H|H]]; [done|apply He in H; tauto..]. }
      apply elem_of_list_bind. exists (num u w k j). split; [|done]. rewrite (inner_num _ _ _ _ _ _ St) by done.
      apply elem_of_list_fmap. exists (pos - (off u w k + L * j)). split; [|apply elem_of_seq; lia].
      replace (off u w k + L * j + (pos - (off u w k + L * j))) with pos by lia. done.
    + right. destruct H as [[E _]|H]; [apply snum_inj in E; try done; simplify_eq; lia|].
      apply (norm_edge (mkTopo 0 0 0) (Nat.le_0_l 8)) in H as (e & Hin & En); [|unfold linemajor_linear; lia].
      apply elem_of_list_bind. exists e. split; [|done]. rewrite (efrags_norm _ _ _ _ _ En), !(st_first _ _ _ _ _ _ St) by done.
      rewrite eqb_reflx, Nat.eqb_refl. replace (off u w k + L * S j - 1) with pos by lia. by left.
Qed.
(** crossings *)
Lemma fe_cross x y k l : x < D -> y < D -> k < sh -> l < sh ->
  has_edge fe (lq false x y k) (lq true y x l) <->
  exists p q, st_owner false x k y p /\ st_owner true y l x q /\ has_edge edges p q.
Proof.
  intros Hx Hy Hk Hl. pose proof HLt as (Hn & He & Hg). split.
  - intros H. assert (Hin : lq false x y k ∈ fn /\ lq true y x l ∈ fn).
    { pose proof (fgood _ _ _ _ _ _ St nodes edges HLt) as [_ HG]. destruct H as [H|H]; apply HG in H; tauto. }
    destruct Hin as [H1 H2]. apply fn_in in H1 as (p & Hpn & Ho1); [|lia..]. apply fn_in in H2 as (q & Hqn & Ho2); [|lia..].
    exists p, q. split_and!; [done..|]. pose proof (own_cross _ _ _ _ _ _ St nodes edges HLt x y k l Hx Hy Hk Hl H) as Ha.
    by rewrite <- (owner_own _ _ _ _ _ Ho1), <- (owner_own _ _ _ _ _ Ho2) in Ha.
  - intros (p & q & (j & Hj & Hb & ->) & (j' & Hj' & Hb' & ->) & H).
    unfold has_edge. left. unfold fedges. apply elem_of_app. right.
    apply (norm_edge (mkTopo 0 0 0) (Nat.le_0_l 8)) in H as (e & Hin & En); [|apply Nat.lt_le_incl, snum_dir; done].
    apply elem_of_list_bind. exists e. split; [|done]. rewrite (efrags_norm _ _ _ _ _ En), !(st_first _ _ _ _ _ _ St) by done. by left.
Qed.

Lemma has_edge_sym (es : list (nat * nat)) a b : has_edge es a b -> has_edge es b a.
Proof. unfold has_edge. tauto. Qed.

Lemma touch_frag f g : touch D D sh (chimera_owner D sh) fn fe f g <-> touch D D sh st_owner nodes edges f g.
Proof.
  unfold touch, chimera_owner. split.
  - intros [(u & w & pos & k & p & q & Hw & Hp & Hk & -> & -> & -> & -> & H)|(x & y & k & l & p & q & Hx & Hy & Hk & Hl & -> & -> & -> & -> & H)].
    + destruct (lines_D u) as [E1 E2]. rewrite E1 in Hw. rewrite E2 in Hp.
      destruct H as [[E _]|H]; [apply (lq_inj _ _ _ _ _ _ St) in E; try lia; exfalso; injection E; lia|].
      apply fe_line in H as (p & q & Ho1 & Ho2 & H); [|done..]. left. exists u, w, pos, k, p, q. rewrite E1, E2. done.
    + apply fe_cross in H as (p & q & Ho1 & Ho2 & H); [|done..]. right. by exists x, y, k, l, p, q.
  - intros [(u & w & pos & k & p & q & Hw & Hp & Hk & -> & -> & Ho1 & Ho2 & H)|(x & y & k & l & p & q & Hx & Hy & Hk & Hl & -> & -> & Ho1 & Ho2 & H)].
    + destruct (lines_D u) as [E1 E2]. pose proof Hw as Hw'. pose proof Hp as Hp'. rewrite E1 in Hw'. rewrite E2 in Hp'.
      left. exists u, w, pos, k. eexists _, _. split_and!; try done. right. apply fe_line; [done..|]. by exists p, q.
    + right. exists x, y, k, l. eexists _, _. split_and!; try done. apply fe_cross; [done..|]. by exists p, q.
Qed.
Lemma fragment_frag f : (exists q, q ∈ fn /\ fragment D D sh (chimera_owner D sh) f q) <-> exists q, q ∈ nodes /\ fragment D D sh st_owner f q.
Proof.
  unfold fragment, chimera_owner. split.
  - intros (q & Hq & u & w & pos & k & Hw & Hp & Hk & -> & ->). destruct (lines_D u) as [E1 E2]. pose proof Hw as Hw'. pose proof Hp as Hp'. rewrite E1 in Hw'. rewrite E2 in Hp'.
    apply fn_in in Hq as (q & Hq & Ho); [|done..]. exists q. split; [done|]. by exists u, w, pos, k.
  - intros (q & Hq & u & w & pos & k & Hw & Hp & Hk & -> & Ho). destruct (lines_D u) as [E1 E2]. pose proof Hw as Hw'. pose proof Hp as Hp'. rewrite E1 in Hw'. rewrite E2 in Hp'.
    exists (lq u w pos k). split; [apply fn_in; try done; by exists q|]. by exists u, w, pos, k.
Qed.

Theorem picture_frag c : frag_init fs nodes edges = Ok c ->
  exists ns es, picture c = Ok (ns, es) /\ pictures D D sh st_owner nodes edges ns es.
Proof.
  intros Ec. destruct (frag_init_sim _ _ _ _ _ _ St nodes edges HLt) as (c' & Ec' & Et). rewrite Ec in Ec'. injection Ec' as <-.
  pose proof (fgood _ _ _ _ _ _ St nodes edges HLt) as HG.
  destruct (picture_chimera t ltac:(rewrite (t_s _ _ _ _ _ _ St); apply St) fn fe c HG Et) as (ns & es & Ep & (P1 & P2 & P3 & P4 & P5)).
  rewrite (t_x _ _ _ _ _ _ St), (t_y _ _ _ _ _ _ St), (t_s _ _ _ _ _ _ St) in P2, P5.
  exists ns, es. split; [done|]. split_and!; [done| |done|done|].
  - intros f. rewrite P2. apply fragment_frag.
  - intros f g. rewrite P5, !touch_frag. done.
Qed.

(** ** the picture of a qubit *)
Lemma frag_number_lq u w z k : frag_number t u w z k = lq u w z k.
Proof. unfold frag_number, line_qubit. destruct u; rewrite <- qubit_linear, (t_x _ _ _ _ _ _ St), (t_s _ _ _ _ _ _ St); done. Qed.
Lemma fragments_num u w k j : w < D -> k < sh -> j < nz ->
  fragments_of fs (num u w k j) = (fun i => lq u w (off u w k + L * j + i) k) <$> rev (seq 0 L).
Proof.
  intros. unfold fragments_of. rewrite (st_first _ _ _ _ _ _ St) by done. apply list_fmap_ext. intros _ i _. apply frag_number_lq.
Qed.
Lemma fragments_ok q : q < total D sh nz -> NoDup (fragments_of fs q) /\ length (fragments_of fs q) = L /\
  forall f, f ∈ fragments_of fs q <-> fragment D D sh st_owner f q.
Proof.
  intros Hq. destruct (place D sh nz q Hq) as (u & w & k & j & Hw & Hk & Hj & ->). rewrite fragments_num by done. split_and!.
  - apply NoDup_fmap_2_strong.
    + intros i i' Hi Hi' E. rewrite elem_of_list_In, <- in_rev, <- elem_of_list_In, elem_of_seq in Hi, Hi'.
      apply (lq_inj _ _ _ _ _ _ St) in E; try done; try (apply (fit _ _ _ _ _ _ St); done || lia). injection E. lia.
    + apply NoDup_ListNoDup, List.NoDup_rev, NoDup_ListNoDup, NoDup_seq.
  - by rewrite fmap_length, rev_length, seq_length.
  - intros f. rewrite elem_of_list_fmap. unfold fragment. split.
    + intros (i & -> & Hi). rewrite elem_of_list_In, <- in_rev, <- elem_of_list_In, elem_of_seq in Hi.
      assert (off u w k + L * j + i < D) by (apply (fit _ _ _ _ _ _ St); done || lia).
      exists u, w, (off u w k + L * j + i), k. destruct (lines_D u) as [E1 E2]. rewrite E1, E2. split_and!; try done. exists j. split_and!; try done; lia.
    + intros (u' & w' & pos & k' & Hw' & Hp & Hk' & -> & j' & Hj' & Hb & E). destruct (lines_D u') as [E1 E2]. rewrite E1 in Hw'. rewrite E2 in Hp.
      apply snum_inj in E; try done. injection E as <- <- <- <-. exists (pos - (off u w k + L * j)).
      split; [f_equal; lia|]. rewrite elem_of_list_In, <- in_rev, <- elem_of_list_In, elem_of_seq. lia.
Qed.

Lemma fragment_inj f p q : fragment D D sh st_owner f p -> fragment D D sh st_owner f q -> p = q.
Proof.
  intros (u & w & pos & k & Hw & Hp & Hk & -> & j & Hj & Hb & ->) (u' & w' & pos' & k' & Hw' & Hp' & Hk' & E & j' & Hj' & Hb' & ->).
  destruct (lines_D u) as [E1 E2]. destruct (lines_D u') as [E1' E2']. rewrite E1 in Hw. rewrite E2 in Hp. rewrite E1' in Hw'. rewrite E2' in Hp'.
  apply (lq_inj _ _ _ _ _ _ St) in E; try done. injection E as <- <- <- <-. f_equal. nia.
Qed.

(** ** the picture of a chain *)
Context (ns : list nat) (es : list (nat * nat)) (HP : pictures D D sh st_owner nodes edges ns es).
Context (edges' : list (nat * nat)).
(** couplers that are drawn: not between two wires of a line *)
Definition drawn (p q : nat) : Prop := exists f g, fragment D D sh st_owner f p /\ fragment D D sh st_owner g q /\ has_edge es f g.
Context (Hdr : forall p q, has_edge edges' p q -> drawn p q).
Notation pic := (draw_chain fs).

Lemma pic_in c f : (forall q, q ∈ c -> q ∈ nodes) -> f ∈ pic c <-> exists q, q ∈ c /\ fragment D D sh st_owner f q.
Proof.
  intros Hc. unfold draw_chain. rewrite elem_of_list_bind. pose proof HLt as (Hn & _). split; intros (q & H1 & H2); exists q.
  - split; [done|]. apply fragments_ok; [|done]. by apply Hn, Hc.
  - split; [|done]. apply fragments_ok; [|done]. by apply Hn, Hc.
Qed.
(** the fragments of a qubit are connected *)
Lemma qubit_connected (C : list nat) q f g : q ∈ nodes -> (forall x, fragment D D sh st_owner x q -> x ∈ C) ->
  fragment D D sh st_owner f q -> fragment D D sh st_owner g q -> rtc (fun a b => a ∈ C /\ b ∈ C /\ has_edge es a b) f g.
Proof.
  intros Hq HC. pose proof HLt as (Hn & _). destruct (place D sh nz q) as (u & w & k & j & Hw & Hk & Hj & ->); [by apply Hn|].
  destruct (lines_D u) as [E1 E2].
  assert (Hfr : forall i, i < L -> fragment D D sh st_owner (lq u w (off u w k + L * j + i) k) (num u w k j)).
  { intros i Hi. assert (off u w k + L * j + i < D) by (apply (fit _ _ _ _ _ _ St); done || lia).
    exists u, w, (off u w k + L * j + i), k. rewrite E1, E2. split_and!; try done. exists j. split_and!; try done; lia. }
  assert (Hst : forall i, S i < L -> has_edge es (lq u w (off u w k + L * j + i) k) (lq u w (off u w k + L * j + S i) k)).
  { intros i Hi. assert (off u w k + L * j + S i < D) by (apply (fit _ _ _ _ _ _ St); done || lia).
    destruct HP as (_ & _ & _ & _ & P5). apply P5. left. left. exists u, w, (off u w k + L * j + i), k, (num u w k j), (num u w k j).
    rewrite E1, E2. split_and!; try done; try lia; [f_equal; lia|exists j; split_and!; try done; lia|exists j; split_and!; try done; lia|by left]. }
  assert (Hup : forall i, i < L -> rtc (fun a b => a ∈ C /\ b ∈ C /\ has_edge es a b) (lq u w (off u w k + L * j + 0) k) (lq u w (off u w k + L * j + i) k) /\
    rtc (fun a b => a ∈ C /\ b ∈ C /\ has_edge es a b) (lq u w (off u w k + L * j + i) k) (lq u w (off u w k + L * j + 0) k)).
  { induction i as [|i IH]; intros Hi; [split; apply rtc_refl|]. destruct (IH ltac:(lia)) as [I1 I2].
    assert (A1 := HC _ (Hfr i ltac:(lia))). assert (A2 := HC _ (Hfr (S i) Hi)). pose proof (Hst i Hi) as A3. split.
    - eapply rtc_r; [exact I1|]. done.
    - eapply rtc_l; [|exact I2]. split_and!; [done..|by apply has_edge_sym]. }
  assert (Hform : forall x, fragment D D sh st_owner x (num u w k j) -> exists i, i < L /\ x = lq u w (off u w k + L * j + i) k).
  { intros x Hx. apply fragments_ok in Hx; [|by apply Hn]. rewrite fragments_num in Hx by done. apply elem_of_list_fmap in Hx as (i & -> & Hi).
    rewrite elem_of_list_In, <- in_rev, <- elem_of_list_In, elem_of_seq in Hi. exists i. split; [lia|done]. }
  intros (i & Hi & ->)%Hform (i' & Hi' & ->)%Hform. etrans; [apply Hup; done|apply Hup; done].
Qed.

Lemma chain_picture c : good_chain nodes edges' c -> good_chain ns es (pic c).
Proof.
  intros (Hne & Hnd & Hin & Hconn). pose proof HLt as (Hn & _). pose proof (st_len _ _ _ _ _ _ St) as HL.
  assert (Hnon : forall q, q ∈ c -> exists f, fragment D D sh st_owner f q).
  { intros q Hq. destruct (fragments_ok q) as (_ & Hl & Hf); [by apply Hn, Hin|]. destruct (fragments_of fs q) as [|f r] eqn:E; [cbn in Hl; lia|].
    exists f. apply Hf. left. }
  split_and!.
  - destruct c as [|q c]; [done|]. destruct (Hnon q ltac:(left)) as [f Hf]. intros E.
    assert (H : f ∈ pic (q :: c)) by (apply pic_in; [done|]; exists q; split; [left|done]). rewrite E in H. by apply elem_of_nil in H.
  - clear Hne Hconn Hnon. unfold draw_chain. induction Hnd as [|q c Hq Hnd IH]; [constructor|]. rewrite bind_cons. apply NoDup_app. split_and!.
    + apply fragments_ok. by apply Hn, Hin; left.
    + intros f Hf Hf'. apply fragments_ok in Hf; [|by apply Hn, Hin; left].
      apply (pic_in c) in Hf' as (q' & Hq' & Hf'); [|intros; apply Hin; by right]. by rewrite (fragment_inj f q q' Hf Hf') in Hq.
    + apply IH. intros; apply Hin; by right.
  - intros f (q & Hq & Hf)%pic_in; [|done]. destruct HP as (_ & P2 & _). apply P2. exists q. split; [by apply Hin|done].
  - intros f g (p & Hp & Hf)%pic_in (q & Hq & Hg)%pic_in; [|done..].
    specialize (Hconn p q Hp Hq). revert f Hf. 
    assert (HC : forall q x, q ∈ c -> fragment D D sh st_owner x q -> x ∈ pic c) by (intros q' x ? ?; apply pic_in; [done|]; by exists q').
    induction Hconn as [p|p r q (Hpc & Hrc & He) _ IH]; intros f Hf.
    + by apply (qubit_connected (pic c) p); [apply Hin|intros; by apply (HC p)|..].
    + destruct (Hdr p r He) as (f1 & g1 & Hf1 & Hg1 & He1). etrans; [apply (qubit_connected (pic c) p f f1); [by apply Hin|intros; by apply (HC p)|done|done]|].
      eapply rtc_l; [|apply (IH Hrc Hq Hg g1 Hg1)]. split_and!; [by apply (HC p)|by apply (HC r)|done].
Qed.
Lemma disjoint_picture c d : (forall q, q ∈ c -> q ∈ nodes) -> (forall q, q ∈ d -> q ∈ nodes) -> c ## d -> pic c ## pic d.
Proof.
  intros Hc Hd Hcd f (p & Hp & Hf)%pic_in (q & Hq & Hf')%pic_in; [|done..]. rewrite (fragment_inj f p q Hf Hf') in Hp. by apply (Hcd q).
Qed.
Lemma coupled_picture c d : (forall q, q ∈ c -> q ∈ nodes) -> (forall q, q ∈ d -> q ∈ nodes) -> coupled edges' c d -> coupled es (pic c) (pic d).
Proof.
  intros Hc Hd (p & q & Hp & Hq & He). destruct (Hdr p q He) as (f & g & Hf & Hg & Hfg). exists f, g.
  split_and!; [apply pic_in; [done|]; by exists p|apply pic_in; [done|]; by exists q|done].
Qed.
End frag.
