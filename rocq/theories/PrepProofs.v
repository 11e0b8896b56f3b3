(** Preparing the choice of a root: the searches from all embedded neighbours and the summed
    distances. *)
From stdpp Require Import base list numbers gmap.
From Verif Require Import Base Wp ChainModel ChainProofs ChainProofs2 EmbModel EmbProofs QueueModel QueueProofs PathModel SpecPath DijkProofs.
Local Open Scope Z_scope.

(** shape of the search buffers *)
Notation swf := buffers_ok (only parsing).
Lemma swf_total pb b t : swf pb b -> length t = nq pb -> swf pb (set_total b t).
Proof. intros [] L. by split. Qed.

Lemma insert_row {A} (l : list (list A)) v r (P : list A -> Prop) :
  (forall i x, l !! i = Some x -> P x) -> P r -> forall i x, <[v:=r]> l !! i = Some x -> P x.
Proof.
  intros H Hr i x Hi. apply list_lookup_insert_Some in Hi as [(_ & <- & _)|(_ & Hi)]; [done|]. by eapply H.
Qed.

(** ** optional sums: [None] is "blocked" *)
Definition oadd (a b : option Z) : option Z := match a, b with Some x, Some y => Some (x + y) | _, _ => None end.
Definition osum {A} (f : A -> option Z) (l : list A) : option Z := foldr (fun v a => oadd (f v) a) (Some 0) l.
(** the value stored for a sum: infinity if blocked *)
Definition tval (o : option Z) : Z := match o with Some s => Z.min s max_distance | None => max_distance end.
Lemma tval_le o : tval o <= max_distance.
Proof. destruct o; simpl; lia. Qed.
Definition onn (o : option Z) : Prop := forall s, o = Some s -> 0 <= s.

Lemma oadd_comm a b : oadd a b = oadd b a.
Proof. destruct a, b; simpl; try done. f_equal. lia. Qed.
Lemma oadd_assoc a b c : oadd a (oadd b c) = oadd (oadd a b) c.
Proof. destruct a, b, c; simpl; try done. f_equal. lia. Qed.
Lemma oadd_0 a : oadd a (Some 0) = a.
Proof. destruct a; simpl; [|done]. f_equal. lia. Qed.
Lemma oadd_0l a : oadd (Some 0) a = a.
Proof. destruct a; simpl; done. Qed.
Lemma osum_app {A} (f : A -> option Z) l1 l2 : osum f (l1 ++ l2) = oadd (osum f l1) (osum f l2).
Proof.
  induction l1 as [|x l1 IH]; simpl; [by destruct (osum f l2)|]. by rewrite IH, oadd_assoc.
Qed.
Lemma osum_snoc {A} (f : A -> option Z) l x : osum f (l ++ [x]) = oadd (osum f l) (f x).
Proof. rewrite osum_app. simpl. by rewrite oadd_0. Qed.
Lemma osum_oadd {A} (f g : A -> option Z) l : osum (fun v => oadd (f v) (g v)) l = oadd (osum f l) (osum g l).
Proof.
  induction l as [|x l IH]; simpl; [done|]. rewrite IH.
  rewrite <- !oadd_assoc. f_equal. rewrite !oadd_assoc. f_equal. apply oadd_comm.
Qed.
Lemma osum_ext {A} (f g : A -> option Z) l : (forall x, x ∈ l -> f x = g x) -> osum f l = osum g l.
Proof.
  induction l as [|x l IH]; intros H; simpl; [done|]. rewrite IH.
  - f_equal. apply H. left.
  - intros y Hy. apply H. by right.
Qed.
Lemma osum_all {A} (f : A -> option Z) l s x : osum f l = Some s -> x ∈ l -> exists y, f x = Some y.
Proof.
  revert s. induction l as [|z l IH]; intros s H Hx; [by apply elem_of_nil in Hx|]. simpl in H.
  destruct (f z) as [a|] eqn:Fz; simpl in H; [|done]. destruct (osum f l) eqn:Fl; [|done].
  apply elem_of_cons in Hx as [->|Hx]; eauto.
Qed.
Lemma osum_none {A} (f : A -> option Z) l : osum f l = None -> exists x, x ∈ l /\ f x = None.
Proof.
  induction l as [|z l IH]; simpl; [done|]. intros H.
  destruct (f z) as [a|] eqn:Fz; [|exists z; split; [left|done]]. destruct (osum f l) eqn:Fl; [done|].
  destruct IH as (x & Hx & ?); [done|]. exists x. split; [by right|done].
Qed.
Lemma osum_bound {A} (f : A -> option Z) l s B : (forall x y, x ∈ l -> f x = Some y -> 0 <= y <= B) -> osum f l = Some s ->
  0 <= s <= Z.of_nat (length l) * B.
Proof.
  revert s. induction l as [|z l IH]; intros s H Hs; simpl in *; [injection Hs as <-; lia|].
  destruct (f z) as [a|] eqn:Fz; simpl in Hs; [|done]. destruct (osum f l) eqn:Fl; [|done]. injection Hs as <-.
  pose proof (H z a ltac:(left) Fz). pose proof (IH z0 (fun x y Hx => H x y ltac:(by right)) eq_refl). lia.
Qed.
Lemma onn_oadd a b : onn a -> onn b -> onn (oadd a b).
Proof. unfold onn. destruct a, b; simpl; try done. intros H1 H2 s [= <-]. pose proof (H1 _ eq_refl). pose proof (H2 _ eq_refl). lia. Qed.
Lemma onn_osum {A} (f : A -> option Z) l : (forall x, x ∈ l -> onn (f x)) -> onn (osum f l).
Proof.
  induction l as [|z l IH]; intros H; simpl; [intros s [= <-]; lia|].
  apply onn_oadd; [apply H; left|]. apply IH. intros x Hx. apply H. by right.
Qed.

(** a loop that updates each position once *)
Lemma pointwise_spec ov (f : list Z -> nat -> res (list Z)) (g : nat -> Z) l t : NoDup l ->
  (forall q, q ∈ l -> (q < length t)%nat) ->
  (forall t' q x, q ∈ l -> length t' = length t -> t' !! q = Some x -> t !! q = Some x ->
     wpo ov (f t' q) (fun t'' => t'' = <[q := g q]> t')) ->
  wpo ov (foldM f l t) (fun t'' => length t'' = length t /\
     (forall q, q ∈ l -> t'' !! q = Some (g q)) /\ (forall q, q ∉ l -> t'' !! q = t !! q)).
Proof.
  intros ND Hr Hf.
  apply (wpr_foldM _ (fun dn t'' => length t'' = length t /\
     (forall q, q ∈ dn -> t'' !! q = Some (g q)) /\ (forall q, q ∉ dn -> t'' !! q = t !! q))).
  { split; [done|]. split; [|done]. intros q Hq. by apply elem_of_nil in Hq. }
  intros dn q rest t' El (L & H1 & H2).
  assert (Hq : q ∈ l) by (rewrite El; apply elem_of_app; right; left).
  assert (Nq : q ∉ dn). { rewrite El in ND. apply NoDup_app in ND as (_ & ND & _). intros Hd. apply (ND q Hd). left. }
  destruct (lookup_lt_is_Some_2 t q) as [x Hx]; [by apply Hr|].
  eapply wpr_mono; [eapply (Hf t' q x)|]; auto. { by rewrite H2. }
  simpl. intros t'' ->. split; [by rewrite insert_length|]. split.
  - intros q' Hq'. destruct (decide (q' = q)) as [->|N].
    + apply list_lookup_insert. rewrite L. by apply Hr.
    + rewrite list_lookup_insert_ne by done. apply H1. apply elem_of_app in Hq' as [?|Hq']; [done|].
      by apply elem_of_list_singleton in Hq'.
  - intros q' Hq'. rewrite list_lookup_insert_ne; [apply H2|].
    + intros ?. apply Hq', elem_of_app. by left.
    + intros <-. apply Hq', elem_of_app. right; left.
Qed.

Lemma pointwise_ok (f : list Z -> nat -> res (list Z)) (g : nat -> Z) l t : NoDup l ->
  (forall q, q ∈ l -> (q < length t)%nat) ->
  (forall t' q x, q ∈ l -> length t' = length t -> t' !! q = Some x -> t !! q = Some x -> f t' q = Ok (<[q := g q]> t')) ->
  exists t'', foldM f l t = Ok t'' /\ length t'' = length t /\
     (forall q, q ∈ l -> t'' !! q = Some (g q)) /\ (forall q, q ∉ l -> t'' !! q = t !! q).
Proof.
  intros ND Hr Hf.
  assert (H : wpo (fun _ => False) (foldM f l t) (fun t'' => length t'' = length t /\
     (forall q, q ∈ l -> t'' !! q = Some (g q)) /\ (forall q, q ∉ l -> t'' !! q = t !! q))).
  { apply pointwise_spec; auto. intros t' q x H1 H2 H3 H4. by rewrite (Hf _ _ _ H1 H2 H3 H4). }
  destruct (foldM f l t) as [t''|er] eqn:E; [by exists t''|]. exfalso. clear H. revert E.
  enough (G : forall rest dn t', l = dn ++ rest -> length t' = length t -> (forall q, q ∉ dn -> t' !! q = t !! q) ->
    foldM f rest t' <> Err er) by (apply (G l []); done).
  induction rest as [|q rest IH]; intros dn t' El Lt Hs; [done|]. simpl.
  assert (Hq : q ∈ l) by (rewrite El; apply elem_of_app; right; left).
  assert (Nq : q ∉ dn). { rewrite El in ND. apply NoDup_app in ND as (_ & ND & _). intros Hd. apply (ND q Hd). left. }
  destruct (lookup_lt_is_Some_2 t q) as [x Hx]; [by apply Hr|].
  rewrite (Hf t' q x); auto; [|by rewrite Hs]. simpl. apply (IH (dn ++ [q])).
  - by rewrite <- app_assoc.
  - by rewrite insert_length.
  - intros q' Hq'. rewrite list_lookup_insert_ne; [apply Hs|].
    + intros ?. apply Hq', elem_of_app. by left.
    + intros <-. apply Hq', elem_of_app. right; left.
Qed.

Section prep.
Context (pb : problem) (PW : pb_wf pb) (em : emb) (wbd : Z) (ok : nat -> nat -> nat -> Prop).
Context (Lew : length (eweight em) = (nq pb + nr pb)%nat) (Lch : length (chains em) = (nv pb + nf pb)%nat).
Context (Hbd : forall v c q, chains em !! v = Some c -> qin c q -> (v < nv pb)%nat -> (q < nq pb)%nat)
  (Hfx : forall v c q, chains em !! v = Some c -> qin c q -> (nv pb <= v)%nat -> (nq pb <= q < nq pb + nr pb)%nat).
(** [ok u v x]: what is known of the qubits [x] found by a search from [v] for [u] *)
Context (Hok1 : (0 < nf pb)%nat -> forall u v x, (x < nq pb)%nat -> search_area pb u v x -> ok u v x)
  (Hok2 : forall u v x, (x < nq pb)%nat -> search_area pb u v x -> wt (eweight em) x < wbd -> ok u v x).
Context (ov : err -> Prop) (M : Z) (K : nat).
Context (HM : 0 <= M) (HK : Z.of_nat (nq pb) * M <= max_distance \/ ov Overflow).

Lemma prep_vis_spec u v vv : (u < nv pb + nf pb)%nat -> (v < nv pb + nf pb)%nat -> length vv = nq pb ->
  exists vs, prepare_visited pb vv u v = Ok vs /\ length vs = nq pb /\ vst (search_area pb u v) vs [].
Proof. clear - PW.
  intros Lu Lv L. unfold prepare_visited, vst, search_area, may_use. destruct (masks pb) as [m|] eqn:Em.
  - destruct (pbw_masks _ PW m Em) as [Lm Hm].
    destruct (lookup_lt_is_Some_2 m u) as [mu Hu]; [lia|]. destruct (lookup_lt_is_Some_2 m v) as [mv Hv]; [lia|].
    rewrite (vget_ok _ _ _ Hu), (vget_ok _ _ _ Hv). cbn [rbind].
    destruct (Hm u mu Hu) as [L1 H1], (Hm v mv Hv) as [L2 H2].
    rewrite decide_True by lia. eexists. split; [done|]. split.
    { rewrite zip_with_length, !take_length. lia. }
    intros x s Hs. right. apply lookup_zip_with_Some in Hs as (a & b & -> & Ha & Hb).
    apply lookup_take_Some in Ha as [Ha Hx], Hb as [Hb _].
    pose proof (H1 a ltac:(by eapply elem_of_list_lookup_2)). pose proof (H2 b ltac:(by eapply elem_of_list_lookup_2)).
    destruct (decide (a = 0)) as [->|Na]; [left; split; [done|left; by exists mu]|].
    destruct (decide (b = 0)) as [->|Nb]; [left; split; [by rewrite Z.land_0_r|right; by exists mv]|].
    right. assert (a = -1) as -> by tauto. assert (b = -1) as -> by tauto. split; [done|].
    intros [(r & Hr & Hz)|(r & Hr & Hz)]; congruence.
  - eexists. split; [done|]. split; [by rewrite replicate_length|]. intros x s Hs. apply lookup_replicate in Hs as [-> _].
    right. left. split; [done|]. by left.
Qed.

(** the stored rows of [v] are the result of a complete search from the chain of [v] *)
Definition searched (qwt : list Z) (u v : nat) (pr : list (option nat)) (vs dr : list Z) : Prop :=
  exists ch ds pq, chains em !! v = Some ch /\
    dinv pb em v ch qwt wbd (ok u v) (search_area pb u v) (mkW pr vs pq) dr ds ds /\ popn pb (mkW pr vs pq) ds.
Definition rows (u : nat) (b : search) (v : nat) : Prop :=
  exists pr vs dr, par b !! v = Some pr /\ vis b !! v = Some vs /\ dist b !! v = Some dr /\ searched (qw b) u v pr vs dr.

Definition wok (qwt : list Z) : Prop :=
  length qwt = nq pb /\ (forall x, (x < nq pb)%nat -> 0 <= wt qwt x <= max_distance) /\
  (ov Overflow \/ forall x, (x < nq pb)%nat -> wt qwt x <= M).

(** what a change of one search leaves alone *)
Definition others (v : nat) (b b' : search) : Prop :=
  qw b' = qw b /\ perm b' = perm b /\ total b' = total b /\
  forall v', v' <> v -> par b' !! v' = par b !! v' /\ vis b' !! v' = vis b !! v' /\ dist b' !! v' = dist b !! v'.

Lemma compute_spec u v b : swf pb b -> wok (qw b) -> (u < nv pb + nf pb)%nat -> (v < nv pb + nf pb)%nat ->
  wpo ov (let! b := prep_vis pb u v b in compute_distances_from_chain pb em wbd v b)
    (fun b' => swf pb b' /\ others v b b' /\ rows u b' v).
Proof.
  intros S (Lq & Hw & HwM) Lu Lv. unfold prep_vis.
  destruct (lookup_lt_is_Some_2 (vis b) v) as [vv0 Hvv]; [by rewrite (bo_vis _ _ S)|].
  rewrite (vget_ok _ _ _ Hvv). cbn [rbind].
  destruct (prep_vis_spec u v vv0 Lu Lv ltac:(by eapply bo_visr)) as (vv & -> & Lvv & V0). cbn [rbind]. rewrite vset_ok by (by rewrite (bo_vis _ _ S)). cbn [rbind].
  unfold compute_distances_from_chain. cbn [par vis dist perm qw total].
  destruct (lookup_lt_is_Some_2 (par b) v) as [pv Hpv]; [by rewrite (bo_par _ _ S)|].
  destruct (lookup_lt_is_Some_2 (dist b) v) as [dv Hdv]; [by rewrite (bo_dist _ _ S)|].
  destruct (lookup_lt_is_Some_2 (perm b) v) as [pm Hpm]; [pose proof (bo_perm _ _ S); lia|].
  destruct (lookup_lt_is_Some_2 (chains em) v) as [ch Hch]; [by rewrite Lch|].
  eapply wpr_vget; [exact Hpv|]. eapply wpr_vget; [apply list_lookup_insert; by rewrite (bo_vis _ _ S)|].
  eapply wpr_vget; [exact Hdv|]. eapply wpr_vget; [exact Hpm|].
  assert (Lpm : length pm = nq pb) by (by eapply bo_permr).
  assert (Lpv : length pv = (nq pb + nr pb)%nat) by (by eapply bo_parr).
  destruct (bo_distr _ _ S _ _ Hdv) as [Ldv Mdv].
  assert (O0 : fixedb pb v = false -> forall q, qin ch q -> (q < nq pb)%nat).
  { unfold fixedb. intros Hf q Hq. destruct (Nat.leb_spec (nv pb) v); [done|]. by eapply Hbd. }
  assert (O1 : fixedb pb v = true -> forall q, qin ch q -> (nq pb <= q < nq pb + nr pb)%nat).
  { unfold fixedb. intros Hf q Hq. destruct (Nat.leb_spec (nv pb) v); [|done]. by eapply Hfx. }
  assert (K1 : fixedb pb v = true -> forall x, (x < nq pb)%nat -> search_area pb u v x -> ok u v x).
  { unfold fixedb. intros Hf x. apply Hok1. destruct (Nat.leb_spec (nv pb) v); [lia|done]. }
  destruct (init_spec pb PW em v ch (qw b) pm (ok u v) (search_area pb u v) Hch Lew Lpm O0 O1 false (wt (qw b))
     (mkW pv vv (q_new (nq pb)))) as (k & ds & -> & G & Hs & Hv); auto.
  cbn [rbind].
  assert (PCN : forall x c, path_cost (srcs pb em v ch (search_area pb u v) false (wt (qw b))) (nbq pb) (admq em wbd (search_area pb u v)) (wt (qw b)) x c -> 0 <= c).
  { intros x c Hx. eapply (pc_nonneg pb PW em v ch (qw b) pm wbd (ok u v)); eauto. }
  assert (D : dinv pb em v ch (qw b) wbd (ok u v) (search_area pb u v) k dv ds []).
  { split; auto.
    - intros x Hx. left. destruct (Hv x 1 Hx) as [?|[[? _]|[? _]]]; done.
    - intros x c Hx. apply Hs in Hx. apply in_fst. eauto.
    - intros x c Hx. apply Hs in Hx. split; [by constructor|]. intros c' Hc'.
      unfold srcs in Hx. destruct (fixedb pb v) eqn:Ef.
      + destruct Hx as (Hx & -> & _). inversion Hc' as [? ? Hs'|q p c'' Hq Nq Aq]; subst.
        * unfold srcs in Hs'. rewrite Ef in Hs'. destruct Hs' as (_ & -> & _). lia.
        * apply PCN in Hq. lia.
      + destruct Hx as [_ ->]. by apply PCN in Hc'.
    - intros x c Hx. assert (Lx : (x < nq pb)%nat) by (eapply d_lt; [by eapply g_dsc|done]).
      apply Hs in Hx. unfold srcs in Hx. destruct (fixedb pb v); [|destruct Hx as [_ ->]; unfold max_distance; lia].
      destruct Hx as (_ & -> & _). by apply Hw.
    - intros x c Hx. by apply elem_of_nil in Hx.
    - intros x s Hx. destruct (Hv x s Hx) as [Hin|[?|?]]; [|by left|by right; right].
      apply (g_vis _ _ _ _ _ _ _ _ G) in Hin. right. left. congruence.
    - intros x Hx. left. destruct (Hv x 1 Hx) as [?|[[? _]|[? _]]]; done. }
  eapply wpr_step.
  { eapply (loop_spec pb PW em v ch (qw b) pm wbd (ok u v) (search_area pb u v)) with (ov := ov); try exact D; eauto.
    - destruct HK as [HK'|?]; [|by left]. destruct HwM as [?|HwM]; [by left|right]. exists M. split; [done|]. split; done.
    - intros x c p Hx. by apply elem_of_nil in Hx.
    - simpl. lia. }
  intros [k' d'] (ds' & D' & Pn). pose proof (di_g _ _ _ _ _ _ _ _ _ _ _ _ D') as G'.
  eapply wpr_vset; [by rewrite (bo_par _ _ S)|].
  eapply wpr_vset; [by rewrite insert_length, (bo_vis _ _ S)|].
  eapply wpr_vset; [by rewrite (bo_dist _ _ S)|].
  simpl. split; [|split].
  - destruct S. split; simpl; rewrite ?insert_length; auto.
    + apply (insert_row (par b) v (wpar k') (fun r => length r = (nq pb + nr pb)%nat)); [done|]. by eapply g_lp.
    + apply (insert_row _ v (wvis k') (fun r => length r = nq pb)).
      * apply (insert_row (vis b) v _ (fun r => length r = nq pb)); [done|]. done.
      * by eapply g_lv.
    + apply (insert_row (dist b) v d' (fun r => length r = (nq pb + nr pb)%nat /\ forall d, d ∈ r -> d <= max_distance)); [done|].
      split; [by eapply di_ld|by eapply di_max].
  - split; [done|]. split; [done|]. split; [done|]. intros v' N. simpl. by rewrite !list_lookup_insert_ne by done.
  - exists (wpar k'), (wvis k'), d'. simpl. split; [apply list_lookup_insert; by rewrite (bo_par _ _ S)|].
    split; [apply list_lookup_insert; by rewrite insert_length, (bo_vis _ _ S)|].
    split; [apply list_lookup_insert; by rewrite (bo_dist _ _ S)|].
    exists ch, ds', (wpq k'). split; [done|]. destruct k'. done.
Qed.

(** does [v] have a chain? *)
Definition live (v : nat) : bool := match chains em !! v with Some c => negb (Nat.eqb (csize c) 0) | None => false end.
(** what a variable contributes at [q]: the cost of sharing [q] with its chain, and the distance *)
Definition ow (qwt : list Z) (v q : nat) : option Z :=
  match chains em !! v with
  | Some c => if fixedb pb v then Some 0 else if decide (is_Some (cdata c !! q)) then
      (if decide (wt qwt q <> max_distance /\ wt (eweight em) q < wbd /\ 0 < wt qwt q) then Some (wt qwt q) else None)
      else Some 0
  | None => Some 0
  end.
Definition dsv (b : search) (v q : nat) : option Z :=
  match vis b !! v ≫= (.!! q), dist b !! v ≫= (.!! q) with
  | Some s, Some d => if decide (s = 1 /\ d <> max_distance /\ wt (eweight em) q < wbd) then Some d else None
  | _, _ => None
  end.
Definition contrib (b : search) (v q : nat) : option Z := oadd (ow (qw b) v q) (dsv b v q).

Lemma live_nonempty v : live v = true <-> nonempty em v.
Proof. clear - em.
  unfold live, nonempty. destruct (chains em !! v) as [c|].
  - rewrite negb_true_iff, Nat.eqb_neq. naive_solver.
  - naive_solver.
Qed.
Lemma chainsize_live v : (v < nv pb + nf pb)%nat -> exists n, chainsize em v = Ok n /\ (n <> 0%nat <-> live v = true).
Proof.
  intros H. destruct (lookup_lt_is_Some_2 (chains em) v) as [c Hc]; [by rewrite Lch|].
  exists (csize c). unfold chainsize, live. rewrite (vget_ok _ _ _ Hc), Hc. split; [done|].
  rewrite negb_true_iff, Nat.eqb_neq. done.
Qed.

Lemma ow_onn qwt v q : onn (ow qwt v q).
Proof.
  unfold ow, onn. destruct (chains em !! v); [|by intros s [= <-]]. destruct (fixedb pb v); [by intros s [= <-]|].
  case_decide; [|by intros s [= <-]]. case_decide; [|done]. intros s [= <-]. lia.
Qed.
Lemma rows_dist u b v q s : rows u b v -> dsv b v q = Some s -> exists ds pr ch, chains em !! v = Some ch /\ par b !! v = Some pr /\
  dsc pb (fixedb pb v) (qin ch) (ok u v) (wt (qw b)) pr ds /\ (q, s) ∈ ds /\ 0 <= s <= max_distance.
Proof. clear - pb em wbd ok.
  intros (pr & vs & dr & Hp & Hv & Hd & ch & ds & pq & Hch & D & Pn). unfold dsv. rewrite Hv, Hd. simpl.
  destruct (vs !! q) as [sv|] eqn:Eq; [|done]. destruct (dr !! q) as [d|] eqn:Ed; [|done].
  case_decide as Hc; [|done]. intros [= <-]. destruct Hc as (-> & Hm & Hlt).
  destruct (di_blk _ _ _ _ _ _ _ _ _ _ _ _ D q Eq) as [Hin|[Hb _]]; [|lia].
  apply in_fst in Hin as [c Hin]. pose proof (di_pop _ _ _ _ _ _ _ _ _ _ _ _ D _ _ Hin). assert (c = d) as -> by congruence.
  exists ds, pr, ch. split; [done|]. split; [done|]. split; [exact (g_dsc _ _ _ _ _ _ _ _ (di_g _ _ _ _ _ _ _ _ _ _ _ _ D))|].
  split; [done|]. by apply (di_rng _ _ _ _ _ _ _ _ _ _ _ _ D _ _ Hin).
Qed.
Lemma dsv_onn u b v q : rows u b v -> onn (dsv b v q).
Proof. intros R s Hs. destruct (rows_dist _ _ _ _ _ R Hs) as (? & ? & ? & _ & _ & _ & _ & ?). lia. Qed.
Lemma contrib_onn u b v q : rows u b v -> onn (contrib b v q).
Proof. intros R. apply onn_oadd; [apply ow_onn|by eapply dsv_onn]. Qed.
Lemma contrib_bound u b v q s : rows u b v -> (forall x, (x < nq pb)%nat -> wt (qw b) x <= M) -> contrib b v q = Some s ->
  0 <= s <= Z.of_nat (nq pb) * M.
Proof.
  intros R HwM Hs. split; [by eapply contrib_onn|]. unfold contrib in Hs.
  destruct (ow (qw b) v q) as [a|] eqn:Ea; [|done]. destruct (dsv b v q) as [d|] eqn:Ed; [|done].
  injection Hs as <-. destruct (rows_dist _ _ _ _ _ R Ed) as (ds & pr & ch & Hch & _ & D & Hin & ?).
  assert (Lq : (q < nq pb)%nat) by (by eapply d_lt).
  pose proof Hin as Hi. apply elem_of_list_lookup in Hi as [i Hi].
  pose proof (dsc_cost _ _ _ _ _ _ _ M D HM HwM i _ _ Hi) as B.
  pose proof (dsc_len _ _ _ _ _ _ _ D) as R'. pose proof (lookup_lt_Some _ _ _ Hi).
  unfold ow in Ea. rewrite Hch in Ea. destruct (fixedb pb v) eqn:Ef.
  - injection Ea as <-. nia.
  - destruct (decide (is_Some (cdata ch !! q))) as [Hq|Hq].
    + case_decide; [|done]. injection Ea as <-. pose proof (HwM q Lq).
      destruct (d_par _ _ _ _ _ _ _ D i q d Hi) as [(_ & _ & ->)|(N & _)]; [nia|done].
    + injection Ea as <-. nia.
Qed.

Lemma max_distance_pos : 0 <= max_distance.
Proof. done. Qed.

Lemma tval_step (o a : option Z) t : t = tval o -> onn o -> onn a -> t = max_distance -> tval (oadd o a) = max_distance.
Proof.
  intros -> Ho Ha. unfold tval. destruct o as [x|], a as [y|]; simpl; try done.
  pose proof (Ho x eq_refl). pose proof (Ha y eq_refl). lia.
Qed.

Lemma at_chain_spec v b (o : nat -> option Z) : swf pb b -> wok (qw b) -> (v < nv pb + nf pb)%nat ->
  (forall q, (q < nq pb)%nat -> total b !! q = Some (tval (o q)) /\ onn (o q)) ->
  (ov Overflow \/ forall q s, (q < nq pb)%nat -> oadd (o q) (ow (qw b) v q) = Some s -> s <= max_distance) ->
  wpo ov (accumulate_at_chain pb em wbd v b) (fun b' => exists t, b' = set_total b t /\ length t = nq pb /\
    forall q, (q < nq pb)%nat -> t !! q = Some (tval (oadd (o q) (ow (qw b) v q))) /\ onn (oadd (o q) (ow (qw b) v q))).
Proof.
  intros S (Lq & Hw & _) Lv Ht Hb. unfold accumulate_at_chain.
  destruct (lookup_lt_is_Some_2 (chains em) v) as [c Hc]; [by rewrite Lch|].
  assert (On : forall q, (q < nq pb)%nat -> onn (oadd (o q) (ow (qw b) v q))).
  { intros q Hq. apply onn_oadd; [by apply Ht|apply ow_onn]. }
  destruct (fixedb pb v) eqn:Ef.
  { simpl. exists (total b). split; [by destruct b|]. split; [apply (bo_total _ _ S)|]. intros q Hq. split; [|auto].
    unfold ow. rewrite Hc, Ef, oadd_0. by apply Ht. }
  rewrite (vget_ok _ _ _ Hc). cbn [rbind].
  assert (Lc : forall q, q ∈ cqubits c -> (q < nq pb)%nat).
  { intros q Hq%cqubits_in. unfold fixedb in Ef. destruct (Nat.leb_spec (nv pb) v); [done|]. by eapply Hbd. }
  eapply wpr_step.
  { apply (pointwise_spec _ _ (fun q => tval (oadd (o q) (ow (qw b) v q)))).
    - apply cqubits_nodup.
    - intros q Hq. rewrite (bo_total _ _ S). by apply Lc.
    - intros t' q x Hq Lt Hx Hx0. pose proof (Lc q Hq) as Lq'.
      destruct (lookup_lt_is_Some_2 (qw b) q) as [w Hwq]; [by rewrite Lq|]. eapply wpr_vget; [done|].
      eapply wpr_vget; [done|]. destruct (lookup_lt_is_Some_2 (eweight em) q) as [ew Hew]; [lia|]. eapply wpr_vget; [done|].
      destruct (Ht q Lq') as [Ht1 Ht2]. assert (x = tval (o q)) as -> by congruence.
      assert (Ew : wt (qw b) q = w) by (unfold wt; by rewrite Hwq).
      assert (Ee : wt (eweight em) q = ew) by (unfold wt; by rewrite Hew).
      assert (Rq : reservedb pb q = false). { unfold reservedb. apply Nat.leb_gt. done. }
      assert (Hin : is_Some (cdata c !! q)) by (by apply cqubits_in).
      assert (Eo : ow (qw b) v q = if decide (w <> max_distance /\ ew < wbd /\ 0 < w) then Some w else None).
      { unfold ow. rewrite Hc, Ef, decide_True by done. by rewrite Ew, Ee. }
      assert (G : forall z, z = tval (oadd (o q) (ow (qw b) v q)) ->
         wpo ov (vset t' q z) (fun t'' => t'' = <[q:=tval (oadd (o q) (ow (qw b) v q))]> t')).
      { intros z ->. rewrite vset_ok; [done|]. by eapply lookup_lt_Some. }
      match goal with |- wpo _ (if decide ?X then _ else _) _ => destruct (decide X) as [Hcnd|Hcnd] end.
      + destruct Hcnd as (H1 & _ & H2 & H3 & H4). rewrite decide_True in Eo by done.
        destruct (o q) as [s0|] eqn:Eoq; [|done]. simpl in H1. assert (Hs0 : s0 < max_distance) by lia.
        unfold dadd. case_decide as Hov.
        * cbn [rbind]. apply G. rewrite Eo. simpl. simpl in Hov. lia.
        * cbn [rbind]. destruct Hb as [?|Hb]; [done|]. exfalso. apply Hov. simpl.
          assert (s0 + w <= max_distance); [|lia]. eapply (Hb q); [done|]. by rewrite Eoq, Eo.
      + apply G. symmetry. destruct (decide (tval (o q) = max_distance)) as [Hm|Hm].
        * eapply tval_step; eauto. apply ow_onn.
        * rewrite Eo. rewrite decide_False by naive_solver. destruct (o q); done. }
  simpl. intros t (L & H1 & H2). exists t. split; [done|]. split; [by rewrite L, (bo_total _ _ S)|].
  intros q Hq. split; [|auto]. destruct (decide (q ∈ cqubits c)) as [Hin|Hin]; [by apply H1|].
  rewrite (H2 q Hin). unfold ow. rewrite Hc, Ef, decide_False; [rewrite oadd_0; by apply Ht|].
  intros ?. apply Hin. by apply cqubits_in.
Qed.

Lemma acc_dist_spec u v b (o : nat -> option Z) : swf pb b -> rows u b v ->
  (forall q, (q < nq pb)%nat -> total b !! q = Some (tval (o q)) /\ onn (o q)) ->
  (ov Overflow \/ forall q s, (q < nq pb)%nat -> oadd (o q) (dsv b v q) = Some s -> s <= max_distance) ->
  wpo ov (accumulate_dist pb em wbd v b) (fun b' => exists t, b' = set_total b t /\ length t = nq pb /\
    forall q, (q < nq pb)%nat -> t !! q = Some (tval (oadd (o q) (dsv b v q))) /\ onn (oadd (o q) (dsv b v q))).
Proof.
  intros S R Ht Hb. unfold accumulate_dist. pose proof R as (pr & vs & dr & Hp & Hv & Hd & _).
  eapply wpr_vget; [exact Hd|]. eapply wpr_vget; [exact Hv|].
  assert (On : forall q, (q < nq pb)%nat -> onn (oadd (o q) (dsv b v q))).
  { intros q Hq. apply onn_oadd; [by apply Ht|by eapply dsv_onn]. }
  pose proof (bo_visr _ _ S _ _ Hv) as Lvs. destruct (bo_distr _ _ S _ _ Hd) as [Ldr _].
  eapply wpr_step.
  { apply (pointwise_spec _ _ (fun q => tval (oadd (o q) (dsv b v q)))).
    - apply NoDup_seq.
    - intros q Hq%elem_of_seq. rewrite (bo_total _ _ S). lia.
    - intros t' q x Hq%elem_of_seq Lt Hx Hx0. assert (Lq' : (q < nq pb)%nat) by lia.
      destruct (lookup_lt_is_Some_2 vs q) as [s Hs]; [lia|]. eapply wpr_vget; [done|].
      eapply wpr_vget; [done|]. destruct (lookup_lt_is_Some_2 dr q) as [d Hdq]; [lia|]. eapply wpr_vget; [done|].
      destruct (lookup_lt_is_Some_2 (eweight em) q) as [ew Hew]; [lia|]. eapply wpr_vget; [done|].
      destruct (Ht q Lq') as [Ht1 Ht2]. assert (x = tval (o q)) as -> by congruence.
      assert (Ee : wt (eweight em) q = ew) by (unfold wt; by rewrite Hew).
      assert (Rq : reservedb pb q = false). { unfold reservedb. apply Nat.leb_gt. done. }
      assert (Eo : dsv b v q = if decide (s = 1 /\ d <> max_distance /\ ew < wbd) then Some d else None).
      { unfold dsv. rewrite Hv, Hd. simpl. by rewrite Hs, Hdq, Ee. }
      assert (G : forall z, z = tval (oadd (o q) (dsv b v q)) ->
         wpo ov (vset t' q z) (fun t'' => t'' = <[q:=tval (oadd (o q) (dsv b v q))]> t')).
      { intros z ->. rewrite vset_ok; [done|]. by eapply lookup_lt_Some. }
      match goal with |- wpo _ (if decide ?X then _ else _) _ => destruct (decide X) as [Hcnd|Hcnd] end.
      + destruct Hcnd as (H0 & H1 & _ & H3 & H4). rewrite decide_True in Eo by done.
        destruct (o q) as [s0|] eqn:Eoq; [|done]. simpl in H1. assert (Hs0 : s0 < max_distance) by lia.
        unfold dadd. case_decide as Hov.
        * cbn [rbind]. apply G. rewrite Eo. simpl. simpl in Hov. lia.
        * cbn [rbind]. destruct Hb as [?|Hb]; [done|]. exfalso. apply Hov. simpl.
          assert (s0 + d <= max_distance); [|lia]. eapply (Hb q); [done|]. by rewrite Eoq, Eo.
      + apply G. symmetry. destruct (decide (tval (o q) = max_distance)) as [Hm|Hm].
        * eapply tval_step; eauto. by eapply dsv_onn.
        * rewrite Eo. rewrite decide_False by naive_solver. destruct (o q); done. }
  simpl. intros t (L & H1 & H2). exists t. split; [done|]. split; [by rewrite L, (bo_total _ _ S)|].
  intros q Hq. split; [|auto]. apply H1. apply elem_of_seq. lia.
Qed.

(** ** the search of one neighbour as a function of its own rows *)
Definition rowcomp (qwt : list Z) (u v : nat) (pm : list nat) (pv : list (option nat)) (vv dv : list Z)
  : res (list (option nat) * list Z * list Z) :=
  let! vv := prepare_visited pb vv u v in
  let! k := dijkstra_init pb em qwt pm false v (mkW pv vv (q_new (nq pb))) in
  let! (k, d) := dijkstra_loop (S (nq pb)) pb em wbd qwt pm k dv in
  Ok (wpar k, wvis k, d).
Lemma compute_rowcomp u v b pm pv vv dv : par b !! v = Some pv -> vis b !! v = Some vv -> dist b !! v = Some dv ->
  perm b !! v = Some pm ->
  (let! b := prep_vis pb u v b in compute_distances_from_chain pb em wbd v b) =
  let! (p, vs, d) := rowcomp (qw b) u v pm pv vv dv in
  Ok (set_row b (<[v:=p]> (par b)) (<[v:=vs]> (vis b)) (<[v:=d]> (dist b))).
Proof.
  intros Hp Hv Hd Hm. unfold prep_vis, rowcomp. rewrite (vget_ok _ _ _ Hv). cbn [rbind].
  destruct (prepare_visited pb vv u v) as [vv'|]; [|done]. cbn [rbind].
  rewrite vset_ok by (by eapply lookup_lt_Some). cbn [rbind]. unfold compute_distances_from_chain.
  cbn [par vis dist perm qw total]. rewrite (vget_ok _ _ _ Hp). cbn [rbind].
  rewrite (vget_ok _ v vv') by (apply list_lookup_insert; by eapply lookup_lt_Some). cbn [rbind].
  rewrite (vget_ok _ _ _ Hd), (vget_ok _ _ _ Hm). cbn [rbind].
  destruct (dijkstra_init pb em (qw b) pm false v _) as [k|]; [|done]. cbn [rbind].
  destruct (dijkstra_loop _ _ _ _ _ _ _ _) as [[k' d']|]; [|done]. cbn [rbind].
  rewrite vset_ok by (by eapply lookup_lt_Some). cbn [rbind].
  rewrite vset_ok by (rewrite insert_length; by eapply lookup_lt_Some). cbn [rbind].
  rewrite vset_ok by (by eapply lookup_lt_Some). cbn [rbind]. unfold set_row. simpl.
  by rewrite list_insert_insert.
Qed.

(** rows [par], [vis], [dist] of [b'] at [v] are the search result from the rows of [b] *)
Definition rowres (u : nat) (b b' : search) (v : nat) : Prop :=
  exists pm pv vv dv p vs d, perm b !! v = Some pm /\ par b !! v = Some pv /\ vis b !! v = Some vv /\ dist b !! v = Some dv /\
    rowcomp (qw b') u v pm pv vv dv = Ok (p, vs, d) /\ par b' !! v = Some p /\ vis b' !! v = Some vs /\ dist b' !! v = Some d.
Definition rowsame (b b' : search) (v : nat) : Prop :=
  par b' !! v = par b !! v /\ vis b' !! v = vis b !! v /\ dist b' !! v = dist b !! v.

Lemma compute_spec' u v b : swf pb b -> wok (qw b) -> (u < nv pb + nf pb)%nat -> (v < nv pb + nf pb)%nat ->
  wpo ov (let! b := prep_vis pb u v b in compute_distances_from_chain pb em wbd v b)
    (fun b' => swf pb b' /\ others v b b' /\ rows u b' v /\ rowres u b b' v).
Proof.
  intros S W Lu Lv. pose proof (compute_spec u v b S W Lu Lv) as H. revert H.
  destruct (lookup_lt_is_Some_2 (vis b) v) as [vv Hvv]; [by rewrite (bo_vis _ _ S)|].
  destruct (lookup_lt_is_Some_2 (par b) v) as [pv Hpv]; [by rewrite (bo_par _ _ S)|].
  destruct (lookup_lt_is_Some_2 (dist b) v) as [dv Hdv]; [by rewrite (bo_dist _ _ S)|].
  destruct (lookup_lt_is_Some_2 (perm b) v) as [pm Hpm]; [pose proof (bo_perm _ _ S); lia|].
  rewrite (compute_rowcomp _ _ _ _ _ _ _ Hpv Hvv Hdv Hpm).
  destruct (rowcomp (qw b) u v pm pv vv dv) as [[[p vs] d]|er] eqn:Er; cbn [rbind]; [|by destruct er].
  simpl. intros (H1 & H2 & H3). split; [done|]. split; [done|]. split; [done|].
  exists pm, pv, vv, dv, p, vs, d. cbn [par vis dist perm qw total set_row].
  repeat (split; [done|]).
  split; [apply list_lookup_insert; by eapply lookup_lt_Some|].
  split; apply list_lookup_insert; by eapply lookup_lt_Some.
Qed.

(** ** the whole preparation *)
Context (e : env) (Epb : PathModel.pb e = pb) (Wtab : forall m c, 0 <= c < 64 -> 0 <= wtab e m c <= max_distance).
Context (Hq0 : (0 < nq pb)%nat).
Context (HwM : ov Overflow \/ forall mw x, max_weight pb em = Ok mw -> (x < nq pb)%nat -> weight_of e mw (wt (eweight em) x) <= M).

Lemma weight_of_rng mw c : 0 <= weight_of e mw c <= max_distance.
Proof. unfold weight_of. case_decide; [by split|]. apply Wtab. lia. Qed.

Lemma max_weight_ok : exists mw, max_weight pb em = Ok mw.
Proof.
  unfold max_weight. destruct (take (nq pb) (eweight em)) eqn:Et; [|eauto].
  apply (f_equal length) in Et. rewrite take_length in Et. simpl in Et. lia.
Qed.

Definition qwt_of (mw : Z) : list Z := map (fun q => weight_of e mw (wt (eweight em) q)) (seq 0 (nq pb)).
Lemma qwt_at mw q : (q < nq pb)%nat -> qwt_of mw !! q = Some (weight_of e mw (wt (eweight em) q)).
Proof. intros H. unfold qwt_of. rewrite list_lookup_fmap, lookup_seq_lt by done. done. Qed.
Lemma qwt_wt mw q : (q < nq pb)%nat -> wt (qwt_of mw) q = weight_of e mw (wt (eweight em) q).
Proof. intros H. unfold wt at 1. by rewrite (qwt_at _ _ H). Qed.

Lemma weights_spec b : swf pb b -> exists mw, max_weight pb em = Ok mw /\ wok (qwt_of mw) /\
  compute_qubit_weights e em b = Ok (mkSr (par b) (vis b) (dist b) (total b) (qwt_of mw) (perm b)).
Proof.
  intros S. destruct max_weight_ok as [mw Hm]. exists mw. split; [done|]. split.
  - split; [unfold qwt_of; by rewrite map_length, seq_length|]. split.
    + intros x Hx. rewrite qwt_wt by done. apply weight_of_rng.
    + destruct HwM as [?|H]; [by left|right]. intros x Hx. rewrite qwt_wt by done. eauto.
  - unfold compute_qubit_weights. rewrite Epb, Hm. cbn [rbind].
    destruct (pointwise_ok (fun acc q => let! w := vget (eweight em) q in vset acc q (weight_of e mw w))
      (fun q => weight_of e mw (wt (eweight em) q)) (seq 0 (nq pb)) (qw b)) as (t & -> & L & H1 & _).
    { apply NoDup_seq. }
    { intros q Hq%elem_of_seq. rewrite (bo_qw _ _ S). lia. }
    { intros t' q x Hq%elem_of_seq Lt Hx _. destruct (lookup_lt_is_Some_2 (eweight em) q) as [w Hw]; [lia|].
      rewrite (vget_ok _ _ _ Hw). cbn [rbind]. rewrite vset_ok by (by eapply lookup_lt_Some). unfold wt. by rewrite Hw. }
    simpl. do 2 f_equal. apply list_eq_same_length with (n := nq pb).
    + unfold qwt_of. by rewrite map_length, seq_length.
    + rewrite L. apply (bo_qw _ _ S).
    + intros q x y Hq Hy Hx. rewrite qwt_at in Hx by done. rewrite H1 in Hy by (apply elem_of_seq; lia). congruence.
Qed.

Definition lv (l : list nat) : list nat := base.filter (fun v => live v = true) l.
Lemma lv_snoc l v : lv (l ++ [v]) = lv l ++ (if live v then [v] else []).
Proof. unfold lv. rewrite filter_app. f_equal. rewrite filter_cons. case_decide as H; [by rewrite H|]. destruct (live v); done. Qed.
Lemma lv_in l v : v ∈ lv l <-> v ∈ l /\ live v = true.
Proof. clear - em. unfold lv. rewrite elem_of_list_filter. tauto. Qed.
Lemma lv_len l : (length (lv l) <= length l)%nat.
Proof. apply filter_length. Qed.

(** the totals start at infinity on forbidden qubits *)
Definition tbase (u q : nat) : option Z :=
  match masks pb with None => Some 0 | Some m => if decide (m !! u ≫= (.!! q) = Some 0) then Some 0 else None end.
Lemma tbase_some u q x s : oadd (tbase u q) x = Some s -> x = Some s.
Proof. clear. unfold tbase. destruct (masks pb); [case_decide|]; [..|]; destruct x; simpl; try done; intros [= <-]; f_equal; lia. Qed.
Lemma tbase_onn u q : onn (tbase u q).
Proof. clear. unfold tbase, onn. destruct (masks pb); [case_decide|]; intros s [= <-]; lia. Qed.
Lemma tbase_use u q : tbase u q = Some 0 <-> may_use pb u q.
Proof.
  clear. unfold tbase, may_use. destruct (masks pb) as [m|]; [|done]. case_decide as H.
  - split; [|done]. intros _. destruct (m !! u) as [r|]; [|done]. by exists r.
  - split; [done|]. intros (r & Hr & Hq). destruct H. by rewrite Hr.
Qed.
Lemma tbase_none u q : tbase u q = None <-> ~ may_use pb u q.
Proof. clear. rewrite <- tbase_use. unfold tbase. destruct (masks pb); [case_decide|]; naive_solver. Qed.

(** the common outcome of the two preparations *)
Record prepared (u : nat) (nbrs : list nat) (b b' : search) : Prop := {
  pr_swf : swf pb b';
  pr_mw : exists mw, max_weight pb em = Ok mw /\ qw b' = qwt_of mw;
  pr_wok : wok (qw b');
  pr_perm : perm b' = perm b;
  pr_rows : forall v, v ∈ nbrs -> live v = true -> rows u b' v /\ rowres u b b' v;
  pr_same : forall v, ~ (v ∈ nbrs /\ live v = true) -> rowsame b b' v;
  pr_tot : lv nbrs <> [] -> forall q, (q < nq pb)%nat -> total b' !! q = Some (tval (oadd (tbase u q) (osum (fun v => contrib b' v q) (lv nbrs))));
  pr_none : lv nbrs = [] -> forall q t, total b' !! q = Some t -> t = max_distance <-> ~ may_use pb u q \/ wbd <= wt (eweight em) q \/
     (parallel e = false /\ wt (qw b') q = max_distance);
  pr_le : forall q t, total b' !! q = Some t -> t <= max_distance
}.

(** the state of the loop over the neighbours after [dn] *)
Record loopinv (u : nat) (dn : list nat) (b b' : search) : Prop := {
  li_swf : swf pb b';
  li_wok : wok (qw b');
  li_qw : qw b' = qw b;
  li_perm : perm b' = perm b;
  li_rows : forall v, v ∈ dn -> live v = true -> rows u b' v /\ rowres u b b' v;
  li_same : forall v, ~ (v ∈ dn /\ live v = true) -> rowsame b b' v
}.
Lemma rows_total u b t v : rows u (set_total b t) v <-> rows u b v.
Proof. done. Qed.
Lemma loopinv_total u dn b b' t : loopinv u dn b b' -> length t = nq pb -> loopinv u dn b (set_total b' t).
Proof. intros [] L. split; auto. by apply swf_total. Qed.
Lemma rows_others v v' b b' : others v b b' -> v' <> v -> (forall u, rows u b v' -> rows u b' v') /\ (forall u b0, rowres u b0 b v' -> rowres u b0 b' v') /\
  (forall b0, rowsame b0 b v' -> rowsame b0 b' v') /\ (forall q, contrib b' v' q = contrib b v' q).
Proof.
  intros (E1 & _ & _ & E2) N. destruct (E2 v' N) as (Ep & Ev & Ed). repeat split.
  - unfold rows. intros u (pr & vs & dr & H). exists pr, vs, dr. by rewrite Ep, Ev, Ed, E1.
  - intros u b0 (pm & pv & vv & dv & p & vs & d & H). exists pm, pv, vv, dv, p, vs, d. by rewrite Ep, Ev, Ed, E1.
  - destruct H as (H & _ & _). by rewrite Ep.
  - destruct H as (_ & H & _). by rewrite Ev.
  - destruct H as (_ & _ & H). by rewrite Ed.
  - intros q. unfold contrib, dsv. by rewrite Ev, Ed, E1.
Qed.

Lemma rowres_from u b0 b b' v : rowsame b0 b v -> perm b = perm b0 -> rowres u b b' v -> rowres u b0 b' v.
Proof.
  intros (Ep & Ev & Ed) Em (pm & pv & vv & dv & p & vs & d & H). exists pm, pv, vv, dv, p, vs, d. by rewrite <- Em, <- Ep, <- Ev, <- Ed.
Qed.

Lemma loop_one u dn v b b' : loopinv u dn b b' -> (u < nv pb + nf pb)%nat -> v ∉ dn -> (v < nv pb + nf pb)%nat -> live v = true ->
  wpo ov (let! b := prep_vis pb u v b' in compute_distances_from_chain pb em wbd v b)
    (fun b'' => loopinv u (dn ++ [v]) b b'' /\ total b'' = total b' /\ qw b'' = qw b' /\
       (forall v' q, v' ∈ dn -> contrib b'' v' q = contrib b' v' q)).
Proof.
  intros [S W Eq Em Hr Hs] Lu Nv Lv Hl. eapply wpr_mono; [by apply (compute_spec' u)|].
  simpl. intros b'' (S' & Ho & R & RR). pose proof Ho as (Eq' & Em' & Et' & Ho'). split; [split; auto; try congruence|].
  - intros v' Hv' Hl'. destruct (decide (v' = v)) as [->|N].
    + split; [done|]. eapply rowres_from; [|exact Em|done]. apply Hs. tauto.
    + apply elem_of_app in Hv' as [Hv'|Hv'%elem_of_list_singleton]; [|done].
      destruct (rows_others _ _ _ _ Ho N) as (H1 & H2 & _). destruct (Hr v' Hv' Hl'). eauto.
  - intros v' Hv'. assert (N : v' <> v). { intros ->. apply Hv'. split; [|done]. apply elem_of_app. right; left. }
    destruct (rows_others _ _ _ _ Ho N) as (_ & _ & H3 & _). apply H3, Hs. intros [? ?]. apply Hv'. split; [|done].
    apply elem_of_app. by left.
  - split; [done|]. split; [done|]. intros v' q Hv'. apply (rows_others _ _ _ _ Ho). by intros ->.
Qed.
Lemma loop_skip u dn v b b' : loopinv u dn b b' -> live v = false -> loopinv u (dn ++ [v]) b b'.
Proof.
  intros [S W Eq Em Hr Hs] Hl. split; auto.
  - intros v' Hv' Hl'. apply elem_of_app in Hv' as [Hv'|Hv'%elem_of_list_singleton]; [eauto|congruence].
  - intros v' Hv'. apply Hs. intros [? ?]. apply Hv'. split; [|done]. apply elem_of_app. by left.
Qed.

Context (nbrs : list nat) (NDn : NoDup nbrs) (Hn : forall v, v ∈ nbrs -> (v < nv pb + nf pb)%nat).
Context (HK2 : ov Overflow \/ Z.of_nat (length nbrs) * (Z.of_nat (nq pb) * M) <= max_distance).

Lemma sum_bound u b dn q s x : (ov Overflow -> False) -> (forall v, v ∈ dn -> rows u b v) -> wok (qw b) ->
  osum (fun v => contrib b v q) dn = Some s -> 0 <= x <= Z.of_nat (nq pb) * M -> (length dn < length nbrs)%nat ->
  s + x <= max_distance.
Proof.
  intros No Hr (_ & _ & [?|W]) Hs Hx L; [tauto|]. destruct HK2 as [?|H2]; [tauto|].
  eapply osum_bound in Hs; [|intros v y Hv Hy; eapply contrib_bound; [by apply Hr|done|exact Hy]]. nia.
Qed.

Lemma dn_facts dn v rest : nbrs = dn ++ v :: rest -> v ∉ dn /\ (v < nv pb + nf pb)%nat /\ (length dn < length nbrs)%nat.
Proof.
  intros E. split; [|split].
  - rewrite E in NDn. apply NoDup_app in NDn as (_ & H & _). intros Hd. apply (H v Hd). left.
  - apply Hn. rewrite E. apply elem_of_app. right; left.
  - rewrite E, app_length. simpl. lia.
Qed.

Lemma ow_bound b v q x : (ov Overflow -> False) -> wok (qw b) -> (q < nq pb)%nat -> ow (qw b) v q = Some x -> 0 <= x <= Z.of_nat (nq pb) * M.
Proof.
  intros No (_ & _ & [?|W]) Hq; [tauto|]. unfold ow. pose proof (W q Hq).
  destruct (chains em !! v); [|intros [= <-]; nia]. destruct (fixedb pb v); [intros [= <-]; nia|].
  case_decide; [|intros [= <-]; nia]. case_decide; [|done]. intros [= <-]. nia.
Qed.

Lemma acc_both u dn v rest b b' : nbrs = dn ++ v :: rest -> live v = true -> loopinv u (dn ++ [v]) b b' ->
  (forall q, (q < nq pb)%nat -> total b' !! q = Some (tval (oadd (tbase u q) (osum (fun v => contrib b' v q) (lv dn))))) ->
  wpo ov (let! b := accumulate_at_chain pb em wbd v b' in accumulate_dist pb em wbd v b)
   (fun b'' => loopinv u (dn ++ [v]) b b'' /\
    forall q, (q < nq pb)%nat -> total b'' !! q = Some (tval (oadd (tbase u q) (osum (fun v => contrib b'' v q) (lv (dn ++ [v])))))).
Proof.
  intros El Hl I Ht. destruct (dn_facts _ _ _ El) as (Nv & Lv & Ll).
  assert (R : forall v', v' ∈ lv (dn ++ [v]) -> rows u b' v').
  { intros v' [H1 H2]%lv_in. by apply (li_rows _ _ _ _ I). }
  assert (R' : forall v', v' ∈ lv dn -> rows u b' v').
  { intros v' [H1 H2]%lv_in. apply R, lv_in. split; [|done]. apply elem_of_app. by left. }
  assert (Rv : rows u b' v). { apply R. apply lv_in. split; [|done]. apply elem_of_app. right; left. }
  pose proof (li_wok _ _ _ _ I) as W. pose proof (li_swf _ _ _ _ I) as S.
  assert (Ll2 : (length (lv dn) < length nbrs)%nat) by (pose proof (lv_len dn); lia).
  eapply wpr_step.
  { apply (at_chain_spec v b' (fun q => oadd (tbase u q) (osum (fun v => contrib b' v q) (lv dn)))); auto.
    - intros q Hq. split; [auto|]. apply onn_oadd; [apply tbase_onn|]. apply onn_osum. intros v' Hv'. eapply contrib_onn. auto.
    - destruct HK2 as [?|H2]; [by left|]. destruct W as (W1 & W2 & [?|W3]); [by left|].
      right. intros q s Hq Hs. rewrite <- oadd_assoc in Hs. apply tbase_some in Hs. destruct (osum _ (lv dn)) as [s0|] eqn:Es; [|done].
      destruct (ow (qw b') v q) as [x|] eqn:Ex; [|done]. injection Hs as <-.
      eapply osum_bound in Es; [|intros v' y Hv' Hy; eapply contrib_bound; [by apply R'|done|exact Hy]].
      assert (0 <= x <= Z.of_nat (nq pb) * M); [|nia].
      unfold ow in Ex. pose proof (W3 q Hq). destruct (chains em !! v); [|injection Ex as <-; nia].
      destruct (fixedb pb v); [injection Ex as <-; nia|]. case_decide; [|injection Ex as <-; nia]. case_decide; [|done].
      injection Ex as <-. nia. }
  simpl. intros b1 (t1 & -> & L1 & H1).
  eapply wpr_mono; [apply (acc_dist_spec u v (set_total b' t1) (fun q => oadd (oadd (tbase u q) (osum (fun v => contrib b' v q) (lv dn))) (ow (qw b') v q)))|].
  - by apply swf_total.
  - done.
  - done.
  - destruct HK2 as [?|H2]; [by left|]. destruct W as (W1 & W2 & [?|W3]); [by left|].
    right. intros q s Hq Hs. change (dsv (set_total b' t1) v q) with (dsv b' v q) in Hs.
    rewrite <- !oadd_assoc in Hs. apply tbase_some in Hs. change (oadd (ow (qw b') v q) (dsv b' v q)) with (contrib b' v q) in Hs.
    destruct (osum _ (lv dn)) as [s0|] eqn:Es; [|done].
    destruct (contrib b' v q) as [x|] eqn:Ex; [|done]. injection Hs as <-.
    eapply osum_bound in Es; [|intros v' y Hv' Hy; eapply contrib_bound; [by apply R'|done|exact Hy]].
    eapply contrib_bound in Ex; [|done|done]. nia.
  - simpl. intros b2 (t2 & -> & L2 & H2). split.
    + by repeat (apply loopinv_total; [|done]).
    + intros q Hq. cbn [total set_total]. destruct (H2 q Hq) as [-> _]. do 2 f_equal. rewrite lv_snoc, Hl, osum_snoc.
      by rewrite <- !oadd_assoc.
Qed.

Lemma prep_dist u t : (u < nv pb + nf pb)%nat -> length t = nq pb ->
  exists t0, prepare_distances pb t u = Ok t0 /\ length t0 = nq pb /\ forall q, (q < nq pb)%nat -> t0 !! q = Some (tval (tbase u q)).
Proof. clear - PW.
  intros Lu L. unfold prepare_distances, tbase. destruct (masks pb) as [m|] eqn:Em.
  - destruct (pbw_masks _ PW m Em) as [Lm Hm]. destruct (lookup_lt_is_Some_2 m u) as [mu Hu]; [lia|].
    rewrite (vget_ok _ _ _ Hu). cbn [rbind]. destruct (Hm u mu Hu) as [L1 H1]. rewrite decide_True by lia.
    eexists. split; [done|]. split; [rewrite map_length, take_length; lia|].
    intros q Hq. destruct (lookup_lt_is_Some_2 mu q) as [a Ha]; [lia|].
    rewrite list_lookup_fmap, lookup_take by lia. rewrite Ha. simpl. f_equal. rewrite Hu. simpl. rewrite Ha.
    destruct (H1 a ltac:(by eapply elem_of_list_lookup_2)) as [->| ->]; done.
  - eexists. split; [done|]. split; [by rewrite replicate_length|]. intros q Hq. by rewrite lookup_replicate_2 by lia.
Qed.

Lemma serial_spec u b : parallel e = false -> (u < nv pb + nf pb)%nat -> swf pb b -> wpo ov (prepare_serial e nbrs wbd em u b) (fun b' => prepared u nbrs b b').
Proof.
  intros Pe Lu S. unfold prepare_serial. rewrite Epb.
  destruct (prep_dist u _ Lu (bo_total _ _ S)) as (t0 & -> & Lt0 & Ht0). cbn [rbind].
  pose proof (swf_total _ _ t0 S Lt0) as S0.
  destruct (weights_spec _ S0) as (mw & Hmw & W & ->). cbn [rbind].
  set (b0 := mkSr _ _ _ _ _ _).
  eapply wpr_step.
  { apply (wpr_foldM _ (fun dn '(b', n) => loopinv u dn b0 b' /\ n = length (lv dn) /\
      forall q, (q < nq pb)%nat -> total b' !! q = Some (tval (oadd (tbase u q) (osum (fun v => contrib b' v q) (lv dn)))))).
    { split; [|split; [done|]].
      - split; auto.
        + destruct S0. split; auto. apply W.
        + intros v Hv. by apply elem_of_nil in Hv.
        + done.
      - intros q Hq. simpl. rewrite oadd_0. auto. }
    intros dn v rest [b' n] El (I & En & Ht). destruct (dn_facts _ _ _ El) as (Nv & Lv & _).
    destruct (chainsize_live v Lv) as (sz & -> & Hsz). cbn [rbind]. case_decide as Hd.
    { simpl. assert (Hl : live v = false). { destruct (live v); [|done]. exfalso. by apply Hsz. }
      rewrite lv_snoc, Hl, app_nil_r. split; [by apply loop_skip|]. split; done. }
    assert (Hl : live v = true) by (by apply Hsz).
    assert (G : forall (r1 : res search) (f : search -> res search) (g : search -> res search) (h : search -> res search),
      (let! b1 := r1 in let! b2 := f b1 in let! b3 := g b2 in let! b4 := h b3 in Ok (b4, Datatypes.S n)) =
      (let! b2 := (let! b1 := r1 in f b1) in let! b4 := (let! b3 := g b2 in h b3) in Ok (b4, Datatypes.S n))).
    { intros [r1|] f g h; simpl; [|done]. destruct (f r1); simpl; [|done]. by destruct (g _). }
    rewrite G. eapply wpr_step; [by apply loop_one|]. intros b1 (I1 & E1 & E2 & E3). cbn beta.
    eapply wpr_step; [eapply acc_both; [exact El|done|exact I1|]|].
    { intros q Hq. rewrite E1, (Ht q Hq). do 3 f_equal. apply osum_ext. intros v' [Hv' _]%lv_in. by rewrite E3. }
    intros b2 (I2 & Ht2). simpl. split; [done|]. split; [|done]. rewrite lv_snoc, Hl, app_length. simpl. lia. }
  intros [b' n] (I & En & Ht).
  assert (P : lv nbrs <> [] -> prepared u nbrs b b').
  { intros N. destruct I. split; auto.
    - exists mw. by rewrite li_qw0.
    - done.
    - intros q t Hq. pose proof (lookup_lt_Some _ _ _ Hq). rewrite Ht in Hq; [|by rewrite <- (bo_total _ _ li_swf0)].
      injection Hq as <-. apply tval_le. }
  case_decide as Hn0.
  - assert (El : lv nbrs = []) by (apply length_zero_iff_nil; lia). rewrite El in Ht.
    destruct I as [Si Wi Qi Pi Ri Sm].
    eapply wpr_step.
    { apply (pointwise_spec _ _ (fun q => if decide (wbd <= wt (eweight em) q) then max_distance else Z.max (wt (qw b') q) (tval (tbase u q)))).
      - apply (NoDup_Permutation_proper _ _ (Permutation_sym (Permutation_rev _))), NoDup_seq.
      - intros q Hq%elem_of_list_In%in_rev%elem_of_list_In%elem_of_seq. rewrite (bo_total _ _ Si). lia.
      - intros t' q x Hq%elem_of_list_In%in_rev%elem_of_list_In%elem_of_seq Lt Hx Hx0.
        destruct (lookup_lt_is_Some_2 (eweight em) q) as [ew Hew]; [lia|]. eapply wpr_vget; [done|].
        assert (Ee : wt (eweight em) q = ew) by (unfold wt; by rewrite Hew). rewrite Ee.
        case_decide; [by rewrite vset_ok by (by eapply lookup_lt_Some)|].
        destruct (lookup_lt_is_Some_2 (qw b') q) as [w Hw]; [rewrite (bo_qw _ _ Si); lia|]. eapply wpr_vget; [done|].
        eapply wpr_vget; [done|]. rewrite vset_ok by (by eapply lookup_lt_Some). simpl.
        rewrite Ht in Hx0 by lia. injection Hx0 as <-. assert (E : wt (qw b') q = w) by (unfold wt; by rewrite Hw). rewrite E.
        f_equal. simpl. rewrite oadd_0. done. }
    intros t (Lt & H1 & H2). simpl.
    assert (Lt' : length t = nq pb) by (rewrite Lt; apply (bo_total _ _ Si)).
    split; auto.
    + by apply swf_total.
    + exists mw. split; [done|]. simpl. by rewrite Qi.
    + intros N. by rewrite El in N.
    + intros _ q y Hy. simpl in Hy. pose proof (lookup_lt_Some _ _ _ Hy). rewrite H1 in Hy.
      2:{ apply elem_of_list_In. rewrite <- in_rev. apply elem_of_list_In, elem_of_seq. lia. }
      injection Hy as <-. simpl. rewrite <- tbase_none, Pe. pose proof (tbase_onn u q).
      destruct Wi as (_ & Wi & _). pose proof (Wi q ltac:(lia)).
      case_decide; [naive_solver|]. destruct (tbase u q) as [z|] eqn:Ez; simpl.
      * assert (z = 0) as ->. { unfold tbase in Ez. destruct (masks pb); [case_decide|]; naive_solver. }
        rewrite Z.max_l by (unfold max_distance; lia). naive_solver lia.
      * rewrite Z.max_r by lia. naive_solver.
    + intros q y Hy. simpl in Hy. pose proof (lookup_lt_Some _ _ _ Hy). rewrite H1 in Hy.
      2:{ apply elem_of_list_In. rewrite <- in_rev. apply elem_of_list_In, elem_of_seq. lia. }
      injection Hy as <-. destruct Wi as (_ & Wi & _). case_decide; [lia|]. apply Z.max_lub; [apply Wi; lia|apply tval_le].
  - simpl. apply P. intros N. rewrite N in En. done.
Qed.

Lemma parallel_spec u b : parallel e = true -> (u < nv pb + nf pb)%nat -> swf pb b -> wpo ov (prepare_parallel e nbrs wbd em u b) (fun b' => prepared u nbrs b b').
Proof.
  intros Pe Lu S. unfold prepare_parallel. rewrite Epb. destruct (weights_spec _ S) as (mw & Hmw & W & ->). cbn [rbind total].
  destruct (prep_dist u _ Lu (bo_total _ _ S)) as (t0 & -> & Lt0 & Ht0). cbn [rbind].
  set (b0 := set_total _ _).
  assert (S0 : swf pb b0). { destruct S. split; auto; simpl. apply W. }
  eapply wpr_step.
  { apply (wpr_foldM _ (fun dn '(b', n) => loopinv u dn b0 b' /\ n = length (lv dn) /\ total b' = total b0)).
    { split; [|split; done]. split; auto; [|done]. intros v Hv. by apply elem_of_nil in Hv. }
    intros dn v rest [b' n] El (I & En & Ht). destruct (dn_facts _ _ _ El) as (Nv & Lv & _).
    destruct (chainsize_live v Lv) as (sz & -> & Hsz). cbn [rbind]. case_decide as Hd.
    { simpl. assert (Hl : live v = false). { destruct (live v); [|done]. exfalso. by apply Hsz. }
      rewrite lv_snoc, Hl, app_nil_r. split; [by apply loop_skip|]. split; done. }
    assert (Hl : live v = true) by (by apply Hsz).
    assert (G : forall (r1 : res search) (f : search -> res search),
      (let! b1 := r1 in let! b2 := f b1 in Ok (b2, Datatypes.S n)) = (let! b2 := (let! b1 := r1 in f b1) in Ok (b2, Datatypes.S n))).
    { intros [r1|] f; simpl; done. }
    rewrite G. eapply wpr_step; [by apply loop_one|]. intros b1 (I1 & E1 & E2 & E3). simpl.
    split; [done|]. split; [|by rewrite E1, Ht]. rewrite lv_snoc, Hl, app_length. simpl. lia. }
  intros [b1 n] (I1 & En & Et).
  assert (R1 : forall v', v' ∈ lv nbrs -> rows u b1 v').
  { intros v' [H1 H2]%lv_in. by apply (li_rows _ _ _ _ I1). }
  pose proof (li_wok _ _ _ _ I1) as W1.
  (* the chains *)
  eapply wpr_step.
  { apply (wpr_foldM _ (fun dn b' => exists t, b' = set_total b1 t /\ length t = nq pb /\
      forall q, (q < nq pb)%nat -> t !! q = Some (tval (oadd (tbase u q) (osum (fun v => ow (qw b1) v q) dn))))).
    { exists (total b1). split; [by destruct b1|]. split; [apply (bo_total _ _ (li_swf _ _ _ _ I1))|].
      intros q Hq. rewrite Et. simpl. rewrite oadd_0. auto. }
    intros dn v rest b' El (t & -> & Lt & Ht). destruct (dn_facts _ _ _ El) as (Nv & Lv & Ll).
    eapply wpr_mono; [apply (at_chain_spec v (set_total b1 t) (fun q => oadd (tbase u q) (osum (fun v => ow (qw b1) v q) dn)))|].
    - apply swf_total; [by eapply li_swf|done].
    - done.
    - done.
    - intros q Hq. split; [auto|]. apply onn_oadd; [apply tbase_onn|]. apply onn_osum. intros v' _. apply ow_onn.
    - destruct HK2 as [?|H2]; [by left|]. destruct W1 as (W1 & W2 & [?|W3]); [by left|]. right. intros q s Hq Hs.
      change (qw (set_total b1 t)) with (qw b1) in Hs. rewrite <- oadd_assoc in Hs. apply tbase_some in Hs. rewrite <- osum_snoc with (f := fun v => ow (qw b1) v q) in Hs.
      eapply (osum_bound _ _ _ M) in Hs.
      + rewrite app_length in Hs. simpl in Hs. assert (M <= Z.of_nat (nq pb) * M) by nia. assert (Z.of_nat (length dn + 1) * M <= Z.of_nat (length nbrs) * (Z.of_nat (nq pb) * M)); [|lia]. apply Z.mul_le_mono_nonneg; lia.
      + intros v' y _ Ex. unfold ow in Ex. pose proof (W3 q Hq). destruct (chains em !! v'); [|injection Ex as <-; nia].
        destruct (fixedb pb v'); [injection Ex as <-; nia|]. case_decide; [|injection Ex as <-; nia]. case_decide; [|done].
        injection Ex as <-. nia.
    - simpl. intros b2 (t2 & -> & L2 & H2). exists t2. split; [done|]. split; [done|]. intros q Hq.
      rewrite osum_snoc, oadd_assoc. by apply H2. }
  intros b2 (t2 & -> & L2 & H2).
  assert (Ow : forall q, (q < nq pb)%nat -> osum (fun v => ow (qw b1) v q) nbrs = osum (fun v => ow (qw b1) v q) (lv nbrs)).
  { intros q Hq. clear - Hn Lch. induction nbrs as [|v l IH]; [done|]. unfold lv in *. simpl. rewrite filter_cons.
    rewrite IH by (intros; apply Hn; by right). case_decide as Hl; [done|].
    assert (ow (qw b1) v q = Some 0) as ->; [|apply oadd_0l].
    unfold ow, live in *. destruct (chains em !! v) as [c|]; [|done]. destruct (fixedb pb v); [done|].
    rewrite decide_False; [done|]. intros [y Hy]. apply Hl. apply negb_true_iff, Nat.eqb_neq. unfold csize.
    intros Z. apply map_size_empty_inv in Z. rewrite Z in Hy. done. }
  (* the distances *)
  eapply wpr_step.
  { apply (wpr_foldM _ (fun dn b' => exists t, b' = set_total b1 t /\ length t = nq pb /\
      forall q, (q < nq pb)%nat -> t !! q = Some (tval (oadd (oadd (tbase u q) (osum (fun v => ow (qw b1) v q) (lv nbrs))) (osum (fun v => dsv b1 v q) (lv dn)))))).
    { exists t2. split; [done|]. split; [done|]. intros q Hq. simpl. rewrite oadd_0, <- Ow by done. auto. }
    intros dn v rest b' El (t & -> & Lt & Ht). destruct (dn_facts _ _ _ El) as (Nv & Lv & Ll).
    destruct (chainsize_live v Lv) as (sz & -> & Hsz). cbn [rbind]. case_decide as Hd.
    { simpl. assert (Hl : live v = false). { destruct (live v); [|done]. exfalso. by apply Hsz. }
      exists t. split; [done|]. split; [done|]. rewrite lv_snoc, Hl, app_nil_r. done. }
    assert (Hl : live v = true) by (by apply Hsz).
    assert (Rd : forall v', v' ∈ lv dn -> rows u b1 v').
    { intros v' [Hv' ?]%lv_in. apply R1, lv_in. split; [|done]. rewrite El. apply elem_of_app. by left. }
    assert (Rv : rows u b1 v). { apply R1, lv_in. split; [|done]. rewrite El. apply elem_of_app. right; left. }
    eapply wpr_mono; [apply (acc_dist_spec u v (set_total b1 t) (fun q => oadd (oadd (tbase u q) (osum (fun v => ow (qw b1) v q) (lv nbrs))) (osum (fun v => dsv b1 v q) (lv dn))))|].
    - apply swf_total; [by eapply li_swf|done].
    - done.
    - intros q Hq. split; [auto|]. apply onn_oadd; [apply onn_oadd; [apply tbase_onn|]|]; apply onn_osum; [intros; apply ow_onn|intros; by eapply dsv_onn, Rd].
    - destruct HK2 as [?|Hk]; [by left|]. destruct W1 as (Wa & Wb & [?|W3]); [by left|]. right. intros q s Hq Hs.
      change (dsv (set_total b1 t) v q) with (dsv b1 v q) in Hs.
      rewrite <- !oadd_assoc in Hs. apply tbase_some in Hs.
      assert (Eo : oadd (osum (fun v => dsv b1 v q) (lv dn)) (dsv b1 v q) =
        osum (fun v' => if decide (v' ∈ dn ++ [v]) then dsv b1 v' q else Some 0) (lv nbrs)).
      { rewrite <- (osum_snoc (fun v => dsv b1 v q)).
        assert (lv dn ++ [v] = lv (dn ++ [v])) as -> by (by rewrite lv_snoc, Hl).
        assert (El' : nbrs = (dn ++ [v]) ++ rest) by (by rewrite El, <- app_assoc).
        assert (El2 : lv nbrs = lv (dn ++ [v]) ++ lv rest) by (rewrite El' at 1; apply filter_app).
        rewrite El2, osum_app.
        rewrite (osum_ext _ (fun _ => Some 0) (lv rest)).
        - assert (forall l : list nat, osum (fun _ => Some 0) l = Some 0) as ->.
          { induction l as [|y l IH]; simpl; [done|]. by rewrite IH. }
          rewrite oadd_0. apply osum_ext. intros v' [Hv' _]%lv_in. by rewrite decide_True.
        - intros v' [Hv' _]%lv_in. rewrite decide_False; [done|].
          rewrite El' in NDn. apply NoDup_app in NDn as (_ & Hnd & _). intros Hx. by apply (Hnd v'). }
      rewrite Eo, <- osum_oadd in Hs. eapply (osum_bound _ _ _ (Z.of_nat (nq pb) * M)) in Hs.
      + pose proof (lv_len nbrs). nia.
      + intros v' y Hv' Hy. destruct (decide (v' ∈ dn ++ [v])) as [Hd'|Hd'].
        * eapply contrib_bound; [by apply R1|done|exact Hy].
        * rewrite oadd_0 in Hy. unfold ow in Hy. pose proof (W3 q Hq). destruct (chains em !! v'); [|injection Hy as <-; nia].
          destruct (fixedb pb v'); [injection Hy as <-; nia|]. case_decide; [|injection Hy as <-; nia]. case_decide; [|done].
          injection Hy as <-. nia.
    - simpl. intros b3 (t3 & -> & L3 & H3). exists t3. split; [done|]. split; [done|]. intros q Hq.
      rewrite lv_snoc, Hl, osum_snoc, oadd_assoc. by apply H3. }
  intros b3 (t3 & -> & L3 & H3).
  assert (Ht : forall q, (q < nq pb)%nat -> t3 !! q = Some (tval (oadd (tbase u q) (osum (fun v => contrib b1 v q) (lv nbrs))))).
  { intros q Hq. rewrite H3 by done. unfold contrib. by rewrite osum_oadd, oadd_assoc. }
  destruct I1 as [Si Wi Qi Pi Ri Sm].
  case_decide as Hn0.
  - assert (El : lv nbrs = []) by (apply length_zero_iff_nil; lia). rewrite El in Ht. simpl in Ht.
    eapply wpr_step.
    { apply (pointwise_spec _ _ (fun q => if decide (wbd <= wt (eweight em) q) then max_distance else tval (tbase u q))).
      - apply NoDup_seq.
      - intros q Hq%elem_of_seq. simpl. lia.
      - intros t' q x Hq%elem_of_seq Lt Hx Hx0. simpl in Hx0.
        destruct (lookup_lt_is_Some_2 (eweight em) q) as [ew Hew]; [lia|]. eapply wpr_vget; [done|].
        assert (Ee : wt (eweight em) q = ew) by (unfold wt; by rewrite Hew). rewrite Ee.
        case_decide; [by rewrite vset_ok by (by eapply lookup_lt_Some)|].
        rewrite Ht in Hx0 by lia. injection Hx0 as <-. rewrite oadd_0 in Hx. simpl. symmetry. by apply list_insert_id. }
    intros t (Lt & H1 & H4). simpl. simpl in Lt.
    split; auto.
    + apply swf_total; [by apply swf_total|lia].
    + exists mw. split; [done|]. simpl. by rewrite Qi.
    + intros N. by rewrite El in N.
    + intros _ q y Hy. simpl in Hy. pose proof (lookup_lt_Some _ _ _ Hy). rewrite H1 in Hy by (apply elem_of_seq; lia).
      injection Hy as <-. simpl. rewrite Pe, <- tbase_none. case_decide; [naive_solver|].
      destruct (tbase u q) as [z|] eqn:Ez; simpl; [|naive_solver].
      assert (z = 0) as ->. { unfold tbase in Ez. destruct (masks pb); [case_decide|]; naive_solver. }
      split; [done|]. intros [?|[?|[? _]]]; [done|lia|done].
    + intros q y Hy. simpl in Hy. pose proof (lookup_lt_Some _ _ _ Hy). rewrite H1 in Hy by (apply elem_of_seq; lia).
      injection Hy as <-. case_decide; [done|]. apply tval_le.
  - simpl. split; auto.
    + by apply swf_total.
    + exists mw. split; [done|]. simpl. by rewrite Qi.
    + intros N. rewrite N in En. done.
    + intros q y Hy. simpl in Hy. pose proof (lookup_lt_Some _ _ _ Hy). rewrite Ht in Hy by lia. injection Hy as <-. apply tval_le.
Qed.

Lemma prepare_spec u b : (u < nv pb + nf pb)%nat -> swf pb b -> wpo ov (prepare_root e nbrs wbd em u b) (fun b' => prepared u nbrs b b').
Proof.
  intros Lu S. unfold prepare_root. destruct (parallel e) eqn:E; [by apply parallel_spec|by apply serial_spec].
Qed.
End prep.
