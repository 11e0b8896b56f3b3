(** Proofs about neighbour lists and union-find. *)
From stdpp Require Import base list numbers relations sorting.
From Verif Require Import Base GraphModel SpecGraph.

Lemma sinsert_elem x l y : y ∈ sinsert x l <-> y = x \/ y ∈ l.
Proof.
  induction l as [|z l IH]; simpl.
  - rewrite elem_of_list_singleton. set_solver.
  - repeat case_decide; rewrite ?elem_of_cons, ?IH; subst; rewrite ?elem_of_cons; tauto.
Qed.
Lemma sinsert_incr x l : increasing l -> increasing (sinsert x l).
Proof.
  unfold increasing. induction 1 as [|z l S IH F]; simpl.
  - repeat constructor.
  - repeat case_decide; subst.
    + constructor; [by constructor|]. constructor; [done|].
      rewrite Forall_forall in F |- *. intros w Hw. specialize (F w Hw). lia.
    + by constructor.
    + constructor; [done|]. apply Forall_forall. intros w. rewrite sinsert_elem.
      intros [->|Hw]; [lia|]. rewrite Forall_forall in F. auto.
Qed.
Lemma increasing_nodup l : increasing l -> NoDup l.
Proof.
  induction 1 as [|z l S IH F]; constructor; [|done].
  intros Hz. rewrite Forall_forall in F. specialize (F _ Hz). lia.
Qed.
Lemma increasing_filter (P : nat -> Prop) `{forall x, Decision (P x)} l : increasing l -> increasing (filter P l).
Proof.
  unfold increasing. induction 1 as [|z l S IH F]; [constructor|].
  rewrite filter_cons. case_decide; [|done]. constructor; [done|].
  rewrite Forall_forall in F |- *. intros w (_ & Hw)%elem_of_list_filter. auto.
Qed.

Lemma nb_add_spec n nb x y : length nb = n -> x < n ->
  (forall i l, nb !! i = Some l -> increasing l) ->
  exists nb', nb_add nb x y = Ok nb' /\ length nb' = n /\
    (forall i l, nb' !! i = Some l -> increasing l) /\
    forall i j, (exists l, nb' !! i = Some l /\ j ∈ l) <-> (i = x /\ j = y) \/ (exists l, nb !! i = Some l /\ j ∈ l).
Proof.
  intros Ln Hx I. unfold nb_add. destruct (lookup_lt_is_Some_2 nb x) as [l E]; [lia|].
  rewrite (vget_ok _ _ _ E). simpl. rewrite vset_ok by lia. eexists; split; [done|].
  rewrite insert_length. split; [done|]. split.
  - intros i l'. destruct (decide (i = x)) as [->|N].
    + rewrite list_lookup_insert by lia. intros [= <-]. eapply sinsert_incr, I, E.
    + rewrite list_lookup_insert_ne by done. apply I.
  - intros i j. destruct (decide (i = x)) as [->|N].
    + rewrite list_lookup_insert by lia. split.
      * intros (? & [= <-] & [->|Hj]%sinsert_elem); [by left|]. right; eauto.
      * intros [(_ & ->)|(l' & El & Hj)]; (eexists; split; [done|]); apply sinsert_elem; [by left|].
        right. congruence.
    + rewrite list_lookup_insert_ne by done. split; [by right|]. intros [[]|]; done.
Qed.

(** neighbour lists (C15) *)
Lemma get_neighbors_spec g sources sinks mask relabel S K M R :
  graph_wf g ->
  (forall x, x < gn g -> sources x = Ok (S x) /\ sinks x = Ok (K x) /\ mask x = Ok (M x) /\ relabel x = Ok (R x) /\ R x < gn g) ->
  exists nb, get_neighbors g sources sinks mask relabel = Ok nb /\ length nb = gn g /\
    (forall i l, nb !! i = Some l -> increasing l) /\
    forall i j, (exists l, nb !! i = Some l /\ j ∈ l) <->
      i <> j /\ exists x y, R x = i /\ R y = j /\ S y = false /\ K x = false /\
        (((x, y) ∈ ge g /\ M x = true) \/ ((y, x) ∈ ge g /\ M y = true)).
Proof.
  intros W T. unfold get_neighbors.
  edestruct (foldM_inv (fun nb '(a, b) =>
      let! m := mask a in
      if (m : bool) then
        let! ra := relabel a in
        let! rb := relabel b in
        let! sb := sources b in
        let! ka := sinks a in
        let! nb := (if negb sb && negb ka then nb_add nb ra rb else Ok nb) in
        let! sa := sources a in
        let! kb := sinks b in
        if negb sa && negb kb then nb_add nb rb ra else Ok nb
      else Ok nb)
    (fun es nb => length nb = gn g /\ (forall i l, nb !! i = Some l -> increasing l) /\
      forall i j, (exists l, nb !! i = Some l /\ j ∈ l) <->
        exists x y, R x = i /\ R y = j /\ S y = false /\ K x = false /\
          (((x, y) ∈ es /\ M x = true) \/ ((y, x) ∈ es /\ M y = true))) (rev (ge g)) (replicate (gn g) []))
    as (nb & -> & Ln & I & E).
  - split; [apply replicate_length|]. split.
    + intros i l (-> & _)%lookup_replicate. constructor.
    + intros i j. split.
      * intros (l & (-> & _)%lookup_replicate & []%elem_of_nil).
      * intros (x & y & _ & _ & _ & _ & [([]%elem_of_nil & _)|([]%elem_of_nil & _)]).
  - intros dn [a b] rest nb Eg (Ln & I & E).
    assert (Hab : (a, b) ∈ ge g).
    { apply elem_of_list_In, in_rev. rewrite Eg. apply in_or_app. right. by left. }
    destruct (W _ _ Hab) as [Ha Hb].
    destruct (T a Ha) as (Sa & Ka & Ma & Ra & Na). destruct (T b Hb) as (Sb & Kb & Mb & Rb & Nb).
    rewrite Ma. simpl. destruct (M a) eqn:MA.
    2:{ exists nb. split; [done|]. split; [done|]. split; [done|]. intros i j. rewrite E.
        split; intros (x & y & Ex & Ey & Sy & Kx & H); exists x, y; repeat (split; [done|]).
        - rewrite !elem_of_app. tauto.
        - rewrite !elem_of_app, !elem_of_list_singleton in H.
          destruct H as [([|[= -> ->]] & H)|([|[= -> ->]] & H)]; try congruence; tauto. }
    rewrite Ra, Rb, Sb, Ka. simpl.
    assert (A1 : exists nb1, (if negb (S b) && negb (K a) then nb_add nb (R a) (R b) else Ok nb) = Ok nb1 /\
      length nb1 = gn g /\ (forall i l, nb1 !! i = Some l -> increasing l) /\
      forall i j, (exists l, nb1 !! i = Some l /\ j ∈ l) <->
        (i = R a /\ j = R b /\ S b = false /\ K a = false) \/ (exists l, nb !! i = Some l /\ j ∈ l)).
    { destruct (S b); [|destruct (K a)]; simpl.
      - exists nb. repeat (split; [done|]). intros i j. split; [tauto|]. intros [(_ & _ & ? & _)|]; done.
      - exists nb. repeat (split; [done|]). intros i j. split; [tauto|]. intros [(_ & _ & _ & ?)|]; done.
      - destruct (nb_add_spec (gn g) nb (R a) (R b)) as (nb1 & -> & L1 & I1 & E1); [done..|].
        exists nb1. repeat (split; [done|]). intros i j. rewrite E1. tauto. }
    destruct A1 as (nb1 & -> & L1 & I1 & E1). simpl. rewrite Sa, Kb. simpl.
    assert (A2 : exists nb2, (if negb (S a) && negb (K b) then nb_add nb1 (R b) (R a) else Ok nb1) = Ok nb2 /\
      length nb2 = gn g /\ (forall i l, nb2 !! i = Some l -> increasing l) /\
      forall i j, (exists l, nb2 !! i = Some l /\ j ∈ l) <->
        (i = R b /\ j = R a /\ S a = false /\ K b = false) \/ (exists l, nb1 !! i = Some l /\ j ∈ l)).
    { destruct (S a); [|destruct (K b)]; simpl.
      - exists nb1. repeat (split; [done|]). intros i j. split; [tauto|]. intros [(_ & _ & ? & _)|]; done.
      - exists nb1. repeat (split; [done|]). intros i j. split; [tauto|]. intros [(_ & _ & _ & ?)|]; done.
      - destruct (nb_add_spec (gn g) nb1 (R b) (R a)) as (nb2 & -> & L2 & I2 & E2); [done..|].
        exists nb2. repeat (split; [done|]). intros i j. rewrite E2. tauto. }
    destruct A2 as (nb2 & -> & L2 & I2 & E2). exists nb2. split; [done|]. split; [done|]. split; [done|].
    intros i j. rewrite E2, E1, E. split.
    + intros [(-> & -> & ? & ?)|[(-> & -> & ? & ?)|(x & y & Ex & Ey & Sy & Kx & H)]].
      * exists b, a. rewrite !elem_of_app, !elem_of_list_singleton. tauto.
      * exists a, b. rewrite !elem_of_app, !elem_of_list_singleton. tauto.
      * exists x, y. rewrite !elem_of_app. tauto.
    + intros (x & y & Ex & Ey & Sy & Kx & H). rewrite !elem_of_app, !elem_of_list_singleton in H.
      destruct H as [([H|[= -> ->]] & Hm)|([H|[= -> ->]] & Hm)].
      * right; right. exists x, y. tauto.
      * right; left. subst. tauto.
      * right; right. exists x, y. tauto.
      * left. subst. tauto.
  - simpl. eexists; split; [done|]. rewrite imap_length. split; [done|]. split.
    + intros i l. rewrite list_lookup_imap. destruct (nb !! i) as [l'|] eqn:El; simpl; [|done].
      intros [= <-]. apply increasing_filter. eauto.
    + intros i j. split.
      * intros (l & El & Hj). rewrite list_lookup_imap in El. destruct (nb !! i) as [l'|] eqn:El'; simpl in El; [|done].
        injection El as <-. apply elem_of_list_filter in Hj as [N Hj].
        assert (H : exists l, nb !! i = Some l /\ j ∈ l) by eauto. apply E in H as (x & y & Ex & Ey & Sy & Kx & H).
        split; [done|]. exists x, y. repeat (split; [done|]).
        rewrite !elem_of_list_In, <- !in_rev, <- !elem_of_list_In in H. done.
      * intros (N & x & y & Ex & Ey & Sy & Kx & H).
        assert (G : exists l, nb !! i = Some l /\ j ∈ l).
        { apply E. exists x, y. repeat (split; [done|]). by rewrite !elem_of_list_In, <- !in_rev, <- !elem_of_list_In. }
        destruct G as (l & El & Hj). exists (filter (fun x => x <> i) l).
        rewrite list_lookup_imap, El. split; [done|]. apply elem_of_list_filter. auto.
Qed.

(** ** union-find *)
Inductive rootd (par : list nat) : nat -> nat -> nat -> Prop :=
  | rootd_0 x : par !! x = Some x -> rootd par x x 0
  | rootd_S x p r d : par !! x = Some p -> p <> x -> rootd par p r d -> rootd par x r (S d).
Definition Root par x r := exists d, rootd par x r d.

Lemma rootd_det par x r d r' d' : rootd par x r d -> rootd par x r' d' -> r = r' /\ d = d'.
Proof.
  intros H. revert r' d'. induction H as [x E|x p r d E N H IH]; intros r' d' H'; inversion H'; subst; try congruence; try done.
  assert (p0 = p) by congruence. subst. by destruct (IH _ _ H2) as [-> ->].
Qed.
Lemma Root_det par x r r' : Root par x r -> Root par x r' -> r = r'.
Proof. intros [d H] [d' H']. by destruct (rootd_det _ _ _ _ _ _ H H'). Qed.
Lemma rootd_root par x r d : rootd par x r d -> par !! r = Some r.
Proof. induction 1; done. Qed.
Lemma Root_root par x r : Root par x r -> Root par r r.
Proof. intros [d H%rootd_root]. exists 0. by constructor. Qed.
Lemma Root_lt par x r : Root par x r -> x < length par /\ r < length par.
Proof.
  intros [d H]. split; [|by eapply lookup_lt_Some, rootd_root].
  destruct H; by eapply lookup_lt_Some.
Qed.
Lemma rootd_path par x r d : rootd par x r d ->
  exists l, length l = S d /\ NoDup l /\ (forall y, y ∈ l -> y < length par) /\
    forall y, y ∈ l -> exists k, k <= d /\ rootd par y r k.
Proof.
  induction 1 as [x E|x p r d E N H IH].
  - exists [x]. split; [done|]. split; [apply NoDup_singleton|]. split.
    + intros y ->%elem_of_list_singleton. by eapply lookup_lt_Some.
    + intros y ->%elem_of_list_singleton. exists 0. split; [done|]. by constructor.
  - destruct IH as (l & L & ND & B & K). exists (x :: l). simpl. split; [lia|]. split.
    + constructor; [|done]. intros Hx. destruct (K x Hx) as (k & Hk & Hr).
      assert (Hx' : rootd par x r (S d)) by by econstructor.
      destruct (rootd_det _ _ _ _ _ _ Hr Hx') as [_ ->]. lia.
    + split.
      * intros y [->|Hy]%elem_of_cons; [by eapply lookup_lt_Some|auto].
      * intros y [->|Hy]%elem_of_cons; [exists (S d); split; [done|]; by econstructor|].
        destruct (K y Hy) as (k & ? & ?). exists k. split; [lia|done].
Qed.
Lemma rootd_depth par x r d : rootd par x r d -> S d <= length par.
Proof.
  intros (l & L & ND & B & _)%rootd_path. rewrite <- L, <- (seq_length (length par) 0).
  apply submseteq_length, NoDup_submseteq; [done|]. intros y Hy. apply elem_of_seq. specialize (B y Hy). lia.
Qed.

Lemma compress par x r : Root par x r -> x <> r -> forall y r', Root par y r' -> Root (<[x:=r]> par) y r'.
Proof.
  intros Hx N y r' [d H]. induction H as [y E|y p r' d E N' H IH].
  - exists 0. constructor. rewrite list_lookup_insert_ne; [done|]. intros ->.
    apply N. apply (Root_det par y); [|done]. exists 0. by constructor.
  - destruct (decide (y = x)) as [->|Ny].
    + assert (r' = r) by (eapply Root_det; [eexists; by econstructor|done]). subst.
      exists 1. econstructor.
      * rewrite list_lookup_insert; [done|]. by eapply lookup_lt_Some.
      * done.
      * constructor. rewrite list_lookup_insert_ne by done. destruct Hx as [? Hx]. by eapply rootd_root.
    + destruct IH as [d' IH]. exists (S d'). econstructor; [|done|done]. by rewrite list_lookup_insert_ne.
Qed.

Lemma uf_find_spec fuel par x r d : rootd par x r d -> d < fuel ->
  exists par', uf_find fuel par x = Ok (r, par') /\ length par' = length par /\
    forall y r', Root par y r' -> Root par' y r'.
Proof.
  intros H. revert fuel. induction H as [x E|x p r d E N H IH]; intros [|fuel] Hf; try lia; simpl.
  - rewrite (vget_ok _ _ _ E). simpl. rewrite decide_True by done. eauto.
  - rewrite (vget_ok _ _ _ E). simpl. rewrite decide_False by done.
    destruct (IH fuel) as (par' & -> & L & P); [lia|]. simpl.
    rewrite vset_ok by (rewrite L; by eapply lookup_lt_Some). simpl.
    assert (Hx : Root par x r) by (eexists; by econstructor).
    eexists; split; [done|]. rewrite insert_length. split; [done|].
    intros y r' Hy. apply compress; [by apply P| |by apply P].
    intros ->. apply N. destruct Hx as [dx Hx]. apply rootd_root in Hx. congruence.
Qed.

(** [par] stores the connectivity of the edges [es] *)
Definition eset (es : list (nat * nat)) (u v : nat) : Prop := (u, v) ∈ es \/ (v, u) ∈ es.
Definition ufwf (n : nat) (es : list (nat * nat)) (par : list nat) : Prop :=
  length par = n /\ (forall x, x < n -> exists r, Root par x r) /\
  forall x y r s, Root par x r -> Root par y s -> r = s <-> rtc (eset es) x y.

Lemma uf_find_ok n es par x : ufwf n es par -> x < n ->
  exists r par', uf_find (S n) par x = Ok (r, par') /\ Root par x r /\ ufwf n es par' /\
    forall y s, Root par y s -> Root par' y s.
Proof.
  intros (L & T & C) Hx. destruct (T x Hx) as [r [d H]].
  destruct (uf_find_spec (S n) par x r d H) as (par' & E & L' & P).
  { apply rootd_depth in H. lia. }
  exists r, par'. split; [done|]. split; [by exists d|]. split; [|done].
  split; [lia|]. split.
  - intros y Hy. destruct (T y Hy) as [s Hs]. eauto.
  - intros y z s t Hy Hz.
    destruct (T y) as [s' Hs']; [apply Root_lt in Hy; lia|]. destruct (T z) as [t' Ht']; [apply Root_lt in Hz; lia|].
    assert (s' = s) by eauto using Root_det. assert (t' = t) by eauto using Root_det. subst. eauto.
Qed.

Lemma eset_sym es : Symmetric (eset es).
Proof. intros x y []; [by right|by left]. Qed.
Lemma rtc_eset_sym es x y : rtc (eset es) x y -> rtc (eset es) y x.
Proof. induction 1 as [|x y z H _ IH]; [constructor|]. eapply rtc_r; [exact IH|]. by apply eset_sym. Qed.

Lemma rtc_snoc es x y u v : rtc (eset (es ++ [(x, y)])) u v <->
  rtc (eset es) u v \/ (rtc (eset es) u x /\ rtc (eset es) y v) \/ (rtc (eset es) u y /\ rtc (eset es) x v).
Proof.
  assert (M : forall a b, rtc (eset es) a b -> rtc (eset (es ++ [(x, y)])) a b).
  { intros a b. apply rtc_subrel. intros ? ? []; [left|right]; apply elem_of_app; by left. }
  assert (X : eset (es ++ [(x, y)]) x y) by (left; apply elem_of_app; right; by apply elem_of_list_singleton).
  split.
  - induction 1 as [u|u w v H _ IH]; [left; constructor|].
    unfold eset in H. rewrite !elem_of_app, !elem_of_list_singleton in H.
    destruct H as [[H|[= -> ->]]|[H|[= -> ->]]].
    + destruct IH as [IH|[[]|[]]]; [left|right;left|right;right]; try split; try done; eapply rtc_l; eauto; by left.
    + destruct IH as [IH|[[]|[]]]; [right; left; split; [constructor|done]|right; left; split; [constructor|done]|by left].
    + destruct IH as [IH|[[]|[]]]; [left|right;left|right;right]; try split; try done; eapply rtc_l; eauto; by right.
    + destruct IH as [IH|[[]|[]]]; [right; right; split; [constructor|done]|by left|right; right; split; [constructor|done]].
  - intros [H|[[H1 H2]|[H1 H2]]]; [auto| |].
    + etrans; [by apply M|]. eapply rtc_l; [exact X|]. auto.
    + etrans; [by apply M|]. eapply rtc_l; [by apply eset_sym|]. auto.
Qed.

(** linking root [a] under root [b] *)
Lemma link_root par a b : par !! a = Some a -> par !! b = Some b -> a <> b ->
  forall y r, Root par y r -> Root (<[a:=b]> par) y (if decide (r = a) then b else r).
Proof.
  intros Ea Eb N y r [d H]. induction H as [y E|y p r d E N' H IH].
  - destruct (decide (y = a)) as [->|Ny].
    + exists 1. econstructor; [apply list_lookup_insert; by eapply lookup_lt_Some|done|].
      constructor. by rewrite list_lookup_insert_ne.
    + exists 0. constructor. by rewrite list_lookup_insert_ne.
  - destruct IH as [d' IH]. exists (S d'). econstructor; [|done|exact IH].
    rewrite list_lookup_insert_ne; [done|congruence].
Qed.

Lemma link_ok n es par x y xr yr a b : ufwf n es par -> Root par x xr -> Root par y yr -> xr <> yr ->
  (a = xr /\ b = yr) \/ (a = yr /\ b = xr) -> ufwf n (es ++ [(x, y)]) (<[a:=b]> par).
Proof.
  intros (L & T & C) Hx Hy N AB.
  assert (Ea : par !! a = Some a).
  { destruct AB as [[-> ->]|[-> ->]]; [destruct Hx as [? Hx]|destruct Hy as [? Hy]]; by eapply rootd_root. }
  assert (Eb : par !! b = Some b).
  { destruct AB as [[-> ->]|[-> ->]]; [destruct Hy as [? Hy]|destruct Hx as [? Hx]]; by eapply rootd_root. }
  assert (Nab : a <> b) by (destruct AB as [[-> ->]|[-> ->]]; congruence).
  pose proof (link_root par a b Ea Eb Nab) as LR.
  split; [by rewrite insert_length|]. split.
  - intros z Hz. destruct (T z Hz) as [r Hr]. eauto.
  - intros u v r s Hu Hv. destruct (T u) as [r0 Hu0]; [apply Root_lt in Hu; rewrite insert_length in Hu; lia|].
    destruct (T v) as [s0 Hv0]; [apply Root_lt in Hv; rewrite insert_length in Hv; lia|].
    pose proof (Root_det _ _ _ _ Hu (LR _ _ Hu0)) as ->. pose proof (Root_det _ _ _ _ Hv (LR _ _ Hv0)) as ->.
    rewrite rtc_snoc.
    rewrite <- (C _ _ _ _ Hu0 Hv0), <- (C _ _ _ _ Hu0 Hx), <- (C _ _ _ _ Hy Hv0), <- (C _ _ _ _ Hu0 Hy), <- (C _ _ _ _ Hx Hv0).
    destruct AB as [[-> ->]|[-> ->]]; repeat case_decide; subst; try lia.
Qed.

Lemma uf_union_ok n es par rank x y : ufwf n es par -> length rank = n -> x < n -> y < n ->
  exists par' rank', uf_union (S n) par rank x y = Ok (par', rank') /\ length rank' = n /\ ufwf n (es ++ [(x, y)]) par'.
Proof.
  intros W Lr Hx Hy. unfold uf_union.
  destruct (uf_find_ok n es par x W Hx) as (xr & par1 & -> & Rx & W1 & P1). cbn [rbind].
  destruct (uf_find_ok n es par1 y W1 Hy) as (yr & par2 & -> & Ry & W2 & P2). cbn [rbind].
  assert (Rx2 : Root par2 x xr) by auto. assert (Ry2 : Root par2 y yr) by auto.
  pose proof (Root_lt _ _ _ Rx2) as [_ Lx]. pose proof (Root_lt _ _ _ Ry2) as [_ Ly].
  assert (L2 : length par2 = n) by apply W2.
  case_decide as D.
  - subst yr. exists par2, rank. split; [done|]. split; [done|]. destruct W2 as (_ & T & C).
    split; [done|]. split; [done|]. intros u v r s Hu Hv. rewrite rtc_snoc, (C _ _ _ _ Hu Hv).
    assert (XY : rtc (eset es) x y) by (by eapply C).
    split; [by left|]. intros [H|[[H1 H2]|[H1 H2]]]; [done| |].
    + etrans; [exact H1|]. by etrans.
    + etrans; [exact H1|]. transitivity x; [by apply rtc_eset_sym|done].
  - destruct (lookup_lt_is_Some_2 rank xr) as [rx E1]; [lia|]. destruct (lookup_lt_is_Some_2 rank yr) as [ry E2]; [lia|].
    rewrite (vget_ok _ _ _ E1), (vget_ok _ _ _ E2). simpl. repeat case_decide; rewrite !vset_ok by lia; simpl.
    + do 2 eexists; split; [done|]. split; [done|]. eapply link_ok; eauto.
    + do 2 eexists; split; [done|]. split; [done|]. eapply link_ok; eauto.
    + do 2 eexists; split; [done|]. rewrite insert_length. split; [done|]. eapply link_ok; eauto.
Qed.

Lemma uf_all_ok g : graph_wf g ->
  exists par rank, uf_all g = Ok (par, rank) /\ length rank = gn g /\ ufwf (gn g) (rev (ge g)) par.
Proof.
  intros W. unfold uf_all.
  edestruct (foldM_inv (fun '(par, rank) '(a, b) => uf_union (S (gn g)) par rank a b)
    (fun es '(par, rank) => length rank = gn g /\ ufwf (gn g) es par) (rev (ge g)) (seq 0 (gn g), replicate (gn g) 0))
    as ([par rank] & -> & H).
  - split; [apply replicate_length|]. split; [apply seq_length|].
    assert (Z : forall x, x < gn g -> rootd (seq 0 (gn g)) x x 0).
    { intros x Hx. constructor. apply lookup_seq. lia. }
    split; [intros x Hx; exists x, 0; auto|].
    intros x y r s Hx Hy.
    assert (r = x) as -> by (eapply Root_det; [done|]; exists 0; apply Z; apply Root_lt in Hx; rewrite seq_length in Hx; lia).
    assert (s = y) as -> by (eapply Root_det; [done|]; exists 0; apply Z; apply Root_lt in Hy; rewrite seq_length in Hy; lia).
    split; [by intros ->|]. intros H. destruct H as [|? ? ? [[]%elem_of_nil|[]%elem_of_nil]]; done.
  - intros dn [a b] rest [par rank] Eg [Lr Wf].
    assert (Hab : (a, b) ∈ ge g).
    { apply elem_of_list_In, in_rev. rewrite Eg. apply in_or_app. right. by left. }
    destruct (W _ _ Hab) as [Ha Hb].
    destruct (uf_union_ok _ _ _ _ _ _ Wf Lr Ha Hb) as (par' & rank' & -> & ? & ?). by eexists.
  - exists par, rank. split; [done|]. apply H.
Qed.

Lemma eset_rev es x y : rtc (eset (rev es)) x y <-> rtc (eset es) x y.
Proof.
  split; apply rtc_subrel; intros a b; unfold eset; by rewrite !elem_of_list_In, <- !in_rev.
Qed.

(** the members of each root *)
Lemma collect_ok n es par : ufwf n es par ->
  exists cs, collect_comps n par = Ok cs /\ length cs = n /\
    forall r c, cs !! r = Some c -> NoDup c /\ forall x, x ∈ c <-> x < n /\ Root par x r.
Proof.
  intros W. unfold collect_comps.
  edestruct (foldM_inv (fun '(comps, par) x =>
      let! (r, par) := uf_find (S n) par x in
      let! c := vget comps r in
      let! comps := vset comps r (c ++ [x]) in
      Ok (comps, par))
    (fun dn '(cs, par') => ufwf n es par' /\ (forall y s, Root par y s -> Root par' y s) /\ length cs = n /\
       forall r c, cs !! r = Some c -> NoDup c /\ forall x, x ∈ c <-> x ∈ dn /\ Root par x r)
    (rev (seq 0 n)) (replicate n [], par)) as ([cs par'] & -> & W' & P & L & H).
  - split; [done|]. split; [done|]. split; [apply replicate_length|].
    intros r c (-> & _)%lookup_replicate. split; [constructor|]. intros x. rewrite elem_of_nil. tauto.
  - intros dn x rest [cs par'] El (W' & P & L & H).
    assert (Hx : x < n /\ x ∉ dn).
    { assert (ND : NoDup (rev (seq 0 n))) by (apply NoDup_ListNoDup, NoDup_rev, NoDup_ListNoDup, NoDup_seq).
      assert (x ∈ rev (seq 0 n)) by (rewrite El; set_solver).
      rewrite El in ND. apply NoDup_app in ND as (_ & ND & _). split; [|intros Hd; apply (ND x Hd); set_solver].
      apply elem_of_list_In, in_rev, elem_of_list_In, elem_of_seq in H0. lia. }
    destruct Hx as [Hx Nx].
    destruct (uf_find_ok n es par' x W' Hx) as (r & par2 & -> & Rx & W2 & P2). cbn [rbind].
    pose proof (Root_lt _ _ _ Rx) as [_ Lr]. destruct W' as (L' & T' & C').
    destruct (lookup_lt_is_Some_2 cs r) as [c Ec]; [lia|]. rewrite (vget_ok _ _ _ Ec). cbn [rbind].
    rewrite vset_ok by lia. simpl. eexists; split; [done|]. split; [done|]. split; [auto|].
    rewrite insert_length. split; [done|].
    destruct W as (_ & T & _). destruct (T x Hx) as [r0 Hr0].
    assert (r0 = r) as -> by eauto using Root_det.
    intros r' c'. destruct (decide (r' = r)) as [->|N].
    + rewrite list_lookup_insert by lia. intros [= <-]. destruct (H _ _ Ec) as [ND K]. split.
      * apply NoDup_app. split; [done|]. split; [|apply NoDup_singleton].
        intros y Hy ->%elem_of_list_singleton. apply K in Hy. tauto.
      * intros y. rewrite !elem_of_app, !elem_of_list_singleton, K. split; [intros [[]| ->]; auto|].
        intros [[|] ?]; auto.
    + rewrite list_lookup_insert_ne by done. intros Ec'. destruct (H _ _ Ec') as [ND K]. split; [done|].
      intros y. rewrite K, elem_of_app, elem_of_list_singleton. split; [intros []; auto|].
      intros [[| ->] ?]; [done|]. exfalso. eauto using Root_det.
  - simpl. eexists; split; [done|]. split; [done|]. intros r c Ec. destruct (H _ _ Ec) as [ND K]. split; [done|].
    intros x. rewrite K, elem_of_list_In, <- in_rev, <- elem_of_list_In, elem_of_seq. split; intros []; split; auto; lia.
Qed.
