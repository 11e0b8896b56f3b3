(** The search from one neighbour chain. *)
From stdpp Require Import base list numbers gmap.
From Verif Require Import Base Wp ChainModel ChainProofs ChainProofs2 EmbModel EmbProofs QueueModel QueueProofs PathModel SpecPath.
Local Open Scope Z_scope.

Definition nid (z : pnode) : nat * Z := (pnode_id z, pdist z).

Lemma nodup_bound (l : list nat) n : NoDup l -> (forall x, x ∈ l -> (x < n)%nat) -> (length l <= n)%nat.
Proof.
  intros N H. rewrite <- (seq_length n 0). apply submseteq_length, NoDup_submseteq; [done|].
  intros x Hx. apply elem_of_seq. pose proof (H x Hx). lia.
Qed.

Section dsc.
Context (pb : problem).
Notation adj := (adjq pb).
Context (fx : bool) (oth ok : nat -> Prop) (w : nat -> Z).

(** discovered qubits, in order of discovery, with their costs *)
Record dsc (par : list (option nat)) (ds : list (nat * Z)) : Prop := {
  d_nd : NoDup ds.*1;
  d_lt : forall x c, (x, c) ∈ ds -> (x < nq pb)%nat;
  d_par : forall i x c, ds !! i = Some (x, c) ->
     (oth x /\ par !! x = Some None /\ c = 0) \/
     (~ oth x /\ ok x /\ exists y, par !! x = Some (Some y) /\ adj x y /\
        ((fx = true /\ oth y /\ c = w x) \/ exists j cy, (j < i)%nat /\ ds !! j = Some (y, cy) /\ c = cy + w x))
}.

Lemma dsc_nil par : dsc par [].
Proof. split; [constructor|intros x c H; by apply elem_of_nil in H|done]. Qed.

Lemma dsc_len par ds : dsc par ds -> (length ds <= nq pb)%nat.
Proof.
  intros D. rewrite <- (fmap_length fst). apply nodup_bound; [by eapply d_nd|].
  intros x Hx. apply elem_of_list_fmap in Hx as ([y c] & -> & H). by eapply d_lt.
Qed.
Lemma dsc_room par ds x : dsc par ds -> (x < nq pb)%nat -> x ∉ ds.*1 -> (length ds < nq pb)%nat.
Proof.
  intros D L N. rewrite <- (fmap_length fst).
  assert ((length (x :: ds.*1) <= nq pb)%nat); [|simpl in *; lia].
  apply nodup_bound.
  - constructor; [done|by eapply d_nd].
  - intros y Hy. apply elem_of_cons in Hy as [->|Hy]; [done|].
    apply elem_of_list_fmap in Hy as ([z c] & -> & H). by eapply d_lt.
Qed.

Lemma dsc_snoc par ds x c o : dsc par ds -> (x < nq pb)%nat -> x ∉ ds.*1 -> (x < length par)%nat ->
  ((oth x /\ o = None /\ c = 0) \/
   (~ oth x /\ ok x /\ exists y, o = Some y /\ adj x y /\
      ((fx = true /\ oth y /\ c = w x) \/ exists cy, (y, cy) ∈ ds /\ c = cy + w x))) ->
  dsc (<[x:=o]> par) (ds ++ [(x, c)]).
Proof.
  intros D Lx Nx Lp H. split.
  - rewrite fmap_app. apply NoDup_app. split; [by eapply d_nd|]. split; [|apply NoDup_singleton].
    intros y Hy ->%elem_of_list_singleton. done.
  - intros y cy Hy. apply elem_of_app in Hy as [Hy|Hy]; [by eapply d_lt|].
    apply elem_of_list_singleton in Hy as [= -> ->]. done.
  - intros i y cy Hi. apply lookup_app_Some in Hi as [Hi|[Hi1 Hi2]].
    + assert (y <> x). { intros ->. apply Nx, elem_of_list_fmap. exists (x, cy). split; [done|by eapply elem_of_list_lookup_2]. }
      rewrite list_lookup_insert_ne by done.
      destruct (d_par _ _ D i y cy Hi) as [?|(N & O & y' & P & A & Q)]; [by left|right].
      split; [done|]. split; [done|]. exists y'. split; [done|]. split; [done|].
      destruct Q as [?|(j & cj & Lj & Hj & ?)]; [by left|right].
      exists j, cj. split; [done|]. split; [|done]. by apply lookup_app_l_Some.
    + destruct (i - length ds)%nat as [|m] eqn:Em; [|done]. simpl in Hi2. injection Hi2 as <- <-.
      rewrite list_lookup_insert by done.
      destruct H as [(? & -> & ?)|(N & O & y' & -> & A & Q)]; [by left|right].
      split; [done|]. split; [done|]. exists y'. split; [done|]. split; [done|].
      destruct Q as [?|(cy' & Hy & ?)]; [by left|right].
      apply elem_of_list_lookup in Hy as [j Hj]. exists j, cy'. split; [|split; [by apply lookup_app_l_Some|done]].
      apply lookup_lt_Some in Hj. lia.
Qed.

Lemma dsc_wp par ds : dsc par ds -> forall i x c, ds !! i = Some (x, c) -> exists n, wp adj ok par oth n x.
Proof.
  intros D i. induction i as [i IH] using lt_wf_ind. intros x c Hi.
  destruct (d_par _ _ D i x c Hi) as [(O & P & _)|(N & O & y & P & A & Q)].
  - exists 0%nat. by constructor.
  - assert (exists n, wp adj ok par oth n y) as [n W].
    { destruct Q as [(_ & Oy & _)|(j & cy & Lj & Hj & _)]; [exists 0%nat; by constructor|]. by eapply IH. }
    exists (S n). by econstructor.
Qed.
Lemma dsc_start par ds x c : dsc par ds -> (x, c) ∈ ds -> wp_start adj ok par oth x.
Proof.
  intros D H. apply elem_of_list_lookup in H as [i Hi].
  destruct (d_par _ _ D i x c Hi) as [(O & P & _)|(N & O & y & P & A & Q)]; [by left|right].
  destruct (dsc_wp _ _ D i x c Hi) as [[|n] W]; [|eauto]. by inversion W.
Qed.
(** parents of non-chain positions may change *)
Lemma dsc_insert par ds x o : dsc par ds -> x ∉ ds.*1 -> dsc (<[x:=o]> par) ds.
Proof.
  intros D N. split; [by eapply d_nd|by eapply d_lt|]. intros i y c Hi.
  assert (y <> x). { intros ->. apply N, elem_of_list_fmap. exists (x, c). split; [done|by eapply elem_of_list_lookup_2]. }
  rewrite list_lookup_insert_ne by done. by eapply d_par.
Qed.
Lemma dsc_cost par ds M : dsc par ds -> 0 <= M -> (forall x, (x < nq pb)%nat -> w x <= M) ->
  forall i x c, ds !! i = Some (x, c) -> c <= (Z.of_nat i + 1) * M.
Proof.
  intros D HM Hw i. induction i as [i IH] using lt_wf_ind. intros x c Hi.
  assert (Lx : (x < nq pb)%nat) by (eapply d_lt; [done|by eapply elem_of_list_lookup_2]).
  pose proof (Hw x Lx).
  destruct (d_par _ _ D i x c Hi) as [(_ & _ & ->)|(_ & _ & y & _ & _ & [(_ & _ & ->)|(j & cy & Lj & Hj & ->)])]; [nia|nia|].
  pose proof (IH j Lj y cy Hj). nia.
Qed.
End dsc.
Lemma dsc_weaken pb fx oth (ok ok' : nat -> Prop) w par ds : (forall x, ok x -> ok' x) -> dsc pb fx oth ok w par ds -> dsc pb fx oth ok' w par ds.
Proof. intros H []. split; auto. intros i x c Hi. destruct (d_par0 i x c Hi) as [?|(? & ? & ?)]; [by left|right; auto]. Qed.


Section search.
Context (pb : problem) (PW : pb_wf pb) (em : emb) (v : nat) (ch : chain).
Context (qwt : list Z) (pm : list nat) (wbd : Z) (ok al : nat -> Prop).
Context (Hch : chains em !! v = Some ch) (Lew : length (eweight em) = (nq pb + nr pb)%nat)
  (Lpm : length pm = nq pb).
Notation fx := (fixedb pb v).
Notation oth := (qin ch).
Context (Oth0 : fx = false -> forall q, oth q -> (q < nq pb)%nat)
  (Oth1 : fx = true -> forall q, oth q -> (nq pb <= q < nq pb + nr pb)%nat).

(** the starting points of a search *)
Definition srcs (tag : bool) (w : nat -> Z) (x : nat) (c : Z) : Prop :=
  if fx then (exists q, oth q /\ nbq pb q x) /\ c = w x /\ al x /\ (tag = true -> wt (eweight em) x = 0)
  else oth x /\ c = 0.

Record ginv (w : nat -> Z) (k : work) (ds pop : list (nat * Z)) : Prop := {
  g_dsc : dsc pb fx oth ok w (wpar k) ds;
  g_perm : ds ≡ₚ pop ++ map nid (qelems (wpq k));
  g_heap : qheap (wpq k);
  g_cnt : qcount (wpq k) = length ds;
  g_size : qsize (wpq k) = nq pb;
  g_lp : length (wpar k) = (nq pb + nr pb)%nat;
  g_lv : length (wvis k) = nq pb;
  g_vis : forall x, x ∈ ds.*1 -> wvis k !! x = Some 1
}.

Lemma ginv_snoc w k ds pop x t c o : ginv w k ds pop -> (x < nq pb)%nat -> x ∉ ds.*1 ->
  ((oth x /\ o = None /\ c = 0) \/
   (~ oth x /\ ok x /\ exists y, o = Some y /\ adjq pb x y /\
      ((fx = true /\ oth y /\ c = w x) \/ exists cy, (y, cy) ∈ ds /\ c = cy + w x))) ->
  exists q', q_emplace (wpq k) (mkNode x t c) = Ok q' /\
    ginv w (mkW (<[x:=o]> (wpar k)) (<[x:=1]> (wvis k)) q') (ds ++ [(x, c)]) pop.
Proof.
  intros G Lx Nx H.
  destruct (q_emplace_ok (wpq k) (mkNode x t c)) as (q' & -> & P & C & S & Hp).
  { rewrite (g_cnt _ _ _ _ G), (g_size _ _ _ _ G). eapply dsc_room; eauto. by eapply g_dsc. }
  exists q'. split; [done|]. split; simpl.
  - eapply dsc_snoc; eauto; [by eapply g_dsc|]. rewrite (g_lp _ _ _ _ G). lia.
  - rewrite P. simpl. rewrite (g_perm _ _ _ _ G) at 1. unfold nid at 2. simpl.
    rewrite <- app_assoc. f_equiv. symmetry. apply Permutation_cons_append.
  - apply Hp. by eapply g_heap.
  - rewrite C, (g_cnt _ _ _ _ G), app_length. simpl. lia.
  - by rewrite S, (g_size _ _ _ _ G).
  - by rewrite insert_length, (g_lp _ _ _ _ G).
  - by rewrite insert_length, (g_lv _ _ _ _ G).
  - intros y Hy. rewrite fmap_app in Hy. destruct (decide (y = x)) as [->|Ny].
    + rewrite list_lookup_insert; [done|]. by rewrite (g_lv _ _ _ _ G).
    + rewrite list_lookup_insert_ne by done. apply (g_vis _ _ _ _ G).
      apply elem_of_app in Hy as [?|Hy]; [done|]. simpl in Hy. by apply elem_of_list_singleton in Hy.
Qed.

(** initialization *)
(** marks of qubits that are not discovered: 0, and -1 outside the area *)
Definition vst (vs : list Z) (ds : list (nat * Z)) : Prop :=
  forall x s, vs !! x = Some s -> x ∈ ds.*1 \/ s = 0 /\ al x \/ s = -1 /\ ~ al x.
Lemma init_spec tag w k : (fx = true -> forall x, (x < nq pb)%nat -> al x -> (tag = true -> wt (eweight em) x = 0) -> ok x) ->
  length (wpar k) = (nq pb + nr pb)%nat -> length (wvis k) = nq pb -> vst (wvis k) [] -> wpq k = q_new (nq pb) ->
  length qwt = nq pb -> (forall x, (x < nq pb)%nat -> w x = if tag then 1 else wt qwt x) ->
  exists k' ds, dijkstra_init pb em qwt pm tag v k = Ok k' /\ ginv w k' ds [] /\
    (forall x c, (x, c) ∈ ds <-> srcs tag w x c) /\
    vst (wvis k') ds.
Proof.
  intros Hok Lp Lv V0 Eq Lq Hw.
  assert (G0 : ginv w k [] []).
  { split; simpl; auto.
    - apply dsc_nil.
    - by rewrite Eq.
    - by rewrite Eq.
    - by rewrite Eq.
    - by rewrite Eq.
    - intros x Hx. by apply elem_of_nil in Hx. }
  unfold dijkstra_init. rewrite (vget_ok _ _ _ Hch). cbn [rbind].
  assert (Gpm : forall x, (x < nq pb)%nat -> exists t, pm !! x = Some t).
  { intros x Hx. apply lookup_lt_is_Some_2. lia. }
  destruct fx eqn:Efx.
  - destruct (foldM_inv (fun k q =>
             let! pr := vset (wpar k) q None in
             let! nb := vget (qnb pb) q in
             foldM (init_fixed_step em qwt pm tag q) nb (mkW pr (wvis k) (wpq k)))
      (fun dn k' => exists ds, ginv w k' ds [] /\
         (forall x c, (x, c) ∈ ds <-> (exists q, q ∈ dn /\ nbq pb q x) /\ c = w x /\ al x /\ (tag = true -> wt (eweight em) x = 0)) /\
         vst (wvis k') ds)
      (cqubits ch) k) as (k' & E & ds & G & S & V).
    + exists []. split; [done|]. split; [|done]. intros x c. split; [intros H; by apply elem_of_nil in H|].
      intros ((q & H & _) & _). by apply elem_of_nil in H.
    + intros dn q rest k1 El (ds & G & S & V).
      assert (Oq : oth q). { apply cqubits_in. rewrite El. apply elem_of_app. right; left. }
      pose proof (Oth1 eq_refl q Oq) as Rq.
      rewrite vset_ok by (rewrite (g_lp _ _ _ _ G); lia). cbn [rbind].
      destruct (lookup_lt_is_Some_2 (qnb pb) q) as [nb Hnb]; [rewrite (pbw_len _ PW); lia|].
      rewrite (vget_ok _ _ _ Hnb). cbn [rbind].
      assert (G1 : ginv w (mkW (<[q:=None]> (wpar k1)) (wvis k1) (wpq k1)) ds []).
      { destruct G. split; simpl; auto.
        - apply dsc_insert; [done|]. intros Hq. apply elem_of_list_fmap in Hq as ([q' c] & Heq & Hq). simpl in Heq. subst q'.
          apply (d_lt _ _ _ _ _ _ _ g_dsc0) in Hq. lia.
        - by rewrite insert_length. }
      destruct (foldM_inv (init_fixed_step em qwt pm tag q)
        (fun dn' k' => exists ds, ginv w k' ds [] /\
         (forall x c, (x, c) ∈ ds <-> ((exists q', q' ∈ dn /\ nbq pb q' x) \/ x ∈ dn') /\ c = w x /\ al x /\ (tag = true -> wt (eweight em) x = 0)) /\
         vst (wvis k') ds)
        nb (mkW (<[q:=None]> (wpar k1)) (wvis k1) (wpq k1))) as (k2 & -> & ds2 & G2 & S2 & V2).
      * exists ds. split; [done|]. split; [|done]. intros x c. rewrite S. split; [naive_solver|].
        intros ([?|H] & ?); [done|]. by apply elem_of_nil in H.
      * intros dn' p rest' k2 El' (ds2 & G2 & S2 & V2).
        assert (Np : nbq pb q p). { exists nb. split; [done|]. rewrite El'. apply elem_of_app. right; left. }
        pose proof (pbw_range _ PW _ _ Np) as Lp'.
        unfold init_fixed_step.
        destruct (lookup_lt_is_Some_2 (wvis k2) p) as [s Hs]; [by rewrite (g_lv _ _ _ _ G2)|].
        rewrite (vget_ok _ _ _ Hs). cbn [rbind]. case_decide as Hz.
        { exists k2. split; [done|]. exists ds2. split; [done|]. split; [|done]. intros x c. rewrite S2.
          split; [intros ([?|?] & ?); (split; [|done]); [by left|right; apply elem_of_app; by left]|].
          intros ([?|Hx] & R1 & R2 & R3); (split; [|done]); [by left|]. apply elem_of_app in Hx as [?|Hx]; [by right|].
          apply elem_of_list_singleton in Hx. subst x.
          assert (Hin : p ∈ ds2.*1) by (destruct (V2 p s Hs) as [?|[[? _]|[_ ?]]]; done). apply elem_of_list_fmap in Hin as ([p' c'] & Heq & Hin). simpl in Heq. subst p'.
          apply S2 in Hin as [? _]. done. }
        destruct (lookup_lt_is_Some_2 qwt p) as [d Hd]; [by rewrite Lq|].
        destruct (lookup_lt_is_Some_2 (eweight em) p) as [we Hwe]; [lia|].
        assert (Hsel : exists go, (if tag then let! w0 := vget (eweight em) p in Ok (bool_decide (w0 = 0), 1)
            else let! d0 := vget qwt p in Ok (true, d0)) = Ok (go, w p) /\
            (go = true <-> (tag = true -> wt (eweight em) p = 0))).
        { rewrite (Hw p Lp'). unfold wt. rewrite Hwe, Hd. simpl. destruct tag.
          - rewrite (vget_ok _ _ _ Hwe). cbn [rbind]. eexists; split; [done|]. rewrite bool_decide_eq_true. naive_solver.
          - rewrite (vget_ok _ _ _ Hd). cbn [rbind]. eexists; split; [done|]. naive_solver. }
        destruct Hsel as (go & -> & Hgo). cbn [rbind].
        assert (Npd : p ∉ ds2.*1). { intros Hin. apply (g_vis _ _ _ _ G2) in Hin. congruence. }
        subst s.
        assert (Alp : al p) by (destruct (V2 p 0 Hs) as [?|[[_ ?]|[? _]]]; done).
        destruct go.
        -- destruct (Gpm p Lp') as [t Ht]. rewrite (vget_ok _ _ _ Ht). cbn [rbind].
           destruct (ginv_snoc w k2 ds2 [] p t (w p) (Some q) G2 Lp' Npd) as (q' & -> & G3).
           { right. split. { intros Op. apply Oth1 in Op; [lia|done]. }
             split; [apply Hok; [done|done|done|by apply Hgo]|]. exists q. split; [done|].
             split; [right; done|]. left. done. }
           cbn [rbind]. rewrite vset_ok by (rewrite (g_lp _ _ _ _ G2); lia). cbn [rbind].
           rewrite vset_ok by (rewrite (g_lv _ _ _ _ G2); lia). cbn [rbind].
           eexists; split; [done|]. eexists; split; [exact G3|]. split.
           ++ intros x c. rewrite elem_of_app, S2, elem_of_list_singleton. split.
              ** intros [([?|?] & ?)|[= -> ->]].
                 --- split; [by left|done]. --- split; [right; apply elem_of_app; by left|done].
                 --- split; [right; apply elem_of_app; right; left|]. split; [done|]. split; [done|]. by apply Hgo.
              ** intros ([?|Hx] & -> & R1 & R2); [left; split; [by left|done]|]. apply elem_of_app in Hx as [?|Hx]; [left; split; [by right|done]|].
                 apply elem_of_list_singleton in Hx. subst x. by right.
           ++ intros x s'. simpl. destruct (decide (x = p)) as [->|Nx].
              ** intros _. left. rewrite fmap_app. apply elem_of_app. right. left.
              ** rewrite list_lookup_insert_ne by done. intros H1. destruct (V2 x s' H1); [left|by right]. rewrite fmap_app. apply elem_of_app. by left.
        -- eexists; split; [done|]. exists ds2. split; [done|]. split; [|done]. intros x c. rewrite S2.
           split; [intros ([?|?] & ?); (split; [|done]); [by left|right; apply elem_of_app; by left]|].
           intros ([?|Hx] & R1 & R2 & R3); (split; [|done]); [by left|]. apply elem_of_app in Hx as [?|Hx]; [by right|].
           apply elem_of_list_singleton in Hx. subst x. by apply Hgo in R3.
      * eexists; split; [done|]. exists ds2. split; [done|]. split; [|done]. intros x c. rewrite S2.
        split; intros (R & R1); (split; [|done]).
        -- destruct R as [(q' & ? & ?)|R]; [exists q'; split; [apply elem_of_app; by left|done]|].
           exists q. split; [apply elem_of_app; right; left|by exists nb].
        -- destruct R as (q' & [Hq'|Hq']%elem_of_app & (l & Hl & Hx)); [left; exists q'; split; [done|by exists l]|].
           apply elem_of_list_singleton in Hq'. subst q'. right. congruence.
    + exists k', ds. split; [done|]. split; [done|]. split; [|done]. intros x c. rewrite S. unfold srcs. rewrite Efx.
      by setoid_rewrite cqubits_in.
  - destruct (foldM_inv (fun k q =>
             let! t := vget pm q in
             let! pq := q_emplace (wpq k) (mkNode q t 0) in
             let! pr := vset (wpar k) q None in
             let! vs := vset (wvis k) q 1 in
             Ok (mkW pr vs pq))
      (fun dn k' => exists ds, ginv w k' ds [] /\
         (forall x c, (x, c) ∈ ds <-> x ∈ dn /\ c = 0) /\
         vst (wvis k') ds)
      (cqubits ch) k) as (k' & E & ds & G & S & V).
    + exists []. split; [done|]. split; [|done]. intros x c. split; [intros H; by apply elem_of_nil in H|].
      intros (H & _). by apply elem_of_nil in H.
    + intros dn q rest k1 El (ds & G & S & V).
      assert (Oq : oth q). { apply cqubits_in. rewrite El. apply elem_of_app. right; left. }
      pose proof (Oth0 eq_refl q Oq) as Rq. destruct (Gpm q Rq) as [t Ht]. rewrite (vget_ok _ _ _ Ht). cbn [rbind].
      assert (Nq : q ∉ ds.*1).
      { intros Hin. apply elem_of_list_fmap in Hin as ([q' c'] & Heq & Hin). simpl in Heq. subst q'. apply S in Hin as [Hin _].
        pose proof (cqubits_nodup ch) as ND. rewrite El in ND. apply NoDup_app in ND as (_ & ND & _). apply (ND q Hin). left. }
      destruct (ginv_snoc w k1 ds [] q t 0 None G Rq Nq) as (q' & -> & G3); [by left|].
      cbn [rbind]. rewrite vset_ok by (rewrite (g_lp _ _ _ _ G); lia). cbn [rbind].
      rewrite vset_ok by (rewrite (g_lv _ _ _ _ G); lia). cbn [rbind].
      eexists; split; [done|]. eexists; split; [exact G3|]. split.
      * intros x c. rewrite !elem_of_app, S, !elem_of_list_singleton. naive_solver.
      * intros x s'. simpl. destruct (decide (x = q)) as [->|Nx].
        -- intros _. left. rewrite fmap_app. apply elem_of_app. right. left.
        -- rewrite list_lookup_insert_ne by done. intros H1. destruct (V x s' H1); [left|by right]. rewrite fmap_app. apply elem_of_app. by left.
    + exists k', ds. split; [done|]. split; [done|]. split; [|done]. intros x c. rewrite S. unfold srcs. rewrite Efx.
      by rewrite cqubits_in.
Qed.

Context (Lq : length qwt = nq pb) (Hw : forall x, (x < nq pb)%nat -> 0 <= wt qwt x <= max_distance).
Context (Hok1 : fx = true -> forall x, (x < nq pb)%nat -> al x -> ok x)
  (Hok2 : forall x, (x < nq pb)%nat -> al x -> wt (eweight em) x < wbd -> ok x).
Context (ov : err -> Prop) (Hov : ov Overflow \/ exists M, 0 <= M /\ (forall x, (x < nq pb)%nat -> wt qwt x <= M) /\ Z.of_nat (nq pb) * M <= max_distance).
Notation w := (wt qwt).

(** qubits a path may enter, and the cost of paths, for the search of the main heuristic *)
Definition admq (x : nat) : Prop := wt (eweight em) x < wbd /\ al x.
Notation pc := (path_cost (srcs false w) (nbq pb) admq w).

Lemma ginv_vis k ds pop x pr : ginv w k ds pop -> (x < nq pb)%nat -> pr = wpar k ->
  ginv w (mkW pr (<[x:=1]> (wvis k)) (wpq k)) ds pop.
Proof.
  intros [] L ->. split; simpl; auto.
  - by rewrite insert_length.
  - intros y Hy. destruct (decide (y = x)) as [->|N].
    + apply list_lookup_insert. lia.
    + rewrite list_lookup_insert_ne by done. auto.
Qed.

Record dinv (k : work) (d : list Z) (ds pop : list (nat * Z)) : Prop := {
  di_g : ginv w k ds pop;
  di_ld : length d = (nq pb + nr pb)%nat;
  di_blk : forall x, wvis k !! x = Some 1 -> x ∈ ds.*1 \/ (wbd <= wt (eweight em) x /\ d !! x = Some max_distance /\ al x);
  di_src : forall x c, srcs false w x c -> x ∈ ds.*1;
  di_ex : forall x c, (x, c) ∈ ds -> pc x c /\ forall c', pc x c' -> c <= c';
  di_rng : forall x c, (x, c) ∈ ds -> 0 <= c <= max_distance;
  di_pop : forall x c, (x, c) ∈ pop -> d !! x = Some c;
  di_max : forall y, y ∈ d -> y <= max_distance;
  di_01 : forall x s, wvis k !! x = Some s -> s = 0 /\ al x \/ s = 1 \/ s = -1 /\ ~ al x;
  di_near : forall x, wvis k !! x = Some 1 -> x ∈ ds.*1 \/ exists y c, (y, c) ∈ ds /\ nbq pb y x
}.
Definition marked (vs : list Z) (p : nat) : Prop := exists s, vs !! p = Some s /\ s <> 0.
Definition popn (k : work) (pop : list (nat * Z)) : Prop :=
  forall x c p, (x, c) ∈ pop -> nbq pb x p -> marked (wvis k) p.

Lemma in_fst {A B} (l : list (A * B)) x : x ∈ l.*1 <-> exists c, (x, c) ∈ l.
Proof.
  rewrite elem_of_list_fmap. split.
  - intros ([y c] & -> & H). by exists c.
  - intros [c H]. by exists (x, c).
Qed.

Lemma pc_nonneg x c : pc x c -> 0 <= c /\ (x < nq pb)%nat.
Proof.
  induction 1 as [x c H|q p c H [IH1 IH2] N A].
  - unfold srcs in H. destruct fx eqn:Ef.
    + destruct H as ((q & _ & N) & -> & _ & _). apply (pbw_range _ PW) in N. split; [|done]. by apply Hw.
    + destruct H as [H ->]. split; [lia|]. by apply Oth0.
  - apply (pbw_range _ PW) in N. split; [|done]. pose proof (Hw p N). lia.
Qed.

Lemma front k d ds pop m : dinv k d ds pop -> popn k pop -> (forall z, z ∈ qelems (wpq k) -> m <= pdist z) ->
  forall x c, pc x c -> c < m -> x ∈ pop.*1.
Proof.
  intros D Pn Hm.
  assert (G : forall x c, pc x c -> c < m -> x ∈ ds.*1 -> x ∈ pop.*1).
  { intros x c Hp Hc Hx. apply in_fst in Hx as [cx Hx].
    rewrite (g_perm _ _ _ _ (di_g _ _ _ _ D)) in Hx. apply elem_of_app in Hx as [Hx|Hx].
    - apply in_fst. by exists cx.
    - apply elem_of_list_fmap in Hx as (z & Ez & Hz). injection Ez as -> ->.
      pose proof (Hm z Hz). assert ((pnode_id z, pdist z) ∈ ds) as Hin.
      { rewrite (g_perm _ _ _ _ (di_g _ _ _ _ D)). apply elem_of_app. right. apply elem_of_list_fmap. by exists z. }
      apply (di_ex _ _ _ _ D) in Hin as [_ Hin]. specialize (Hin c Hp). lia. }
  induction 1 as [x c H|q p c H IH N A]; intros Hc.
  - eapply G; eauto; [by constructor|]. by eapply di_src.
  - pose proof (pbw_range _ PW _ _ N) as Lp. pose proof (Hw p Lp) as Wp.
    assert (Hq : q ∈ pop.*1) by (apply IH; lia). apply in_fst in Hq as [cq Hq].
    pose proof (Pn q cq p Hq N) as Vp.
    destruct A as [A Al]. destruct Vp as (s & Vp & Hs). destruct (di_01 _ _ _ _ D p s Vp) as [[? _]|[->|[_ ?]]]; [done| |done].
    destruct (di_blk _ _ _ _ D p Vp) as [?|[Bk _]]; [|lia].
    eapply G; eauto. by econstructor.
Qed.

Lemma relax_spec z ds0 pop vis0 nb k d :
  qnb pb !! pnode_id z = Some nb ->
  (pnode_id z, pdist z) ∈ ds0 -> dinv k d ds0 pop -> wvis k = vis0 ->
  (forall x c, pc x c -> c < pdist z -> forall p, nbq pb x p -> marked vis0 p) ->
  wpo ov (foldM (relax em wbd qwt pm z) nb (k, d)) (fun '(k', d') => exists ds,
    dinv k' d' ds pop /\ (forall p, marked vis0 p -> marked (wvis k') p) /\
    (forall p, p ∈ nb -> marked (wvis k') p) /\ (forall x, x ∈ ds0 -> x ∈ ds)).
Proof.
  intros Hnb Hz D0 Ev Hf.
  eapply wpr_mono.
  { apply (wpr_foldM _ (fun dn '(k', d') => exists ds,
    dinv k' d' ds pop /\ (forall p, marked vis0 p -> marked (wvis k') p) /\
    (forall p, p ∈ dn -> marked (wvis k') p) /\ (forall x, x ∈ ds0 -> x ∈ ds))).
    { exists ds0. split; [done|]. split; [by rewrite Ev|]. split; [|done]. intros p Hp. by apply elem_of_nil in Hp. }
    intros dn p rest [k1 d1] El (ds & D & Vm & Vd & Hds).
    assert (Np : nbq pb (pnode_id z) p). { exists nb. split; [done|]. rewrite El. apply elem_of_app. right; left. }
    pose proof (pbw_range _ PW _ _ Np) as Lp. pose proof (di_g _ _ _ _ D) as G.
    unfold relax.
    destruct (lookup_lt_is_Some_2 (wvis k1) p) as [s Hs]; [by rewrite (g_lv _ _ _ _ G)|].
    eapply wpr_vget; [done|]. case_decide as Hs0.
    { simpl. exists ds. split; [done|]. split; [done|]. split; [|done]. intros p' Hp'. apply elem_of_app in Hp' as [?|Hp']; [auto|].
      apply elem_of_list_singleton in Hp'. subst p'. by exists s. }
    subst s.
    assert (Alp : al p) by (destruct (di_01 _ _ _ _ D p 0 Hs) as [[_ ?]|[?|[? _]]]; done).
    eapply wpr_vset; [by rewrite (g_lv _ _ _ _ G)|].
    destruct (lookup_lt_is_Some_2 (eweight em) p) as [we Hwe]; [lia|].
    eapply wpr_vget; [done|].
    assert (Npd : p ∉ ds.*1). { intros Hin. apply (g_vis _ _ _ _ G) in Hin. congruence. }
    assert (Vq : forall p', marked (<[p:=1]> (wvis k1)) p' <-> p' = p \/ marked (wvis k1) p').
    { intros p'. unfold marked. destruct (decide (p' = p)) as [->|N].
      - rewrite list_lookup_insert; [naive_solver|]. by rewrite (g_lv _ _ _ _ G).
      - rewrite list_lookup_insert_ne by done. naive_solver. }
    assert (Npop : p ∉ pop.*1).
    { intros Hin. apply Npd. apply in_fst in Hin as [c Hc]. apply in_fst. exists c.
      rewrite (g_perm _ _ _ _ G). apply elem_of_app. by left. }
    case_decide as Hb.
    - eapply wpr_vset; [rewrite (di_ld _ _ _ _ D); lia|]. simpl. exists ds. split.
      { split; simpl.
        - by apply ginv_vis.
        - rewrite insert_length. apply (di_ld _ _ _ _ D).
        - intros x Hx. destruct (decide (x = p)) as [->|N].
          + right. unfold wt. rewrite Hwe. simpl. split; [done|]. split; [|done]. apply list_lookup_insert. rewrite (di_ld _ _ _ _ D). lia.
          + rewrite list_lookup_insert_ne in Hx by done. rewrite list_lookup_insert_ne by done. by eapply di_blk.
        - apply (di_src _ _ _ _ D).
        - apply (di_ex _ _ _ _ D).
        - apply (di_rng _ _ _ _ D).
        - intros x c Hx. rewrite list_lookup_insert_ne; [by apply (di_pop _ _ _ _ D)|].
          intros ->. apply Npop, in_fst. eauto.
        - intros y Hy. apply elem_of_list_lookup in Hy as [i Hi].
          apply list_lookup_insert_Some in Hi as [(-> & <- & _)|(_ & Hi)]; [done|].
          eapply di_max; [done|]. by eapply elem_of_list_lookup_2.
        - intros x s' Hx. apply list_lookup_insert_Some in Hx as [(-> & <- & _)|(_ & Hx)]; [by right; left|]. by eapply di_01.
        - intros x Hx. apply list_lookup_insert_Some in Hx as [(-> & _ & _)|(_ & Hx)]; [|by eapply di_near].
          right. exists (pnode_id z), (pdist z). split; [by apply Hds|done]. }
      split; [intros p' Hp'; apply Vq; right; by apply Vm|]. split; [|done].
      intros p' Hp'. apply Vq. apply elem_of_app in Hp' as [?|Hp']; [right; auto|].
      apply elem_of_list_singleton in Hp'. by left.
    - eapply wpr_vset; [rewrite (g_lp _ _ _ _ G); lia|].
      destruct (lookup_lt_is_Some_2 pm p) as [t Ht]; [by rewrite Lpm|]. eapply wpr_vget; [done|].
      destruct (lookup_lt_is_Some_2 qwt p) as [c Hc]; [by rewrite Lq|]. eapply wpr_vget; [done|].
      assert (Ec : c = w p) by (unfold wt; by rewrite Hc).
      unfold dadd. case_decide as Ho; cbn [rbind]; [|simpl].
      2:{ destruct Hov as [?|(M & HM & HwM & HnM)]; [done|exfalso; apply Ho].
          pose proof (Hds _ Hz) as Hz'. apply elem_of_list_lookup in Hz' as [i Hi].
          pose proof (dsc_cost _ _ _ _ _ _ _ M (g_dsc _ _ _ _ G) HM HwM i _ _ Hi) as B.
          pose proof (dsc_room _ _ _ _ _ _ _ _ (g_dsc _ _ _ _ G) Lp Npd) as R.
          apply lookup_lt_Some in Hi. pose proof (HwM p Lp). nia. }
      assert (Ap : admq p) by (split; [unfold wt; rewrite Hwe; simpl; lia|done]).
      assert (No : ~ oth p).
      { intros Op. destruct fx eqn:Ef.
        - apply Oth1 in Op; [lia|done].
        - apply Npd. apply (di_src _ _ _ _ D p 0). unfold srcs. by rewrite Ef. }
      destruct (ginv_snoc w k1 ds pop p t (pdist z + c) (Some (pnode_id z)) G Lp Npd) as (q' & -> & G2).
      { right. split; [done|]. split; [by apply Hok2; [..|apply Ap]|]. exists (pnode_id z). split; [done|]. split; [by right|].
        right. exists (pdist z). split; [by apply Hds|]. by rewrite Ec. }
      simpl. exists (ds ++ [(p, pdist z + c)]). split.
      { split; simpl; auto.
        - apply (di_ld _ _ _ _ D).
        - intros x Hx. rewrite fmap_app. destruct (decide (x = p)) as [->|N].
          + left. apply elem_of_app. right; left.
          + rewrite list_lookup_insert_ne in Hx by done.
            destruct (di_blk _ _ _ _ D x Hx) as [?|?]; [left; apply elem_of_app; by left|by right].
        - intros x c' Hx. rewrite fmap_app. apply elem_of_app. left. by eapply di_src.
        - intros x c' Hx. apply elem_of_app in Hx as [Hx|Hx]; [by apply (di_ex _ _ _ _ D)|].
          apply elem_of_list_singleton in Hx as [= -> ->]. rewrite Ec. split.
          + econstructor; [|done|done]. eapply (proj1 (di_ex _ _ _ _ D _ _ (Hds _ Hz))).
          + intros c' Hp. inversion Hp as [? ? Hsrc|q p' c'' Hq Nq Aq]; subst.
            * exfalso. apply Npd. by eapply di_src.
            * assert (pdist z <= c''); [|lia]. destruct (decide (c'' < pdist z)) as [Hlt|]; [|lia].
              exfalso. destruct (Vm p (Hf q c'' Hq Hlt p Nq)) as (s' & Hs' & Ns'). congruence.
        - intros x c' Hx. apply elem_of_app in Hx as [Hx|Hx]; [by eapply (di_rng _ _ _ _ D)|].
          apply elem_of_list_singleton in Hx as [= -> ->]. split; [|done].
          pose proof (di_rng _ _ _ _ D _ _ (Hds _ Hz)). pose proof (Hw p Lp). lia.
        - apply (di_pop _ _ _ _ D).
        - apply (di_max _ _ _ _ D).
        - intros x s' Hx. apply list_lookup_insert_Some in Hx as [(-> & <- & _)|(_ & Hx)]; [by right; left|]. by eapply di_01.
        - intros x Hx. apply list_lookup_insert_Some in Hx as [(-> & _ & _)|(_ & Hx)].
          + left. rewrite fmap_app. apply elem_of_app. right; left.
          + destruct (di_near _ _ _ _ D x Hx) as [?|(y & cy & ? & ?)].
            * left. rewrite fmap_app. apply elem_of_app. by left.
            * right. exists y, cy. split; [|done]. apply elem_of_app. by left. }
      split; [intros p' Hp'; apply Vq; right; by apply Vm|]. split.
      + intros p' Hp'. apply Vq. apply elem_of_app in Hp' as [?|Hp']; [right; auto|].
        apply elem_of_list_singleton in Hp'. by left.
      + intros x Hx. apply elem_of_app. left. auto. }
  intros [k' d']. done.
Qed.

Lemma loop_spec fuel : forall k d ds pop, dinv k d ds pop -> popn k pop -> (nq pb < fuel + length pop)%nat ->
  wpo ov (dijkstra_loop fuel pb em wbd qwt pm k d) (fun '(k', d') => exists ds', dinv k' d' ds' ds' /\ popn k' ds').
Proof.
  induction fuel as [|fuel IH]; intros k d ds pop D Pn Hf; pose proof (di_g _ _ _ _ D) as G.
  - simpl. destruct (q_empty (wpq k)) eqn:Eq.
    + simpl. apply q_empty_elems in Eq. pose proof (g_perm _ _ _ _ G) as P. rewrite Eq in P. simpl in P. rewrite app_nil_r in P.
      exfalso. pose proof (dsc_len _ _ _ _ _ _ _ (g_dsc _ _ _ _ G)) as L. rewrite P in L. lia.
    + exfalso. pose proof (dsc_len _ _ _ _ _ _ _ (g_dsc _ _ _ _ G)) as L. rewrite (g_perm _ _ _ _ G), app_length in L. lia.
  - simpl. destruct (q_empty (wpq k)) eqn:Eq.
    { simpl. apply q_empty_elems in Eq. pose proof (g_perm _ _ _ _ G) as P. rewrite Eq in P. simpl in P. rewrite app_nil_r in P.
      exists ds. split.
      - destruct D. split; auto.
        + destruct di_g0. split; auto. by rewrite Eq, app_nil_r.
        + intros x c Hx. apply di_pop0. by rewrite <- P.
      - intros x c p Hx. apply (Pn x c). by rewrite <- P. }
    destruct (q_top_pop_ok (wpq k) Eq (g_heap _ _ _ _ G)) as (z & q' & -> & -> & P & H' & C & S & Mn). cbn [rbind].
    assert (Hz : (pnode_id z, pdist z) ∈ ds).
    { rewrite (g_perm _ _ _ _ G). apply elem_of_app. right. apply elem_of_list_fmap. exists z. split; [done|].
      rewrite P. left. }
    pose proof (d_lt _ _ _ _ _ _ _ (g_dsc _ _ _ _ G) _ _ Hz) as Lz.
    eapply wpr_vset; [rewrite (di_ld _ _ _ _ D); lia|].
    destruct (lookup_lt_is_Some_2 (qnb pb) (pnode_id z)) as [nb Hnb]; [rewrite (pbw_len _ PW); lia|].
    eapply wpr_vget; [done|].
    assert (P2 : ds ≡ₚ (pop ++ [(pnode_id z, pdist z)]) ++ map nid (qelems q')).
    { rewrite (g_perm _ _ _ _ G), P. simpl. rewrite <- app_assoc. done. }
    assert (NDp : NoDup ((pop ++ [(pnode_id z, pdist z)]) ++ map nid (qelems q')).*1).
    { rewrite <- P2. eapply d_nd. by eapply g_dsc. }
    assert (D1 : dinv (mkW (wpar k) (wvis k) q') (<[pnode_id z:=pdist z]> d) ds (pop ++ [(pnode_id z, pdist z)])).
    { destruct D. split; simpl; auto.
      - destruct di_g0. split; simpl; auto; congruence.
      - by rewrite insert_length.
      - intros x Hx. destruct (di_blk0 x Hx) as [?|[Hb Hd]]; [by left|].
        destruct (decide (x = pnode_id z)) as [->|N]; [left; apply in_fst; eauto|right].
        by rewrite list_lookup_insert_ne.
      - intros x c Hx. apply elem_of_app in Hx as [Hx|Hx].
        + rewrite list_lookup_insert_ne; [by apply di_pop0|]. intros <-.
          rewrite !fmap_app in NDp. apply NoDup_app in NDp as [NDp _]. apply NoDup_app in NDp as (_ & NDp & _).
          apply (NDp (pnode_id z)); [apply in_fst; eauto|left].
        + apply elem_of_list_singleton in Hx as [= -> ->]. apply list_lookup_insert. lia.
      - intros y Hy. apply elem_of_list_lookup in Hy as [i Hi].
        apply list_lookup_insert_Some in Hi as [(_ & <- & _)|(_ & Hi)]; [pose proof (di_rng0 _ _ Hz); lia|].
        eapply di_max0. by eapply elem_of_list_lookup_2. }
    eapply wpr_step.
    { eapply relax_spec with (vis0 := wvis k); [exact Hnb|exact Hz|exact D1|done|].
      intros x c Hp Hlt p Np. assert (x ∈ pop.*1) as [cx Hx]%in_fst; [|by eapply Pn].
      eapply (front k d ds pop (pdist z) D Pn); eauto. intros y Hy. destruct (Mn y Hy); lia. }
    intros [k2 d2] (ds2 & D2 & Vm & Vn & Hs). eapply IH; [exact D2| |rewrite app_length; simpl; lia].
    intros x c p Hx Np. apply elem_of_app in Hx as [Hx|Hx]; [apply Vm; by eapply Pn|].
    apply elem_of_list_singleton in Hx as [= -> ->]. destruct Np as (nb' & Hnb' & Hp). apply Vn. congruence.
Qed.
End search.
