(** Every variable ordering is a permutation of the free variables. *)
From stdpp Require Import base list numbers gmap.
From Verif Require Import Base Wp ChainModel EmbModel SpecEmb EmbOps EmbProofs7 QueueModel PathModel RunProofs1.
Local Open Scope Z_scope.

(** ** the priority queue *)
Lemma best_index_lt better l : forall i b j n, (i < n)%nat -> (j + length l <= n)%nat -> (best_index better i b j l < n)%nat.
Proof.
  induction l as [|x l IH]; intros i b j n Hi Hj; simpl in *; [done|].
  destruct (better x b); apply IH; lia.
Qed.
Lemma delete_perm {A} (l : list A) i x : l !! i = Some x -> l ≡ₚ x :: delete i l.
Proof. apply delete_Permutation. Qed.
Lemma spq_pop_spec better l : match spq_pop better l with None => l = [] | Some (z, l') => l ≡ₚ z :: l' end.
Proof.
  unfold spq_pop. destruct l as [|x r]; [done|].
  destruct (lookup_lt_is_Some_2 (x :: r) (best_index better 0 x 1 r)) as [y Hy].
  { apply best_index_lt; simpl; lia. }
  rewrite Hy. by apply delete_perm.
Qed.

Section order.
Context (nvv nff : nat) (nb : list (list nat)).
Context (Lnb : length nb = (nvv + nff)%nat) (Hnb : forall x l y, nb !! x = Some l -> y ∈ l -> (y < nvv + nff)%nat).

(** [visited] marks exactly the fixed variables and the variables in [comp] *)
Record vinv (comp : list nat) (visited : list Z) : Prop := {
  vi_nd : NoDup comp;
  vi_lt : forall x, x ∈ comp -> (x < nvv)%nat;
  vi_len : length visited = (nvv + nff)%nat;
  vi_in : forall x, (x < nvv)%nat -> visited !! x = Some (if decide (x ∈ comp) then 1 else 0);
  vi_fx : forall x, (nvv <= x < nvv + nff)%nat -> visited !! x = Some 1
}.

Lemma vinv_perm c c' vs : c ≡ₚ c' -> vinv c vs -> vinv c' vs.
Proof.
  intros Pm []. split; auto.
  - by rewrite <- Pm.
  - intros x Hx. apply vi_lt0. by rewrite Pm.
  - intros x Hx. rewrite vi_in0 by done. do 2 f_equal. destruct (decide (x ∈ c)) as [H|H], (decide (x ∈ c')) as [H'|H']; try done; exfalso.
    + apply H'. by rewrite <- Pm.
    + apply H. by rewrite Pm.
Qed.

Lemma vinv_get c vs x : vinv c vs -> (x < nvv + nff)%nat -> exists s, vs !! x = Some s /\ (s = 0 <-> (x < nvv)%nat /\ x ∉ c) /\ (s = 0 \/ s = 1).
Proof.
  clear Lnb Hnb.
  intros V Hx. destruct (decide (x < nvv)%nat) as [H|H].
  - rewrite (vi_in _ _ V x H). eexists; split; [done|]. case_decide as Hd; naive_solver.
  - rewrite (vi_fx _ _ V x) by lia. eexists; split; [done|]. split; [|by right]. split; [done|lia].
Qed.

Lemma vinv_add c vs x : vinv c vs -> vs !! x = Some 0 -> vinv (c ++ [x]) (<[x:=1]> vs).
Proof.
  clear Lnb Hnb.
  intros V Hx. assert (Lx : (x < nvv + nff)%nat) by (rewrite <- (vi_len _ _ V); by eapply lookup_lt_Some).
  destruct (vinv_get _ _ x V Lx) as (s & Hs & H0 & _). assert (s = 0) as -> by congruence. destruct (proj1 H0 eq_refl) as [Lv Nc].
  destruct V. split.
  - apply NoDup_app. split; [done|]. split; [|apply NoDup_singleton]. intros y Hy ->%elem_of_list_singleton. done.
  - intros y [?| ->%elem_of_list_singleton]%elem_of_app; auto.
  - by rewrite insert_length.
  - intros y Hy. destruct (decide (y = x)) as [->|N].
    + rewrite list_lookup_insert by lia. rewrite decide_True; [done|]. apply elem_of_app. right; left.
    + rewrite list_lookup_insert_ne by done. rewrite vi_in0 by done. do 2 f_equal.
      destruct (decide (y ∈ c)) as [H|H]; [rewrite decide_True; [done|apply elem_of_app; by left]|].
      rewrite decide_False; [done|]. intros [?|?%elem_of_list_singleton]%elem_of_app; done.
  - intros y Hy. rewrite list_lookup_insert_ne by lia. auto.
Qed.

Lemma vinv_length c vs : vinv c vs -> (length c <= nvv)%nat.
Proof.
  clear Lnb Hnb.
  intros V. rewrite <- (seq_length nvv 0). apply submseteq_length, NoDup_submseteq; [apply V|].
  intros x Hx. apply elem_of_seq. pose proof (vi_lt _ _ V x Hx). lia.
Qed.

Lemma vinv_full c vs : vinv c vs -> (forall x, (x < nvv)%nat -> x ∈ c) -> c ≡ₚ seq 0 nvv.
Proof.
  clear Lnb Hnb.
  intros V H. apply NoDup_Permutation; [apply V|apply NoDup_seq|]. intros x. rewrite elem_of_seq. split.
  - intros Hx. pose proof (vi_lt _ _ V x Hx). lia.
  - intros Hx. apply H. lia.
Qed.

(** ** depth first *)
Lemma dfs_push_spec x l c new vs : vinv (c ++ new) vs -> (forall y, y ∈ l -> (y < nvv + nff)%nat) ->
  exists new' vs', foldM (dfs_push x) l (new, vs) = Ok (new', vs') /\ vinv (c ++ new') vs'.
Proof.
  revert new vs. induction l as [|y l IH]; intros new vs V Hl; [simpl; eauto|].
  simpl. destruct (vinv_get _ _ y V) as (s & Hs & _); [apply Hl; left|]. rewrite (vget_ok _ _ _ Hs). cbn [rbind].
  case_decide as Hd.
  - subst s. rewrite vset_ok by (by eapply lookup_lt_Some). cbn [rbind]. apply IH; [|intros z Hz; apply Hl; by right].
    rewrite app_assoc. by apply vinv_add.
  - cbn [rbind]. apply IH; [done|intros z Hz; apply Hl; by right].
Qed.

Lemma dfs_loop_spec rnd fuel : forall front comp vs pos, vinv comp vs -> (nvv < fuel + front)%nat ->
  exists comp' vs' pos', dfs_loop fuel rnd nb front comp vs pos = Ok (comp', vs', pos') /\ vinv comp' vs' /\ (forall x, x ∈ comp -> x ∈ comp').
Proof.
  induction fuel as [|fuel IH]; intros front comp vs pos V Hf; simpl.
  - pose proof (vinv_length _ _ V). rewrite decide_True by lia. eauto 10.
  - case_decide as Hd; [eauto 10|].
    destruct (lookup_lt_is_Some_2 comp front) as [x Hx]; [lia|]. rewrite (vget_ok _ _ _ Hx). cbn [rbind].
    pose proof (vi_lt _ _ V x (elem_of_list_lookup_2 _ _ _ Hx)) as Lx.
    destruct (lookup_lt_is_Some_2 nb x) as [l Hl]; [lia|]. rewrite (vget_ok _ _ _ Hl). cbn [rbind].
    destruct (dfs_push_spec x l comp [] vs) as (new & vs' & -> & V'); [by rewrite app_nil_r|by intros y; eapply Hnb|]. cbn [rbind].
    pose proof (shuffle_perm rnd pos new) as Pm. simpl in Pm. set (new1 := shuf rnd (length new) pos new) in *.
    destruct (IH (S front) (comp ++ new1) vs' (pos + length new)%nat) as (c2 & vs2 & p2 & -> & V2 & Sub); [|lia|].
    { eapply vinv_perm; [|exact V']. by rewrite Pm. }
    eexists _, _, _. split; [done|]. split; [done|]. intros y Hy. apply Sub, elem_of_app. by left.
Qed.

Lemma dfs_component_spec rnd x comp vs pos : vinv comp vs -> vs !! x = Some 0 ->
  exists comp' vs' pos', dfs_component rnd nb x comp vs pos = Ok (comp', vs', pos') /\ vinv comp' vs' /\
    (forall y, y ∈ comp -> y ∈ comp') /\ x ∈ comp'.
Proof.
  intros V Hx. unfold dfs_component. rewrite vset_ok by (by eapply lookup_lt_Some). cbn [rbind].
  destruct (dfs_loop_spec rnd (S (length nb)) (length comp) (comp ++ [x]) (<[x:=1]> vs) pos) as (c & vs' & p & -> & V' & Sub).
  - by apply vinv_add.
  - lia.
  - eexists _, _, _. split; [done|]. split; [done|]. split; [intros y Hy; apply Sub, elem_of_app; by left|].
    apply Sub, elem_of_app. right; left.
Qed.

(** ** breadth first *)
Lemma bfs_push_spec sh d l c pq vs : length sh = nvv -> vinv (c ++ (pnode_id <$> pq)) vs -> (forall y, y ∈ l -> (y < nvv + nff)%nat) ->
  exists pq' vs', foldM (bfs_push sh d) l (pq, vs) = Ok (pq', vs') /\ vinv (c ++ (pnode_id <$> pq')) vs' /\ (forall z, z ∈ pq -> z ∈ pq').
Proof.
  intros Lsh. revert pq vs. induction l as [|y l IH]; intros pq vs V Hl; [simpl; eauto|].
  simpl. destruct (vinv_get _ _ y V) as (s & Hs & H0 & _); [apply Hl; left|]. rewrite (vget_ok _ _ _ Hs). cbn [rbind].
  case_decide as Hd.
  - subst s. destruct (proj1 H0 eq_refl) as [Ly _]. destruct (lookup_lt_is_Some_2 sh y) as [t Ht]; [lia|].
    rewrite (vget_ok _ _ _ Ht). cbn [rbind]. rewrite vset_ok by (by eapply lookup_lt_Some). cbn [rbind].
    destruct (IH (pq ++ [mkNode y t (d + 1)]) (<[y:=1]> vs)) as (pq' & vs' & -> & V' & Sub).
    + rewrite fmap_app. simpl. rewrite app_assoc. by apply vinv_add.
    + intros z Hz. apply Hl. by right.
    + eexists _, _. split; [done|]. split; [done|]. intros z Hz. apply Sub, elem_of_app. by left.
  - cbn [rbind]. apply IH; [done|intros z Hz; apply Hl; by right].
Qed.

Lemma bfs_loop_spec sh fuel : length sh = nvv -> forall pq comp vs, vinv (comp ++ (pnode_id <$> pq)) vs -> (nvv < fuel + length comp)%nat ->
  exists comp' vs', bfs_loop fuel nb sh pq comp vs = Ok (comp', vs') /\ vinv comp' vs' /\ (forall x, x ∈ comp ++ (pnode_id <$> pq) -> x ∈ comp').
Proof.
  intros Lsh. induction fuel as [|fuel IH]; intros pq comp vs V Hf; simpl.
  - pose proof (spq_pop_spec min_better pq) as S. destruct (spq_pop min_better pq) as [[z pq']|].
    + pose proof (vinv_length _ _ V) as L. rewrite app_length, fmap_length, S in L. simpl in L. lia.
    + subst pq. simpl in *. rewrite app_nil_r in *. eauto.
  - pose proof (spq_pop_spec min_better pq) as S. destruct (spq_pop min_better pq) as [[z pq']|].
    2:{ subst pq. simpl in *. rewrite app_nil_r in *. eauto. }
    assert (V1 : vinv ((comp ++ [pnode_id z]) ++ (pnode_id <$> pq')) vs).
    { eapply vinv_perm; [|exact V]. rewrite S. simpl. by rewrite <- app_assoc. }
    assert (Lz : (pnode_id z < nvv)%nat).
    { apply (vi_lt _ _ V1). apply elem_of_app. left. apply elem_of_app. right; left. }
    destruct (lookup_lt_is_Some_2 nb (pnode_id z)) as [l Hl]; [lia|]. rewrite (vget_ok _ _ _ Hl). cbn [rbind].
    destruct (bfs_push_spec sh (pdist z) l (comp ++ [pnode_id z]) pq' vs Lsh V1) as (pq2 & vs2 & -> & V2 & Sub); [by intros y; eapply Hnb|].
    cbn [rbind]. destruct (IH pq2 (comp ++ [pnode_id z]) vs2 V2) as (c & vs' & -> & V' & Sub').
    { rewrite app_length. simpl. lia. }
    eexists _, _. split; [done|]. split; [done|]. intros x. rewrite S. simpl. rewrite elem_of_app, elem_of_cons. intros [Hx|[-> |Hx]]; apply Sub'.
    + apply elem_of_app. left. apply elem_of_app. by left.
    + apply elem_of_app. left. apply elem_of_app. right; left.
    + apply elem_of_app. right. apply elem_of_list_fmap in Hx as (z' & -> & Hz). apply elem_of_list_fmap. eauto.
Qed.

Lemma bfs_component_spec sh x comp vs : length sh = nvv -> vinv comp vs -> vs !! x = Some 0 ->
  exists comp' vs', bfs_component nb sh x comp vs = Ok (comp', vs') /\ vinv comp' vs' /\
    (forall y, y ∈ comp -> y ∈ comp') /\ x ∈ comp'.
Proof.
  intros Lsh V Hx. unfold bfs_component. pose proof (vinv_add _ _ _ V Hx) as V1.
  assert (Lx : (x < nvv)%nat). { apply (vi_lt _ _ V1), elem_of_app. right; left. }
  destruct (lookup_lt_is_Some_2 sh x) as [t Ht]; [lia|]. rewrite (vget_ok _ _ _ Ht). cbn [rbind].
  rewrite vset_ok by (by eapply lookup_lt_Some). cbn [rbind].
  destruct (bfs_loop_spec sh (S (S (length nb))) Lsh [mkNode x t 0] comp (<[x:=1]> vs)) as (c & vs' & -> & V' & Sub); [done|lia|].
  eexists _, _. split; [done|]. split; [done|]. split; [intros y Hy; apply Sub, elem_of_app; by left|].
  apply Sub, elem_of_app. right; left.
Qed.

(** ** priority first *)
(** neighbour list entries of unvisited nodes *)
Fixpoint udeg (vs : list Z) (nb : list (list nat)) : nat :=
  match vs, nb with
  | s :: vs, l :: nb => (if decide (s = 0%Z) then length l else 0) + udeg vs nb
  | _, _ => 0
  end%nat.
Lemma udeg_le vs n : (udeg vs n <= num_arcs n)%nat.
Proof. revert n. induction vs as [|s vs IH]; intros [|l n]; simpl; try lia. specialize (IH n). case_decide; lia. Qed.
Lemma udeg_mark vs n x l : vs !! x = Some 0 -> n !! x = Some l -> (udeg (<[x:=1%Z]> vs) n + length l = udeg vs n)%nat.
Proof.
  revert n x. induction vs as [|s vs IH]; intros [|l0 n] [|x] H1 H2; simpl in *; try done.
  - injection H1 as ->. injection H2 as ->. simpl. lia.
  - specialize (IH n x H1 H2). lia.
Qed.

Lemma pfs_push_spec sh vs c l pq : length sh = nvv -> vinv c vs -> (forall y, y ∈ l -> (y < nvv + nff)%nat) ->
  (forall z, z ∈ pq -> (pnode_id z < nvv)%nat) ->
  exists pq', foldM (pfs_push nb sh vs) l pq = Ok pq' /\ (forall z, z ∈ pq -> z ∈ pq') /\
    (forall z, z ∈ pq' -> (pnode_id z < nvv)%nat) /\ (length pq' <= length pq + length l)%nat.
Proof.
  intros Lsh V. revert pq. induction l as [|y l IH]; intros pq Hl Hp.
  { simpl. exists pq. split; [done|]. split; [done|]. split; [done|lia]. }
  simpl. destruct (vinv_get _ _ y V) as (s & Hs & H0 & _); [apply Hl; left|].
  unfold pfs_push at 1. rewrite (vget_ok _ _ _ Hs). cbn [rbind].
  case_decide as Hd.
  - subst s. destruct (proj1 H0 eq_refl) as [Ly _].
    destruct (lookup_lt_is_Some_2 nb y) as [ly Hly]; [lia|]. rewrite (vget_ok _ _ _ Hly). cbn [rbind].
    destruct (foldM_inv (fun d w => let! x := vget vs w in Ok (d - x)) (fun _ _ => True) ly 0 I) as (d & -> & _).
    { intros dn w rest d El _. destruct (vinv_get _ _ w V) as (sw & Hw & _).
      { apply (Hnb _ _ w Hly). rewrite El. apply elem_of_app. right; left. }
      rewrite (vget_ok _ _ _ Hw). simpl. eauto. }
    cbn [rbind]. destruct (lookup_lt_is_Some_2 sh y) as [t Ht]; [lia|]. rewrite (vget_ok _ _ _ Ht). cbn [rbind].
    destruct (IH (pq ++ [mkNode y t d])) as (pq' & -> & S1 & S2 & S3).
    + intros z Hz. apply Hl. by right.
    + intros z [?| ->%elem_of_list_singleton]%elem_of_app; auto.
    + exists pq'. split; [done|]. split; [intros z Hz; apply S1, elem_of_app; by left|]. split; [done|].
      rewrite app_length in S3. simpl in *. lia.
  - cbn [rbind]. destruct (IH pq) as (pq' & -> & S1 & S2 & S3); [intros z Hz; apply Hl; by right|done|].
    exists pq'. split; [done|]. split; [done|]. split; [done|]. simpl. lia.
Qed.

Lemma pfs_loop_spec better sh fuel : length sh = nvv -> forall pq comp vs, vinv comp vs -> (forall z, z ∈ pq -> (pnode_id z < nvv)%nat) ->
  (length pq + udeg vs nb < fuel)%nat ->
  exists comp' vs', pfs_loop fuel better nb sh pq comp vs = Ok (comp', vs') /\ vinv comp' vs' /\ (forall x, x ∈ comp \/ x ∈ pnode_id <$> pq -> x ∈ comp').
Proof.
  intros Lsh. induction fuel as [|fuel IH]; intros pq comp vs V Hp Hf; [lia|]. simpl.
  pose proof (spq_pop_spec better pq) as S. destruct (spq_pop better pq) as [[z pq']|].
  2:{ subst pq. eexists _, _. split; [done|]. split; [done|]. intros x [?|Hx]; [done|]. by apply elem_of_nil in Hx. }
  assert (Lz : (pnode_id z < nvv)%nat). { apply Hp. rewrite S. left. }
  assert (Hp' : forall y, y ∈ pq' -> (pnode_id y < nvv)%nat). { intros y Hy. apply Hp. rewrite S. by right. }
  rewrite S in Hf. simpl in Hf.
  destruct (vinv_get _ _ (pnode_id z) V) as (s & Hs & H0 & _); [lia|]. rewrite (vget_ok _ _ _ Hs). cbn [rbind].
  case_decide as Hd.
  - destruct (IH pq' comp vs V Hp') as (c & vs' & -> & V' & Sub); [lia|]. eexists _, _. split; [done|]. split; [done|].
    assert (pnode_id z ∈ comp). { destruct (decide (pnode_id z ∈ comp)); [done|]. exfalso. apply Hd. by apply H0. }
    intros x. rewrite S. simpl. rewrite elem_of_cons. intros [Hx|[-> |Hx]]; apply Sub; auto.
  - destruct (decide (s = 0)) as [->|]; [|done].
    rewrite vset_ok by (by eapply lookup_lt_Some). cbn [rbind].
    destruct (lookup_lt_is_Some_2 nb (pnode_id z)) as [l Hl]; [lia|]. rewrite (vget_ok _ _ _ Hl). cbn [rbind].
    pose proof (vinv_add _ _ _ V Hs) as V1.
    destruct (pfs_push_spec sh _ _ l pq' Lsh V1) as (pq2 & -> & S1 & S2 & S3); [by intros y; eapply Hnb|done|]. cbn [rbind].
    pose proof (udeg_mark vs nb _ l Hs Hl).
    destruct (IH pq2 _ _ V1 S2) as (c & vs' & -> & V' & Sub); [lia|]. eexists _, _. split; [done|]. split; [done|].
    intros x. rewrite S. simpl. rewrite elem_of_cons. intros [Hx|[-> |Hx]]; apply Sub.
    + left. apply elem_of_app. by left.
    + left. apply elem_of_app. right; left.
    + right. apply elem_of_list_fmap in Hx as (z' & -> & Hz). apply elem_of_list_fmap. eauto.
Qed.

Lemma pfs_component_spec better sh x comp vs : length sh = nvv -> vinv comp vs -> vs !! x = Some 0 ->
  exists comp' vs', pfs_component better nb sh x comp vs = Ok (comp', vs') /\ vinv comp' vs' /\
    (forall y, y ∈ comp -> y ∈ comp') /\ x ∈ comp'.
Proof.
  intros Lsh V Hx. unfold pfs_component. pose proof (vinv_add _ _ _ V Hx) as V1.
  assert (Lx : (x < nvv)%nat). { apply (vi_lt _ _ V1), elem_of_app. right; left. }
  destruct (lookup_lt_is_Some_2 sh x) as [t Ht]; [lia|]. rewrite (vget_ok _ _ _ Ht). cbn [rbind].
  destruct (pfs_loop_spec better sh (S (S (num_arcs nb))) Lsh [mkNode x t 0] comp vs V) as (c & vs' & -> & V' & Sub).
  - intros z ->%elem_of_list_singleton. done.
  - simpl. pose proof (udeg_le vs nb). lia.
  - eexists _, _. split; [done|]. split; [done|]. split; [intros y Hy; apply Sub; by left|].
    apply Sub. right. left.
Qed.
End order.

Lemma vinv_init nvv nff : vinv nvv nff [] (replicate nvv 0 ++ replicate nff 1).
Proof.
  split.
  - constructor.
  - intros x H. by apply elem_of_nil in H.
  - by rewrite app_length, !replicate_length.
  - intros x Hx. rewrite lookup_app_l by (by rewrite replicate_length). rewrite lookup_replicate_2 by done.
    rewrite decide_False; [done|]. apply not_elem_of_nil.
  - intros x Hx. rewrite lookup_app_r by (rewrite replicate_length; lia). rewrite replicate_length. apply lookup_replicate_2. lia.
Qed.

(** ** all orderings *)
Lemma var_order_spec e s o E : vn_ok (pb e) E (vn s) -> o <> VO_KEEP ->
  exists order pos, var_order e s o = Ok (order, set_rpos (set_vos s order) pos) /\ order ≡ₚ seq 0 (nv (pb e)).
Proof.
  intros V No. set (n := nv (pb e)). set (f := nf (pb e)).
  assert (Lnb : length (vn s) = (n + f)%nat). { destruct V as [VW _]. apply (vnw_len _ _ VW). }
  assert (Hnb : forall x l y, vn s !! x = Some l -> y ∈ l -> (y < n + f)%nat).
  { intros x l y Hl Hy. by eapply (vn_ok_row _ _ _ _ _ V Hl). }
  unfold var_order. fold n f.
  pose proof (shuffle_perm (rnd e) (rpos s) (rev (seq 0 n))) as Pm.
  destruct (shuffle (rnd e) (rpos s) (rev (seq 0 n))) as [sh pos]. simpl in Pm.
  assert (Psh : sh ≡ₚ seq 0 n) by (rewrite Pm; symmetry; apply Permutation_rev).
  assert (Lsh : length sh = n) by (by rewrite Psh, seq_length).
  assert (G : forall (step : list nat * list Z * nat -> nat -> res (list nat * list Z * nat)),
    (forall comp vs p v, vinv n f comp vs -> vs !! v = Some 0 -> exists comp' vs' p', step (comp, vs, p) v = Ok (comp', vs', p') /\
        vinv n f comp' vs' /\ (forall y, y ∈ comp -> y ∈ comp') /\ v ∈ comp') ->
    exists order pos', (let! (comp, _, p) := foldM (fun '(comp, visited, p) v => let! x := vget visited v in
        if decide (x <> 0) then Ok (comp, visited, p) else step (comp, visited, p) v) sh ([], replicate n 0 ++ replicate f 1, rpos (set_rpos s pos)) in
        Ok (comp, set_rpos (set_vos (set_rpos s pos) comp) p)) = Ok (order, set_rpos (set_vos s order) pos') /\ order ≡ₚ seq 0 n).
  { intros step Hstep.
    destruct (foldM_inv (fun '(comp, visited, p) v => let! x := vget visited v in
        if decide (x <> 0) then Ok (comp, visited, p) else step (comp, visited, p) v)
      (fun dn '(comp, visited, p) => vinv n f comp visited /\ forall x, x ∈ dn -> x ∈ comp) sh
      ([], replicate n 0 ++ replicate f 1, rpos (set_rpos s pos))) as ([[comp vs] p] & -> & Vi & Hin).
    - split; [apply vinv_init|]. intros x H. by apply elem_of_nil in H.
    - intros dn v rest [[comp vs] p] El [Vi Hin].
      assert (Lv : (v < n)%nat).
      { assert (v ∈ seq 0 n) as H; [|apply elem_of_seq in H; lia]. rewrite <- Psh, El. apply elem_of_app. right; left. }
      destruct (vinv_get _ _ _ _ v Vi) as (x & Hx & H0 & _); [lia|]. rewrite (vget_ok _ _ _ Hx). cbn [rbind].
      case_decide as Hd.
      + eexists; split; [done|]. split; [done|]. intros y [?| ->%elem_of_list_singleton]%elem_of_app; [auto|].
        destruct (decide (v ∈ comp)); [done|]. exfalso. apply Hd. by apply H0.
      + destruct (decide (x = 0)) as [->|]; [|done].
        destruct (Hstep comp vs p v Vi Hx) as (comp' & vs' & p' & -> & Vi' & Sub & Hv).
        eexists; split; [done|]. split; [done|]. intros y [?| ->%elem_of_list_singleton]%elem_of_app; auto.
    - cbn [rbind]. exists comp, p. split; [done|]. eapply vinv_full; [done|]. intros x Hx. apply Hin.
      rewrite Psh. apply elem_of_seq. lia. }
  destruct o; [|..]; try done.
  - exists sh, pos. done.
  - apply (G (fun '(comp, vs, p) v => dfs_component (rnd e) (vn s) v comp vs p)).
    intros comp vs p v Vi Hv. destruct (dfs_component_spec n f (vn s) Lnb Hnb (rnd e) v comp vs p Vi Hv) as (c & vs' & p' & -> & ?). eauto 10.
  - apply (G (fun '(comp, vs, p) v => let! (c, vs) := bfs_component (vn s) sh v comp vs in Ok (c, vs, p))).
    intros comp vs p v Vi Hv. destruct (bfs_component_spec n f (vn s) Lnb Hnb sh v comp vs Lsh Vi Hv) as (c & vs' & -> & ?). simpl. eauto 10.
  - apply (G (fun '(comp, vs, p) v => let! (c, vs) := pfs_component min_better (vn s) sh v comp vs in Ok (c, vs, p))).
    intros comp vs p v Vi Hv. destruct (pfs_component_spec n f (vn s) Lnb Hnb min_better sh v comp vs Lsh Vi Hv) as (c & vs' & -> & ?). simpl. eauto 10.
  - apply (G (fun '(comp, vs, p) v => let! (c, vs) := pfs_component max_better (vn s) sh v comp vs in Ok (c, vs, p))).
    intros comp vs p v Vi Hv. destruct (pfs_component_spec n f (vn s) Lnb Hnb max_better sh v comp vs Lsh Vi Hv) as (c & vs' & -> & ?). simpl. eauto 10.
Qed.
Lemma orders_permute e s o E : vn_ok (pb e) E (vn s) -> o <> VO_KEEP ->
  exists order s', var_order e s o = Ok (order, s') /\ order ≡ₚ seq 0 (nv (pb e)).
Proof. intros V No. destruct (var_order_spec e s o E V No) as (order & pos & H & P). eauto. Qed.
