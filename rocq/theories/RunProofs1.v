(** Placing one chain: [find_chain3]. *)
From stdpp Require Import base list numbers gmap.
From Verif Require Import Base Wp ChainModel ChainProofs ChainProofs2 EmbModel SpecEmb EmbProofs EmbProofs2 EmbProofs3 EmbProofs4 EmbOps EmbProofs7
  QueueModel QueueProofs PathModel SpecPath DijkProofs PrepProofs.
Local Open Scope Z_scope.

(** ** randomness *)
Lemma randint_spec {ov : err -> Prop} e s n : (0 < n)%nat -> wpo ov (randint e s n) (fun '(i, s') => (i < n)%nat /\ s' = set_rpos s (S (rpos s))).
Proof.
  intros H. unfold randint. destruct n as [|m]; [lia|]. simpl. split; [|done].
  pose proof (Nat.mod_upper_bound (rnd e (rpos s)) (S m) ltac:(lia)). simpl in *. lia.
Qed.

Lemma shuf_perm {A} rnd n : forall pos (l : list A), shuf rnd n pos l ≡ₚ l.
Proof.
  induction n as [|n IH]; intros pos l; simpl; [done|].
  destruct (l !! _) as [x|] eqn:H; [|done]. rewrite IH. symmetry. by apply delete_Permutation.
Qed.
Lemma shuffle_perm {A} rnd pos (l : list A) : (shuffle rnd pos l).1 ≡ₚ l.
Proof. apply shuf_perm. Qed.

(** ** collect_minima *)
Lemma collect_minima_spec l : l <> [] -> exists m low, collect_minima l = Ok m /\ low ∈ l /\ (forall y, y ∈ l -> low <= y) /\
  (forall i, i ∈ m <-> l !! i = Some low) /\ NoDup m.
Proof.
  destruct l as [|x0 l0]; [done|]. intros _. unfold collect_minima.
  set (l := x0 :: l0). set (f := fun '(low, out) '(i, y) => _).
  assert (G : forall n, (n <= length l)%nat ->
    let '(low, out) := foldl f (x0, []) (take n (imap pair l)) in
    low ∈ l /\ (forall i y, (i < n)%nat -> l !! i = Some y -> low <= y) /\
    (forall i, i ∈ out <-> (i < n)%nat /\ l !! i = Some low) /\ NoDup out).
  { induction n as [|n IH]; intros Hn.
    - simpl. split; [left|]. split; [lia|]. split; [|constructor]. intros i. rewrite elem_of_nil. lia.
    - destruct (lookup_lt_is_Some_2 l n) as [y Hy]; [lia|].
      rewrite (take_S_r _ _ (n, y)) by (rewrite list_lookup_imap, Hy; done). rewrite foldl_app. 
      specialize (IH ltac:(lia)). destruct (foldl f (x0, []) (take n (imap pair l))) as [low out] eqn:Ef.
      destruct IH as (I1 & I2 & I3 & I4). simpl.
      case_decide as E1.
      + subst y. split; [done|]. split.
        { intros i y Hi Hl. destruct (decide (i = n)) as [->|]; [rewrite Hy in Hl; injection Hl as <-; lia|]. apply (I2 i); [lia|done]. }
        split.
        { intros i. rewrite elem_of_app, elem_of_list_singleton, I3. split.
          - intros [[? ?]| ->]; split; try done; lia.
          - intros [? ?]. destruct (decide (i = n)); [by right|left]. split; [lia|done]. }
        apply NoDup_app. split; [done|]. split; [|apply NoDup_singleton]. intros i [? _]%I3 ->%elem_of_list_singleton. lia.
      + case_decide as E2.
        * split; [by eapply elem_of_list_lookup_2|]. split.
          { intros i y' Hi Hl. destruct (decide (i = n)) as [->|]; [rewrite Hy in Hl; injection Hl as <-; lia|].
            pose proof (I2 i y' ltac:(lia) Hl). lia. }
          split; [|apply NoDup_singleton].
          intros i. rewrite elem_of_list_singleton. split; [intros ->; split; [lia|done]|].
          intros [Hi Hl]. destruct (decide (i = n)); [done|]. pose proof (I2 i y ltac:(lia) Hl). lia.
        * split; [done|]. split.
          { intros i y' Hi Hl. destruct (decide (i = n)) as [->|]; [rewrite Hy in Hl; injection Hl as <-; lia|]. apply (I2 i); [lia|done]. }
          split; [|done]. intros i. rewrite I3. split; intros [? ?]; (split; [|done]); [lia|].
          destruct (decide (i = n)) as [->|]; [congruence|lia]. }
  specialize (G (length l) ltac:(lia)). rewrite take_ge in G by (rewrite imap_length; lia).
  destruct (foldl f (x0, []) (imap pair l)) as [low out] eqn:Ef. destruct G as (G1 & G2 & G3 & G4).
  exists out, low. cbn [snd]. split; [done|]. split; [done|]. split.
  - intros y Hy. apply elem_of_list_lookup in Hy as [i Hi]. apply (G2 i); [by eapply lookup_lt_Some|done].
  - split; [|done]. intros i. rewrite G3. split; [tauto|]. intros H. split; [by eapply lookup_lt_Some|done].
Qed.

(** ** neighbour lists stay admissible under reordering *)
Lemma vn_ok_perm pb E vn u l l' : vn_ok pb E vn -> vn !! u = Some l -> l' ≡ₚ l -> vn_ok pb E (<[u:=l']> vn).
Proof.
  intros [W HE] Hl P. assert (Lu : (u < length vn)%nat) by (by eapply lookup_lt_Some).
  assert (X : forall a b, nbr (<[u:=l']> vn) a b <-> nbr vn a b).
  { intros a b. unfold nbr. destruct (decide (a = u)) as [->|N].
    - rewrite list_lookup_insert by done. rewrite Hl. split; intros (? & [= <-] & Hb); eexists; (split; [done|]).
      + by rewrite <- P. + by rewrite P.
    - by rewrite list_lookup_insert_ne. }
  split; [destruct W; split|].
  - by rewrite insert_length.
  - intros a b H%X. eauto.
  - intros a b H%X. eauto.
  - intros a b H%X. eauto.
  - intros a b H%X Hb. apply X. eauto.
  - intros a k. destruct (decide (a = u)) as [->|N].
    + rewrite list_lookup_insert by done. intros [= <-]. rewrite P. eauto.
    + rewrite list_lookup_insert_ne by done. eauto.
  - intros a b. rewrite X. apply HE.
Qed.

(** Conditions under which no sum of distances overflows: at most 64 free variables, and a bound
    [M] on the tabulated weights small enough for the sums over all neighbours and all qubits *)
Definition safe_env (e : env) (E : nat -> nat -> Prop) : Prop :=
  (nv (pb e) <= 64)%nat /\ exists M, 0 <= M /\ Z.of_nat (nq (pb e)) * M <= max_distance /\
    (forall m c, 0 <= c <= m -> m < 64 -> wtab e m c <= M) /\
    (forall u l, (u < nv (pb e))%nat -> NoDup l -> (forall v, v ∈ l -> E u v) ->
       Z.of_nat (length l) * (Z.of_nat (nq (pb e)) * M) <= max_distance).

Section run.
Context (e : env) (E : nat -> nat -> Prop) (F : fixdom).
Notation P := (pb e).
Context (PW : pb_wf P) (MN : even_areas P E) (Hq0 : (0 < nq P)%nat).
Context (Wtab : forall m c, 0 <= c < 64 -> 0 <= wtab e m c <= max_distance).
Context (sf : bool) (Hsf : sf = true -> safe_env e E).
(** the chains of fixed variables are nonempty and lie on reserved qubits *)
Context (Hfix : forall v q, (nv P <= v < nv P + nf P)%nat -> is_Some (F v !! q) -> (nq P <= q < nq P + nr P)%nat).
Context (Hfne : forall v, (nv P <= v < nv P + nf P)%nat -> F v <> ∅).
Notation einv := (einv P E F).

(** the parts of the state every step preserves *)
Record sinv (s : st) : Prop := {
  si_vn : vn_ok P E (vn s);
  si_sr : swf P (sr s)
}.
(** [s'] has the same best embedding, mood and counters *)
Record sframe (s s' : st) : Prop := {
  sf_md : md s' = md s;
  sf_best : best s' = best s;
  sf_stats : stats s' = stats s;
  sf_pushb : pushb s' = pushb s;
  sf_vos : vos s' = vos s;
  sf_spos : spos s' = spos s
}.
Lemma sframe_refl s : sframe s s.
Proof. by split. Qed.
Lemma sframe_trans s1 s2 s3 : sframe s1 s2 -> sframe s2 s3 -> sframe s1 s3.
Proof. intros [] []. split; congruence. Qed.
Lemma sinv_rpos s x : sinv s -> sinv (set_rpos s x).
Proof. by intros []. Qed.

Lemma swap2_perm {A} (l : list A) i a b : l !! i = Some a -> l !! S i = Some b -> <[S i:=a]> (<[i:=b]> l) ≡ₚ l.
Proof.
  revert i. induction l as [|x l IH]; intros [|i] Ha Hb; simpl in *; try done.
  - injection Ha as <-. destruct l as [|y l]; [done|]. simpl in *. injection Hb as <-. constructor.
  - constructor. by apply IH.
Qed.

Lemma rndswap_spec {ov : err -> Prop} s u : sinv s -> (u < nv P)%nat -> wpo ov (nbrs_rndswap e s u)
  (fun '(l, s') => sinv s' /\ sframe s s' /\ sr s' = sr s /\ vn s' !! u = Some l).
Proof.
  clear PW MN Hq0 Wtab Hsf Hfix Hfne.
  intros [V S] Hu. unfold nbrs_rndswap. destruct (vn_ok_get _ _ _ u V) as [l Hl]; [lia|].
  eapply wpr_vget; [done|]. case_decide as H1.
  - eapply wpr_step; [apply randint_spec; lia|]. intros [i s1] [Hi ->].
    destruct (lookup_lt_is_Some_2 l i) as [a Ha]; [lia|]. destruct (lookup_lt_is_Some_2 l (Datatypes.S i)) as [b Hb]; [lia|].
    rewrite Ha, Hb. simpl. eapply wpr_vset; [by eapply lookup_lt_Some|]. simpl.
    split; [|split; [by split|split; [done|apply list_lookup_insert; by eapply lookup_lt_Some]]].
    split; [|done]. simpl. eapply vn_ok_perm; [done|done|]. by apply swap2_perm.
  - case_decide as H2.
    + eapply wpr_step; [apply randint_spec; lia|]. intros [i s1] [Hi ->]. case_decide; [simpl; by split|].
      destruct l as [|a [|b []]]; try done. eapply wpr_vset; [by eapply lookup_lt_Some|]. simpl.
      split; [|split; [by split|split; [done|apply list_lookup_insert; by eapply lookup_lt_Some]]].
      split; [|done]. simpl. eapply vn_ok_perm; [done|done|]. constructor.
    + simpl. split; [by split|]. split; [apply sframe_refl|]. done.
Qed.

Lemma swap_perm_spec {ov : err -> Prop} b u v : swf P b -> (u < nv P + nf P)%nat -> (v < nv P + nf P)%nat ->
  wpo ov (swap_perm b u v) (fun b' => swf P b').
Proof.
  clear PW MN Hq0 Wtab Hsf Hfix Hfne.
  intros S Hu Hv. unfold swap_perm. pose proof (bo_perm _ _ S).
  destruct (lookup_lt_is_Some_2 (perm b) u) as [pu Hpu]; [lia|]. destruct (lookup_lt_is_Some_2 (perm b) v) as [pv Hpv]; [lia|].
  eapply wpr_vget; [done|]. eapply wpr_vget; [done|]. eapply wpr_vset; [by eapply lookup_lt_Some|].
  eapply wpr_vset; [rewrite insert_length; by eapply lookup_lt_Some|]. simpl. destruct S. split; simpl; auto.
  - by rewrite !insert_length.
  - apply (insert_row _ v pu (fun r => length r = nq P)); [|by eapply bo_permr].
    apply (insert_row _ u pv (fun r => length r = nq P)); [done|by eapply bo_permr].
Qed.

(** what placing a chain for [u] achieves; [lim] holds of the qubits used once more *)
Record placed (T : emb) (u : nat) (lim : nat -> Prop) (em : emb) : Prop := {
  pl_inv : einv em;
  pl_wex : wexact em;
  pl_self : linkedto em u u;
  pl_link : forall v, E u v -> nonempty T v -> linkedto em u v;
  pl_ne : forall v, v <> u -> nonempty em v <-> nonempty T v;
  pl_oth : forall a b, a <> u -> b <> u -> linkedto em a b <-> linkedto T a b;
  pl_sum : forall x, sumind (chains em) x <= sumind (chains T) x \/
     (sumind (chains em) x = sumind (chains T) x + 1 /\ (x < nq P)%nat /\ lim x)
}.

Lemma einv_fixq em : einv em -> forall v c q, chains em !! v = Some c -> qin c q -> (nv P <= v)%nat -> (nq P <= q < nq P + nr P)%nat.
Proof.
  intros I v c q Hc Hq Hv. pose proof (ei_lt _ _ _ _ _ _ I Hc). apply (Hfix v); [lia|].
  rewrite <- (ei_fix _ _ _ _ I v c Hc Hv). by apply pm_is_Some.
Qed.

Lemma sumind_torn (cs cs' : list chain) u x : length cs' = length cs ->
  (forall v c, v <> u -> cs !! v = Some c -> exists c', cs' !! v = Some c' /\ ind c' x = ind c x) ->
  (forall c c', cs !! u = Some c -> cs' !! u = Some c' -> sumind cs' x = sumind cs x - ind c x + ind c' x).
Proof.
  clear PW MN Hq0 Wtab Hsf Hfix Hfne.
  revert u cs'. induction cs as [|d cs IH]; intros u [|d' cs'] L H c c' Hc Hc'; try done. simpl in *.
  destruct u as [|u].
  - simpl in *. injection Hc as <-. injection Hc' as <-.
    assert (forall i c, cs !! i = Some c -> exists c', cs' !! i = Some c' /\ ind c' x = ind c x) as G.
    { intros i c Hi. apply (H (S i)); done. }
    enough (sumind cs' x = sumind cs x) by lia. clear -G L. injection L as L. revert cs' L G. induction cs as [|a cs IH]; intros [|b cs'] L G; try done.
    simpl. destruct (G 0%nat a eq_refl) as (b' & [= <-] & ->). rewrite (IH cs'); [done| |intros i; apply (G (S i))]. by injection L.
  - simpl in *. destruct (H 0%nat d) as (d2 & [= <-] & Ed); [done|done|]. rewrite (IH u cs') with (c := c) (c' := c'); [lia| | |done|done].
    + by injection L.
    + intros v c0 N Hv. apply (H (S v)); [lia|done].
Qed.

Lemma built_placed T u q0 nbrs ok (lim : nat -> Prop) em1 : wexact T -> absent T u -> built P E F ok T u q0 nbrs em1 ->
  (forall v, v ∈ nbrs <-> E u v) -> (forall x, ok x -> (x < nq P)%nat /\ lim x) -> placed T u lim em1.
Proof.
  clear PW MN Hq0 Wtab Hsf Hfix Hfne.
  intros W A B HE Hok. destruct (b_cu _ _ _ _ _ _ _ _ _ B) as (cu & Hcu & Ti & Ro & Ku & Qu & Oku & Kn & Kd).
  assert (Ls : forall x, sumind (chains em1) x = sumind (chains T) x + ind cu x).
  { intros x. destruct A as [Au _].
    rewrite (sumind_torn (chains T) (chains em1) u x (b_len _ _ _ _ _ _ _ _ _ B)) with (c := empty_chain) (c' := cu); auto.
    - rewrite ind_empty. lia.
    - intros v c N Hc. destruct (b_oth _ _ _ _ _ _ _ _ _ B v c N Hc) as (c' & Hc' & Pm & _). exists c'. split; [done|].
      by apply ind_pm. }
  split.
  - by eapply b_inv.
  - by eapply b_wex.
  - exists cu. split; [done|]. by rewrite Ku.
  - intros v Ev' Hne. exists cu. split; [done|]. apply Kd; [by apply HE|done].
  - intros v N. by eapply built_nonempty.
  - intros a c Na Nc. unfold linkedto. split.
    + intros (c1 & H1 & H2). destruct (lookup_lt_is_Some_2 (chains T) a) as [c0 H0].
      { rewrite <- (b_len _ _ _ _ _ _ _ _ _ B). by eapply lookup_lt_Some. }
      destruct (b_oth _ _ _ _ _ _ _ _ _ B a c0 Na H0) as (c' & Hc' & _ & _ & De). assert (c' = c1) as -> by congruence.
      exists c0. split; [done|]. rewrite <- De, lookup_delete_ne by done. done.
    + intros (c0 & H0 & H2). destruct (b_oth _ _ _ _ _ _ _ _ _ B a c0 Na H0) as (c' & Hc' & _ & _ & De).
      exists c'. split; [done|]. rewrite <- De, lookup_delete_ne in H2 by done. done.
  - intros x. rewrite Ls. destruct (decide (qin cu x)) as [Hx|Hx].
    + right. rewrite (ind_in cu x Hx). destruct (Hok x (Oku x Hx)). done.
    + left. rewrite (ind_out cu x) by (by apply eq_None_not_Some). lia.
Qed.

Lemma stolen_placed T u v lim em em' : placed T u lim em -> stolen P E F v em em' -> placed T u lim em'.
Proof.
  clear PW MN Hq0 Wtab Hsf Hfix Hfne.
  intros [] St. split.
  - by apply (st_inv _ _ _ _ _ _ St).
  - by apply (st_wex _ _ _ _ _ _ St).
  - by apply (st_link _ _ _ _ _ _ St).
  - intros w Ew Hne. apply (st_link _ _ _ _ _ _ St). auto.
  - intros w N. rewrite (st_ne _ _ _ _ _ _ St). auto.
  - intros a c Na Nc. rewrite (st_link _ _ _ _ _ _ St). auto.
  - intros x. pose proof (st_sum _ _ _ _ _ _ St x). pose proof (sumind_nonneg (chains em') x).
    destruct (pl_sum0 x) as [?|(H1 & H2 & H3)]; [left; lia|].
    destruct (decide (sumind (chains em') x <= sumind (chains T) x)); [by left|right]. split; [lia|]. done.
Qed.

Lemma flip_placed vn T u lim em tgt : vn_ok P E vn -> (u < nv P)%nat -> placed T u lim em ->
  exists em', flip_back P vn em u tgt = Ok em' /\ placed T u lim em' /\ forall r, selfroot em u r -> selfroot em' u r.
Proof.
  clear MN Hq0 Wtab Hsf Hfix Hfne.
  intros V Hu Pl. destruct (vn_ok_get _ _ _ u V) as [l Hl]; [lia|].
  destruct (vn_ok_row _ _ _ _ _ V Hl) as (HE & ND & Hr).
  destruct (flip_back_spec P E F vn em u tgt l) as (em' & He & St); auto.
  - by eapply pl_inv.
  - intros v Hv Lv Hne. apply (pl_link _ _ _ _ Pl); [by apply HE|]. apply (pl_ne _ _ _ _ Pl v); [by apply Hr|done].
  - exists em'. split; [done|]. split; [by eapply stolen_placed|]. apply (st_root _ _ _ _ _ _ St).
Qed.

(** at most 63 other free chains: the fill of a free qubit *)
Lemma sumind_hole cs q : (exists c, c ∈ cs /\ ind c q = 0) -> sumind cs q + 1 <= Z.of_nat (length cs).
Proof.
  clear PW MN Hq0 Wtab Hsf Hfix Hfne.
  induction cs as [|d cs IH]; intros (c & Hc & Z); [by apply elem_of_nil in Hc|]. simpl.
  apply elem_of_cons in Hc as [->|Hc]; [pose proof (sumind_le cs q); lia|].
  pose proof (ind_range d q). specialize (IH (ex_intro _ c (conj Hc Z))). lia.
Qed.
Lemma sumind_app cs cs' q : sumind (cs ++ cs') q = sumind cs q + sumind cs' q.
Proof. clear. induction cs as [|d cs IH]; simpl; [done|]. rewrite IH. lia. Qed.
Lemma fill_bound T u x : einv T -> wexact T -> absent T u -> (u < nv P)%nat -> (x < nq P)%nat ->
  sumind (chains T) x <= Z.of_nat (nv P) - 1.
Proof.
  clear Wtab Hsf. intros I W A Hu Hx.
  assert (Ez : sumind (drop (nv P) (chains T)) x = 0).
  { assert (forall c, c ∈ drop (nv P) (chains T) -> ind c x = 0) as G.
    { intros c Hc. apply elem_of_list_lookup in Hc as [i Hi]. rewrite lookup_drop in Hi. apply ind_out. apply eq_None_not_Some. intros Q.
      pose proof (einv_fixq T I (nv P + i) c x Hi Q ltac:(lia)). lia. }
    clear -G. induction (drop (nv P) (chains T)) as [|c l IH]; [done|]. simpl. rewrite IH by (intros; apply G; by right). rewrite (G c) by left. done. }
  rewrite <- (take_drop (nv P) (chains T)), sumind_app, Ez.
  pose proof (sumind_hole (take (nv P) (chains T)) x) as H. rewrite take_length, (ei_len _ _ _ _ I) in H.
  destruct A as [Hc _]. pose proof (H (ex_intro _ empty_chain (conj (elem_of_list_lookup_2 (take (nv P) (chains T)) u empty_chain ltac:(by rewrite lookup_take)) (ind_empty x)))). lia.
Qed.
Lemma max_weight_ge pb em mw : max_weight pb em = Ok mw ->
  (forall x, (x < nq pb)%nat -> length (eweight em) = (nq pb + nr pb)%nat -> wt (eweight em) x <= mw) /\
  (exists y, (y < nq pb)%nat /\ mw = wt (eweight em) y).
Proof.
  clear. unfold max_weight.
  assert (G : forall l a, (forall y, y ∈ l -> y <= foldl Z.max a l) /\ a <= foldl Z.max a l /\ (foldl Z.max a l = a \/ foldl Z.max a l ∈ l)).
  { induction l as [|b l IH]; intros a; simpl; [split; [intros y Hy; by apply elem_of_nil in Hy|]; split; [lia|by left]|].
    destruct (IH (Z.max a b)) as (H1 & H2 & H3). split; [|split; [lia|]].
    - intros y [->|Hy]%elem_of_cons; [lia|auto].
    - destruct H3 as [H3|H3]; [|right; by right]. rewrite H3. destruct (Z.max_spec a b) as [[_ ->]|[_ ->]]; [right; left|by left]. }
  destruct (take (nq pb) (eweight em)) as [|a l] eqn:Et; [done|]. intros [= <-]. destruct (G l a) as (H1 & H2 & H3). split.
  - intros x Hx L. destruct (lookup_lt_is_Some_2 (eweight em) x) as [y Hy]; [lia|]. unfold wt. rewrite Hy. simpl.
    assert (Hin : (a :: l) !! x = Some y) by (by rewrite <- Et, lookup_take).
    apply elem_of_list_lookup_2, elem_of_cons in Hin as [->|Hin]; auto.
  - assert (Hin : foldl Z.max a l ∈ a :: l) by (destruct H3 as [->|?]; [left|by right]).
    rewrite <- Et in Hin. apply elem_of_list_lookup in Hin as [y Hy]. apply lookup_take_Some in Hy as [Hy Ly].
    exists y. split; [done|]. unfold wt. by rewrite Hy.
Qed.

(** what a choice of a root leaves behind *)
Definition inarea (u x : nat) : Prop := (forall v, E u v -> search_area P u v x) /\ reachable P E u x.
Lemma inarea_even u v x : (x < nq P)%nat -> E u v -> search_area P u v x -> inarea u x.
Proof. intros Hx Ev Ha. split; [intros v' Ev2; exact (MN u v v' x Hx Ev Ev2 Ha)|]. destruct Ha as [Ha|Ha]; [by left|right; eauto]. Qed.
Definition okq (T : emb) (wbd : Z) (x : nat) : Prop := (x < nq P)%nat /\ (nf P = 0%nat -> wt (eweight T) x < wbd).
Definition okv (T : emb) (wbd : Z) (u v x : nat) : Prop := okq T wbd x /\ (E u v -> inarea u x).
Definition rooted (s : st) (T : emb) (u tgt : nat) (b : bool) (s' : st) (em' : emb) : Prop :=
  exists nbrs b0 M, vn s' !! u = Some nbrs /\
    prepared P T (wb (md s)) (okv T (wb (md s))) (runerr sf (interactive e)) M e u nbrs b0 (sr s') /\
    (forall r t, total (sr s') !! r = Some t -> t <> max_distance -> exists em2,
       (let! em1 := construct_chain_steiner (vn s') T u r (par (sr s')) (dist (sr s')) (vis (sr s')) in
        flip_back P (vn s') em1 u tgt) = Ok em2 /\ selfroot em2 u r /\
       placed T u (fun x => nf P = 0%nat -> sumind (chains T) x < wb (md s)) em2) /\
    if b then exists r t, selfroot em' u r /\ total (sr s') !! r = Some t /\ t <> max_distance /\
                 (forall y, y ∈ total (sr s') -> t <= y)
    else forall y, y ∈ total (sr s') -> max_distance <= y.
Lemma find_chain3_root s T u tgt : sinv s -> einv T -> wexact T -> absent T u -> (u < nv P)%nat ->
  wpo (runerr sf (interactive e)) (find_chain3 e s T u tgt) (fun '(b, s', em') => sinv s' /\ sframe s s' /\ rooted s T u tgt b s' em' /\
    if (b : bool) then placed T u (fun x => nf P = 0%nat -> sumind (chains T) x < wb (md s)) em' else em' = T).
Proof.
  intros SI I W A Hu. unfold find_chain3.
  eapply wpr_step; [by apply rndswap_spec|]. intros [nbrs s1] (SI1 & Fr1 & _ & Hl).
  destruct (vn_ok_row _ _ _ _ _ (si_vn _ SI1) Hl) as (HE & ND & Hr).
  eapply wpr_step with (P := fun s2 => sinv s2 /\ sframe s s2 /\ vn s2 = vn s1).
  { case_decide as Hn; [|simpl; auto]. eapply wpr_step; [by apply randint_spec|]. intros [i s2] [Hi ->].
    destruct (lookup_lt_is_Some_2 nbrs i) as [v Hv]; [lia|]. eapply wpr_vget; [done|]. destruct SI1 as [V1 S1].
    assert (v ∈ nbrs) as Hin by (by eapply elem_of_list_lookup_2).
    eapply wpr_step; [apply (swap_perm_spec _ u v); [done|lia|by apply Hr]|]. intros b Sb. simpl.
    split; [by split|]. split; [|done]. destruct Fr1. by split. }
  intros s2 ([V2 S2] & Fr2 & Ev).
  set (wbd := wb (md s2)).
  set (ok := fun x => okq T wbd x /\ inarea u x). assert (Ewb : wb (md s) = wbd) by (unfold wbd; by rewrite (sf_md _ _ Fr2)).
  assert (exists M, 0 <= M /\ (runerr sf (interactive e) Overflow \/ (Z.of_nat (nq P) * M <= max_distance /\
     (forall mw x, max_weight P T = Ok mw -> (x < nq P)%nat -> weight_of e mw (wt (eweight T) x) <= M) /\
     Z.of_nat (length nbrs) * (Z.of_nat (nq P) * M) <= max_distance))) as (M & HM0 & HMM).
  { destruct (bool_dec sf true) as [Es|Es].
    - destruct (Hsf Es) as (L64 & M & M0 & M1 & M2 & M3). exists M. split; [done|]. right. split; [done|]. split.
      + intros mw x Hmw Hx. pose proof (max_weight_ge _ _ mw Hmw) as [Hge Hin].
        pose proof (fill_bound T u x I W A Hu Hx). rewrite W in *.
        destruct Hin as (y & Hy & ->). pose proof (fill_bound T u y I W A Hu Hy). rewrite <- W in *.
        specialize (Hge x Hx (ei_wlen _ _ _ _ I)). unfold weight_of. pose proof (sumind_nonneg (chains T) x). rewrite <- W in *.
        rewrite decide_False by lia. apply M2; lia.
      + apply (M3 u); [done|done|]. intros v Hv. by apply HE.
    - exists 0. split; [done|]. left. left. split; [done|]. by destruct sf. }
  eapply wpr_step.
  { apply (prepare_spec P PW T wbd (okv T wbd) (ei_wlen _ _ _ _ I) (ei_len _ _ _ _ I)) with (M := M).
    - intros v c q Hc Hq Hv. by eapply (ei_bound _ _ _ _ I).
    - by apply einv_fixq.
    - intros Hf u' v x Hx Ha. split; [split; [done|]; lia|]. intros Ev'. by eapply inarea_even.
    - intros u' v x Hx Ha Hlt. split; [by split|]. intros Ev'. by eapply inarea_even.
    - done.
    - destruct HMM as [?|(? & _)]; auto.
    - done.
    - exact Wtab.
    - done.
    - destruct HMM as [?|(_ & ? & _)]; auto.
    - done.
    - intros v Hv. by apply Hr.
    - destruct HMM as [?|(_ & _ & ?)]; auto.
    - lia.
    - done. }
  intros b' Pr. cbn [rbind].
  pose proof (pr_swf _ _ _ _ _ _ _ _ _ _ _ Pr) as Sb. 
  destruct (collect_minima_spec (total b')) as (m & low & Em & Hlow & Hmin & Hm & NDm).
  { intros Z. pose proof (bo_total _ _ Sb) as L. rewrite Z in L. simpl in L. lia. }
  rewrite Em. cbn [rbind].
  assert (Lm : (0 < length m)%nat).
  { apply elem_of_list_lookup in Hlow as [i Hi]. apply Hm in Hi. destruct m; [by apply elem_of_nil in Hi|]. simpl. lia. }
  assert (Hall : forall q0 low, total b' !! q0 = Some low -> low <> max_distance -> exists em2,
       (let! em1 := construct_chain_steiner (vn s2) T u q0 (par b') (dist b') (vis b') in
        flip_back P (vn s2) em1 u tgt) = Ok em2 /\ selfroot em2 u q0 /\
       placed T u (fun x => nf P = 0%nat -> sumind (chains T) x < wb (md s)) em2).
  { clear Hlow Hmin Hm. clear low. intros q0 low Ht0 Hmx.
  assert (Lq0 : (q0 < nq P)%nat). { rewrite <- (bo_total _ _ Sb). by eapply lookup_lt_Some. }
  (* every live neighbour reaches the root *)
  assert (Hroot : forall v, v ∈ nbrs -> live T v = true -> dsv T wbd b' v q0 <> None).
  { intros v Hv Hlv. pose proof (proj2 (lv_in T nbrs v) (conj Hv Hlv)) as Hin.
    rewrite (pr_tot _ _ _ _ _ _ _ _ _ _ _ Pr) in Ht0; [|by intros Z; rewrite Z in Hin; apply elem_of_nil in Hin|done].
    injection Ht0 as Ht0. unfold tval in Ht0. destruct (osum _ (lv T nbrs)) as [t|] eqn:Es; [|by destruct (tbase P u q0); simpl in Ht0; congruence].
    destruct (osum_all _ _ _ v Es Hin) as [y Hy]. unfold contrib in Hy. intros Z. rewrite Z in Hy. by destruct (ow _ _ _ _ _ _). }
  assert (Hmu : may_use P u q0).
  { destruct (tbase P u q0) as [z|] eqn:Ez; [apply tbase_use; unfold tbase in *; destruct (masks P); [case_decide|]; done|].
    exfalso. apply Hmx. destruct (lv T nbrs) as [|v l] eqn:El.
    - apply (pr_none _ _ _ _ _ _ _ _ _ _ _ Pr El q0 low Ht0). left. by apply tbase_none.
    - rewrite (pr_tot _ _ _ _ _ _ _ _ _ _ _ Pr) in Ht0; [|by rewrite El|done]. rewrite Ez in Ht0. simpl in Ht0. congruence. }
  assert (Hok0 : ok q0).
  { split; [|split; [intros v _; by left|by left]]. split; [done|]. intros Hnf. destruct (lv T nbrs) as [|v l] eqn:El.
    - destruct (decide (wbd <= wt (eweight T) q0)); [|lia]. exfalso. apply Hmx.
      apply (pr_none _ _ _ _ _ _ _ _ _ _ _ Pr El q0 low Ht0). by right; left.
    - assert (v ∈ lv T nbrs) as [Hv Hlv]%lv_in by (rewrite El; left). pose proof (Hroot v Hv Hlv) as Z.
      unfold dsv in Z. destruct (vis b' !! v ≫= _); [|done]. destruct (dist b' !! v ≫= _); [|done]. case_decide; [|done]. tauto. }
  assert (HS : forall v, v ∈ nbrs -> nonempty T v -> search_ok P ok T q0 v (par b') (dist b') (vis b')).
  { intros v Hv Hne. apply live_nonempty in Hne. destruct (pr_rows _ _ _ _ _ _ _ _ _ _ _ Pr v Hv Hne) as [R _].
    destruct (dsv T wbd b' v q0) as [d|] eqn:Ed; [|by exfalso; eapply Hroot].
    assert (Hmono : forall x, okv T wbd u v x -> ok x). { intros x [H1 H2]. split; [done|]. apply H2. by apply HE. }
    destruct (rows_dist P T wbd _ u b' v q0 d R Ed) as (ds & pr & ch & Hch & Hpr & D & Hin & _).
    apply (dsc_weaken _ _ _ _ ok) in D; [|done].
    destruct R as (pr' & vs & dr & Hp & Hvs & Hdr & ch' & ds' & pq & Hch' & D' & _).
    exists ch, pr, dr, vs. split; [done|]. split; [done|]. split; [done|]. split; [done|].
    split; [by eapply bo_visr|]. destruct (bo_distr _ _ Sb _ _ Hdr) as [Ld Hd]. split; [done|]. split; [done|].
    split; [by eapply dsc_start|]. intros p d' sv Hp' Hsv Ns Hd' Nd'.
    destruct (di_01 _ _ _ _ _ _ _ _ _ _ _ _ D' p sv Hsv) as [[? _]|[->|[_ Na]]]; [done| |by destruct Na; apply (proj2 Hp'), HE].
    destruct (di_blk _ _ _ _ _ _ _ _ _ _ _ _ D' p Hsv) as [Hx|(_ & Hx & _)]; [|congruence].
    apply in_fst in Hx as [c Hx]. assert (ch' = ch) as -> by congruence. assert (pr' = pr) as -> by congruence.
    eapply dsc_start; [|exact Hx]. eapply dsc_weaken; [exact Hmono|]. exact (g_dsc _ _ _ _ _ _ _ _ (di_g _ _ _ _ _ _ _ _ _ _ _ _ D')). }
  rewrite Ev.
  destruct (construct_spec P E F ok (fun x Hx => proj1 (proj1 Hx)) (vn s1) T u q0 nbrs (par b') (dist b') (vis b')) as (em1 & -> & B); auto.
  { intros x [[Hx _] [_ Ha]]. by eapply (ei_area _ _ _ _ I). }
  { intros v Hv. destruct (Hr v Hv). split; [done|]. split; [done|]. by apply HE. }
  cbn [rbind].
  assert (Pl : placed T u (fun x => nf P = 0%nat -> sumind (chains T) x < wb (md s)) em1).
  { eapply (built_placed T u q0 nbrs ok); eauto. intros x [[H1 H2] _]. split; [done|]. intros Hnf.
    rewrite <- (W x), <- (sf_md _ _ Fr2). by apply H2. }
  rewrite <- Ev. destruct (flip_placed (vn s2) T u _ em1 tgt V2 Hu Pl) as (em2 & -> & Pl2 & Ro).
  exists em2. split; [done|]. split; [|done].
  apply Ro. destruct (b_cu _ _ _ _ _ _ _ _ _ B) as (cu & Hcu & _ & _ & Ku & _). exists cu. done. }
  eapply wpr_step; [by apply randint_spec|]. intros [i s3] [Hi ->].
  destruct (lookup_lt_is_Some_2 m i Hi) as [q0 Hq]. eapply wpr_vget; [done|].
  assert (Ht0 : total b' !! q0 = Some low) by (by apply Hm; eapply elem_of_list_lookup_2).
  eapply wpr_vget; [done|].
  assert (Fr3 : sframe s (set_rpos (set_sr s2 b') (S (rpos (set_sr s2 b'))))) by (destruct Fr2; by split).
  assert (SI3 : sinv (set_rpos (set_sr s2 b') (S (rpos (set_sr s2 b'))))) by (by split).
  case_decide as Hmx.
  { simpl. split; [done|]. split; [done|]. split; [|done]. unfold rooted. exists nbrs, (sr s2), M. simpl. split; [by rewrite Ev|].
    rewrite Ewb. split; [done|]. split; [by rewrite <- Ewb|]. intros y Hy. rewrite <- Hmx. auto. }
  cbn [vn set_rpos set_sr].
  destruct (Hall q0 low Ht0 Hmx) as (em2 & He & Ro & Pl2).
  destruct (construct_chain_steiner (vn s2) T u q0 (par b') (dist b') (vis b')) as [em1|]; [|done]. cbn [rbind] in He |- *.
  rewrite He. simpl.
  split; [done|]. split; [done|]. split; [|done]. exists nbrs, (sr s2), M. simpl. split; [by rewrite Ev|].
  rewrite Ewb. split; [done|]. split; [by rewrite <- Ewb|]. exists q0, low. done.
Qed.
Lemma find_chain3_spec s T u tgt : sinv s -> einv T -> wexact T -> absent T u -> (u < nv P)%nat ->
  wpo (runerr sf (interactive e)) (find_chain3 e s T u tgt) (fun '(b, s', em') => sinv s' /\ sframe s s' /\
    if (b : bool) then placed T u (fun x => nf P = 0%nat -> sumind (chains T) x < wb (md s)) em' else em' = T).
Proof.
  intros. eapply wpr_mono; [by apply find_chain3_root|]. intros [[b s'] em'] (? & ? & _ & ?). done.
Qed.
End run.
