(** Chain maps and suspended chains (PyModel.v). *)
Require Import Lia.
From stdpp Require Import base list numbers.
From Verif Require Import Base GraphModel SpecGraph PyModel SpecPy PyProofs1.
From stdpp Require Import list.
From Verif Require Import GraphModel.

Section maps.
Context {A : Type} `{!EqDecision A}.
Implicit Types (L l : list A) (a b : A).

(** the indices [D] stand for the labels [C] *)
Definition stands (L : list A) (C : list A) (D : list nat) : Prop := Forall2 (fun x k => L !! k = Some x) C D.

Lemma chain_of_spec TL C D : chain_of TL C = Ok D -> stands TL C D.
Proof.
  intros E. unfold chain_of in E.
  refine (foldM_inv_ok _ (fun dn r => stands TL dn r) C [] D (Forall2_nil_2 _ _ _) _ E).
  intros dn x rest r r' _ H Hx. destruct (lidx TL x) as [k|] eqn:Ek; [|done]. injection Hx as <-.
  apply Forall2_app; [done|]. constructor; [|constructor]. by apply lidx_Some_1.
Qed.
Lemma stands_in L C D : stands L C D -> NoDup L -> forall k, k ∈ D <-> exists x, x ∈ C /\ L !! k = Some x.
Proof.
  intros H Hnd k. split.
  - intros (i & Hi)%elem_of_list_lookup. destruct (Forall2_lookup_r _ _ _ _ _ H Hi) as (x & Hx & Hk).
    exists x. split; [|done]. by eapply elem_of_list_lookup_2.
  - intros (x & (i & Hi)%elem_of_list_lookup & Hk). destruct (Forall2_lookup_l _ _ _ _ _ H Hi) as (k' & Hk' & Hx).
    assert (k' = k) as -> by by eapply NoDup_lookup. by eapply elem_of_list_lookup_2.
Qed.
Lemma stands_NoDup L C D : stands L C D -> NoDup C -> NoDup D.
Proof.
  intros H. induction H as [|x k C D Hx H IH]; intros Hnd; [apply NoDup_nil_2|].
  apply NoDup_cons in Hnd as [Hn Hnd]. apply NoDup_cons. split; [|auto].
  intros (i & Hi)%elem_of_list_lookup. destruct (Forall2_lookup_r _ _ _ _ _ H Hi) as (x' & Hx' & Hk).
  apply Hn. assert (x' = x) as -> by congruence. by eapply elem_of_list_lookup_2.
Qed.
Lemma stands_nil L C D : stands L C D -> D = [] <-> C = [].
Proof. intros H. destruct H; done. Qed.

Lemma cm_insert_elem k C (m : list (nat * list nat)) x : k ∉ m.*1 -> x ∈ cm_insert k C m <-> x = (k, C) \/ x ∈ m.
Proof.
  induction m as [|[k' C'] m IH]; intros Hk; cbn.
  - rewrite elem_of_list_singleton, elem_of_nil. tauto.
  - rewrite fmap_cons, not_elem_of_cons in Hk. destruct Hk as [Hk1 Hk2]. cbn in Hk1.
    destruct (decide (k < k')); [rewrite !elem_of_cons; tauto|].
    destruct (decide (k = k')); [done|]. rewrite !elem_of_cons, IH by done. tauto.
Qed.
Lemma cm_insert_keys k C (m : list (nat * list nat)) : k ∉ m.*1 -> NoDup m.*1 -> NoDup (cm_insert k C m).*1.
Proof.
  intros Hk Hnd. assert (Hp : (cm_insert k C m).*1 ≡ₚ k :: m.*1).
  { clear Hnd. induction m as [|[k' C'] m IH]; cbn; [done|].
    rewrite fmap_cons, not_elem_of_cons in Hk. destruct Hk as [Hk1 Hk2]. cbn in Hk1.
    destruct (decide (k < k')); [done|]. destruct (decide (k = k')); [done|]. rewrite fmap_cons, IH by done. cbn.
    apply Permutation_swap. }
  rewrite Hp. apply NoDup_cons. done.
Qed.

(** the map [m] over indices stands for the map [C] over labels *)
Record mapped (SL TL : list A) (C : list (A * list A)) (m : list (nat * list nat)) : Prop := {
  mp_nd : NoDup m.*1;
  mp_to : forall k D, (k, D) ∈ m -> exists a ch, (a, ch) ∈ C /\ ch <> [] /\ SL !! k = Some a /\ stands TL ch D;
  mp_from : forall a ch, (a, ch) ∈ C -> ch <> [] -> exists k D, (k, D) ∈ m /\ SL !! k = Some a /\ stands TL ch D }.

Lemma get_chainmap_spec SL TL C m : NoDup SL -> NoDup C.*1 ->
  get_chainmap SL TL C = Ok m -> mapped SL TL C m.
Proof.
  intros HS HC E. unfold get_chainmap in E.
  refine (foldM_inv_ok _ (fun dn m => mapped SL TL dn m) C [] m _ _ E).
  - split; [apply NoDup_nil_2| |]; intros a ch H; by apply elem_of_nil in H.
  - intros dn [a ch] rest m0 m1 Hl [H1 H2 H3] Hx.
    assert (Hext : forall m', NoDup m'.*1 -> (forall k D, (k, D) ∈ m' -> (k, D) ∈ m0 \/ (ch <> [] /\ SL !! k = Some a /\ stands TL ch D)) ->
       (forall x, x ∈ m0 -> x ∈ m') -> (ch <> [] -> exists k D, (k, D) ∈ m' /\ SL !! k = Some a /\ stands TL ch D) ->
       mapped SL TL (dn ++ [(a, ch)]) m').
    { intros m' Hn Ha Hb Hc. split; [done| |].
      - intros k D [Hk|(Hne & Hk & Hst)]%Ha.
        + destruct (H2 _ _ Hk) as (a' & ch' & Hin & ?). exists a', ch'. split; [apply elem_of_app; by left|done].
        + exists a, ch. split; [apply elem_of_app; right; by left|done].
      - intros a' ch' [Hin|Hin%elem_of_list_singleton]%elem_of_app Hne.
        + destruct (H3 _ _ Hin Hne) as (k & D & Hk & ?). exists k, D. split; [by apply Hb|done].
        + injection Hin as -> ->. auto. }
    destruct ch as [|x ch].
    { injection Hx as <-. apply Hext; [done| |done|done]. auto. }
    destruct (chain_of TL (x :: ch)) as [D|] eqn:ED; [|done]. cbn [rbind] in Hx. apply chain_of_spec in ED.
    destruct (lidx SL a) as [k|] eqn:Ek; [|done]. injection Hx as <-. apply lidx_Some_1 in Ek.
    assert (Hk : k ∉ m0.*1).
    { intros ([k' D'] & -> & Hin)%elem_of_list_fmap. cbn in Ek. destruct (H2 _ _ Hin) as (a' & ch' & Hin' & _ & Ha' & _).
      assert (a' = a) as -> by congruence. rewrite Hl, fmap_app in HC. apply NoDup_app in HC as (_ & HC & _).
      apply (HC a); [apply elem_of_list_fmap; by exists (a, ch')|]. cbn. left. }
    apply Hext.
    + by apply cm_insert_keys.
    + intros k' D' [[= -> ->]|?]%cm_insert_elem; [right; done|by left|done].
    + intros y Hy. apply cm_insert_elem; auto.
    + intros _. exists k, D. split; [apply cm_insert_elem; auto|done].
Qed.
Lemma get_chainmap_safe (SL TL : list A) C e : get_chainmap SL TL C = Err e -> e = Corrupt.
Proof.
  unfold get_chainmap. generalize (@nil (nat * list nat)) as m. induction C as [|[a ch] C IH]; intros m; cbn; [done|].
  destruct ch as [|x ch]; [apply IH|].
  assert (HC : forall C r e', foldM (fun r x => match lidx TL x with Some k => Ok (r ++ [k]) | None => Err Corrupt end) C r = Err e' -> e' = Corrupt).
  { clear. induction C as [|y C IH]; intros r e'; cbn; [done|]. destruct (lidx TL y); cbn; [apply IH|congruence]. }
  destruct (chain_of TL (x :: ch)) as [D|e'] eqn:ED; cbn [rbind].
  - destruct (lidx SL a); cbn [rbind]; [apply IH|congruence].
  - apply HC in ED. congruence.
Qed.

(** * Suspended chains *)
Context (pin : A -> nat -> A).
Context (SL0 TL0 : list A) (Sg0 Tg0 : graph) (F0 : list (nat * list nat)).
Definition wpin (w : A * nat * list A) : A := pin w.1.1 w.1.2.

Record sus (W : list (A * nat * list A)) (s : parsed) : Prop := {
  su_SL : ps_SL s = SL0 ++ (wpin <$> W);
  su_TL : ps_TL s = TL0 ++ (wpin <$> W);
  su_ndS : NoDup (ps_SL s);
  su_ndT : NoDup (ps_TL s);
  su_pins : ps_pins s = length W;
  su_nS : gn (ps_Sg s) = length (ps_SL s);
  su_nT : gn (ps_Tg s) = length (ps_TL s);
  su_eS : forall x y, (x, y) ∈ ge (ps_Sg s) <-> (x, y) ∈ ge Sg0 \/
     exists k v i blob, W !! k = Some (v, i, blob) /\ y = length SL0 + k /\ ps_SL s !! x = Some v;
  su_eT : forall x y, (x, y) ∈ ge (ps_Tg s) <-> (x, y) ∈ ge Tg0 \/
     exists k v i blob q, W !! k = Some (v, i, blob) /\ x = length TL0 + k /\ q ∈ blob /\ ps_TL s !! y = Some q;
  su_F : forall c, c ∈ ps_fixed s <-> c ∈ F0 \/ exists k, k < length W /\ c = (length SL0 + k, [length TL0 + k]);
  su_Fnd : NoDup (ps_fixed s).*1;
  su_blob : forall k v i blob, W !! k = Some (v, i, blob) -> blob <> [] /\ v ∈ ps_SL s /\ forall q, q ∈ blob -> q ∈ ps_TL s }.

(** the edges of one pin in the target graph *)
Lemma blob_edges (z : A) (TL1 : list A) Tg1 (blob TL : list A) Tg : NoDup TL1 -> z ∉ TL1 -> gn Tg1 = length TL1 ->
  foldM (fun '(TL, Tg) q =>
      if bool_decide (q ∈ TL) then
        let '(TL, a) := lget TL z in
        let '(TL, b) := lget TL q in
        Ok (TL, gpush Tg a b)
      else Err Corrupt) blob (TL1, Tg1) = Ok (TL, Tg) ->
  TL = (match blob with [] => TL1 | _ => TL1 ++ [z] end) /\ gn Tg = length TL /\ (forall q, q ∈ blob -> q ∈ TL)
  /\ forall x y, (x, y) ∈ ge Tg <-> (x, y) ∈ ge Tg1 \/ (x = length TL1 /\ exists q, q ∈ blob /\ TL !! y = Some q).
Proof.
  intros Hnd Hz Hn E.
  refine (foldM_inv_ok _ (fun dn st => st.1 = (match dn with [] => TL1 | _ => TL1 ++ [z] end) /\ gn st.2 = length st.1
    /\ (forall q, q ∈ dn -> q ∈ st.1)
    /\ forall x y, (x, y) ∈ ge st.2 <-> (x, y) ∈ ge Tg1 \/ (x = length TL1 /\ exists q, q ∈ dn /\ st.1 !! y = Some q))
    blob (TL1, Tg1) (TL, Tg) _ _ E).
  - cbn. split; [done|]. split; [done|]. split; [intros q H; by apply elem_of_nil in H|].
    intros x y. split; [by left|]. intros [?|(_ & q & H & _)]; [done|]. by apply elem_of_nil in H.
  - clear E. intros dn q rest [TLa Tga] [TLb Tgb] _ (H1 & H2 & H3 & H4) Hx. cbn [fst snd] in *.
    case_bool_decide as Hq; [|done].
    assert (Hg : lget TLa z = (TL1 ++ [z], length TL1) /\ (forall r, r ∈ TLa -> r ∈ TL1 ++ [z])
      /\ (forall y r, TLa !! y = Some r -> (TL1 ++ [z]) !! y = Some r) /\ length TLa <= length TL1 + 1 /\ length TL1 <= length TLa).
    { destruct dn as [|d0 dn]; subst TLa.
      - unfold lget. destruct (lidx TL1 z) as [k|] eqn:Ek.
        { apply lidx_Some_1 in Ek. destruct Hz. by eapply elem_of_list_lookup_2. }
        split; [done|]. split; [intros r Hr; apply elem_of_app; by left|].
        split; [intros y r Hy; by apply lookup_app_l_Some|]. lia.
      - unfold lget. assert (Ek : lidx (TL1 ++ [z]) z = Some (length TL1)).
        { apply lidx_Some.
          - apply NoDup_app. split; [done|]. split; [|apply NoDup_singleton]. intros r Hr ->%elem_of_list_singleton. done.
          - by rewrite lookup_app_r, Nat.sub_diag by lia. }
        rewrite Ek. rewrite app_length. cbn. split; [done|]. split; [done|]. split; [done|]. lia. }
    destruct Hg as (Hg & Hin & Hlk & Hlen & Hlen'). rewrite Hg in Hx.
    assert (HndT : NoDup (TL1 ++ [z])).
    { apply NoDup_app. split; [done|]. split; [|apply NoDup_singleton]. intros r Hr ->%elem_of_list_singleton. done. }
    destruct (lget_spec (TL1 ++ [z]) q HndT) as (L' & b & Eb & _ & Hb & _ & _ & _ & Hold & _).
    rewrite Eb in Hx. rewrite (Hold (Hin _ Hq)) in *. injection Hx as <- <-.
    assert (Hm : match dn ++ [q] with [] => TL1 | _ => TL1 ++ [z] end = TL1 ++ [z]) by by destruct dn.
    rewrite Hm. split; [done|]. split; [|split].
    + cbn. apply lookup_lt_Some in Hb. rewrite app_length in *. cbn in *. lia.
    + intros r [Hr|Hr%elem_of_list_singleton]%elem_of_app; [by apply Hin, H3|]. subst r. by eapply elem_of_list_lookup_2.
    + intros x y. cbn [gpush ge]. rewrite elem_of_app, elem_of_list_singleton, H4. split.
      * intros [[?|(-> & r & Hr & Hy)]|[= -> ->]]; [by left| |].
        -- right. split; [done|]. exists r. split; [apply elem_of_app; by left|]. by apply Hlk.
        -- right. split; [done|]. exists q. split; [apply elem_of_app; right; by left|done].
      * intros [?|(-> & r & [Hr|Hr%elem_of_list_singleton]%elem_of_app & Hy)]; [auto| |].
        -- left. right. split; [done|]. exists r. split; [done|].
           apply H3 in Hr as Hr'. apply elem_of_list_lookup in Hr' as (y' & Hy').
           rewrite <- Hy'. f_equal. eapply NoDup_lookup; [exact HndT|done|]. by apply Hlk.
        -- subst r. right. f_equal. by eapply NoDup_lookup.
Qed.

Lemma add_blob_spec W s v i blob s' : (forall k C, (k, C) ∈ F0 -> k < length SL0) -> sus W s ->
  add_blob pin v s (i, blob) = Ok s' ->
  (blob = [] /\ s' = s) \/ (blob <> [] /\ sus (W ++ [(v, i, blob)]) s').
Proof.
  intros HF0 HW E. destruct HW as [h1 h2 h3 h4 h5 h6 h7 h8 h9 h10 h11 h12]. unfold add_blob in E.
  case_bool_decide as HzS; [done|]. case_bool_decide as HzT; [done|].
  destruct (foldM _ blob _) as [[TL Tg]|] eqn:Ef; [|done]. cbn [rbind] in E.
  apply blob_edges in Ef as (HTL & HnT & HqT & HeT); [|done..].
  destruct blob as [|q0 blob].
  { left. injection E as <-. done. }
  right. split; [done|]. set (bl := q0 :: blob) in *.
  destruct (lget_spec (ps_SL s) (pin v i) h3) as (SL & k & Ek & HndS & Hk & _ & _ & _ & _ & HnewS).
  destruct (HnewS HzS) as [HSL ->]. rewrite Ek in E.
  assert (HndT : NoDup TL).
  { rewrite HTL. apply NoDup_app. split; [done|]. split; [|apply NoDup_singleton]. intros r Hr ->%elem_of_list_singleton. done. }
  destruct (lget_spec TL (pin v i) HndT) as (TL' & t & Et & _ & Ht & _ & _ & _ & HoldT & _).
  assert (HTL' : TL' = TL). { apply HoldT. rewrite HTL. apply elem_of_app. right. by left. }
  rewrite Et in E. subst TL'.
  assert (t = length (ps_TL s)) as ->.
  { eapply NoDup_lookup; [exact HndT|done|]. rewrite HTL, lookup_app_r, Nat.sub_diag by lia. done. }
  case_bool_decide as Hv; [|done].
  destruct (lget_spec SL v HndS) as (SL' & u & Eu & _ & Hu & _ & _ & _ & HoldS & _).
  rewrite (HoldS Hv) in *. rewrite Eu in E. injection E as <-.
  assert (HlS : length (ps_SL s) = length SL0 + length W) by by rewrite h1, app_length, fmap_length.
  assert (HlT : length (ps_TL s) = length TL0 + length W) by by rewrite h2, app_length, fmap_length.
  assert (HkF : length (ps_SL s) ∉ (ps_fixed s).*1).
  { intros ([k' D] & Hk' & Hin)%elem_of_list_fmap. cbn in Hk'. apply h10 in Hin as [Hin|(j & Hj & [= -> ->])].
    - apply HF0 in Hin. lia.
    - lia. }
  split; cbn [ps_SL ps_TL ps_Sg ps_Tg ps_fixed ps_pins].
  - by rewrite HSL, h1, fmap_app, <- app_assoc.
  - by rewrite HTL, h2, fmap_app, <- app_assoc.
  - done.
  - done.
  - rewrite app_length. cbn. lia.
  - cbn. apply lookup_lt_Some in Hu. rewrite HSL, app_length in *. cbn in *. lia.
  - done.
  - intros x y. cbn [gpush ge]. rewrite elem_of_app, elem_of_list_singleton, h8. split.
    + intros [[?|(k & v' & i' & b' & Hk' & -> & Hx)]|[= -> ->]]; [by left| |].
      * right. exists k, v', i', b'. split; [by apply lookup_app_l_Some|]. split; [done|].
        rewrite HSL. by apply lookup_app_l_Some.
      * right. exists (length W), v, i, bl. split; [by rewrite lookup_app_r, Nat.sub_diag by lia|]. split; [lia|done].
    + intros [?|(k & v' & i' & b' & Hk' & -> & Hx)]; [auto|].
      destruct (decide (k < length W)) as [Hlt|Hge].
      * left. right. rewrite lookup_app_l in Hk' by done. exists k, v', i', b'. split; [done|]. split; [done|].
        destruct (h12 _ _ _ _ Hk') as (_ & Hv' & _). apply elem_of_list_lookup in Hv' as (x' & Hx'). rewrite <- Hx'. f_equal.
        eapply NoDup_lookup; [exact HndS|done|]. rewrite HSL. by apply lookup_app_l_Some.
      * rewrite lookup_app_r in Hk' by lia. apply list_lookup_singleton_Some in Hk' as [Hk0 [= <- <- <-]].
        right. f_equal; [|lia]. exact (NoDup_lookup SL x u v HndS Hx Hu).
  - intros x y. rewrite HeT, h9. split.
    + intros [[?|(k & v' & i' & b' & q & Hk' & -> & Hq & Hy)]|(-> & q & Hq & Hy)]; [by left| |].
      * right. exists k, v', i', b', q. split; [by apply lookup_app_l_Some|]. split; [done|]. split; [done|].
        rewrite HTL. by apply lookup_app_l_Some.
      * right. exists (length W), v, i, bl, q. split; [by rewrite lookup_app_r, Nat.sub_diag by lia|]. split; [lia|done].
    + intros [?|(k & v' & i' & b' & q & Hk' & -> & Hq & Hy)]; [auto|].
      destruct (decide (k < length W)) as [Hlt|Hge].
      * left. right. rewrite lookup_app_l in Hk' by done. exists k, v', i', b', q. split; [done|]. split; [done|]. split; [done|].
        destruct (h12 _ _ _ _ Hk') as (_ & _ & Hb'). apply Hb', elem_of_list_lookup in Hq as (y' & Hy'). rewrite <- Hy'. f_equal.
        eapply NoDup_lookup; [exact HndT|done|]. rewrite HTL. by apply lookup_app_l_Some.
      * rewrite lookup_app_r in Hk' by lia. apply list_lookup_singleton_Some in Hk' as [Hk0 [= <- <- <-]].
        right. split; [lia|]. by exists q.
  - intros c. rewrite cm_insert_elem by done. rewrite h10, app_length. cbn [length]. split.
    + intros [->|[?|(k & Hk' & ->)]]; [|by left|].
      * right. exists (length W). split; [lia|]. by rewrite HlS, HlT.
      * right. exists k. split; [lia|done].
    + intros [?|(k & Hk' & ->)]; [auto|]. destruct (decide (k < length W)).
      * right. right. by exists k.
      * left. assert (k = length W) as -> by lia. by rewrite HlS, HlT.
  - by apply cm_insert_keys.
  - intros k v' i' b' Hk'. destruct (decide (k < length W)) as [Hlt|Hge].
    + rewrite lookup_app_l in Hk' by done. destruct (h12 _ _ _ _ Hk') as (H1 & H2 & H3). split; [done|]. split.
      * rewrite HSL. apply elem_of_app. by left.
      * intros q Hq. rewrite HTL. apply elem_of_app. left. auto.
    + rewrite lookup_app_r in Hk' by lia. apply list_lookup_singleton_Some in Hk' as [Hk0 [= <- <- <-]]. done.
Qed.

(** all blobs of a dict of suspended chains *)
Definition covers (W : list (A * nat * list A)) (X : list (A * list (list A))) : Prop :=
  forall v blobs blob, (v, blobs) ∈ X -> blob ∈ blobs -> blob <> [] -> exists i, (v, i, blob) ∈ W.

Lemma add_suspension_spec W s v blobs s' : (forall k C, (k, C) ∈ F0 -> k < length SL0) -> sus W s ->
  add_suspension pin s (v, blobs) = Ok s' ->
  exists W', sus (W ++ W') s' /\ length W' <= length blobs
    /\ forall blob, blob ∈ blobs -> blob <> [] -> exists i, (v, i, blob) ∈ W'.
Proof.
  intros HF0 HW E. unfold add_suspension in E. cbn [fst snd] in E.
  assert (G : forall (bs : list (nat * list A)) s1, foldM (add_blob pin v) bs s = Ok s1 ->
    exists W', sus (W ++ W') s1 /\ length W' <= length bs
      /\ forall i blob, (i, blob) ∈ bs -> blob <> [] -> (v, i, blob) ∈ W').
  { intros bs s1 E1.
    refine (foldM_inv_ok _ (fun dn s1 => exists W', sus (W ++ W') s1 /\ length W' <= length dn
      /\ forall i blob, (i, blob) ∈ dn -> blob <> [] -> (v, i, blob) ∈ W') bs s s1 _ _ E1).
    - exists []. rewrite app_nil_r. split; [done|]. split; [done|]. intros i blob H. by apply elem_of_nil in H.
    - intros dn [i blob] rest sa sb _ (W' & Hs & Hl & Hc) Ha.
      destruct (add_blob_spec _ _ _ _ _ _ HF0 Hs Ha) as [[-> ->]|[Hne Hs']].
      + exists W'. split; [done|]. rewrite app_length. cbn. split; [lia|].
        intros i' blob' [Hin|[= -> ->]%elem_of_list_singleton]%elem_of_app Hne; [auto|done].
      + exists (W' ++ [(v, i, blob)]). rewrite app_assoc. split; [done|]. rewrite !app_length. cbn. split; [lia|].
        intros i' blob' [Hin|[= -> ->]%elem_of_list_singleton]%elem_of_app Hne'; apply elem_of_app; [left; auto|right; by left]. }
  destruct (G _ _ E) as (W' & Hs & Hl & Hc). exists W'. split; [done|]. rewrite imap_length in Hl. split; [done|].
  intros blob (i & Hi)%elem_of_list_lookup Hne. exists i. apply Hc; [|done].
  apply elem_of_list_lookup. exists i. by rewrite list_lookup_imap, Hi.
Qed.

Lemma suspensions_spec s X s' : (forall k C, (k, C) ∈ F0 -> k < length SL0) -> sus [] s ->
  foldM (add_suspension pin) X s = Ok s' ->
  exists W, sus W s' /\ length W <= length (concat (snd <$> X)) /\ covers W X.
Proof.
  intros HF0 HW E.
  refine (foldM_inv_ok _ (fun dn s1 => exists W, sus W s1 /\ length W <= length (concat (snd <$> dn)) /\ covers W dn) X s s' _ _ E).
  - exists []. split; [done|]. split; [done|]. intros v blobs blob H. by apply elem_of_nil in H.
  - intros dn [v blobs] rest sa sb _ (W & Hs & Hl & Hc) Ha.
    destruct (add_suspension_spec _ _ _ _ _ HF0 Hs Ha) as (W' & Hs' & Hl' & Hc').
    exists (W ++ W'). split; [done|]. rewrite fmap_app, concat_app, !app_length. cbn. rewrite app_nil_r. split; [lia|].
    intros v' blobs' blob [Hin|[= -> ->]%elem_of_list_singleton]%elem_of_app Hb Hne.
    + destruct (Hc _ _ _ Hin Hb Hne) as [i Hi]. exists i. apply elem_of_app. by left.
    + destruct (Hc' _ Hb Hne) as [i Hi]. exists i. apply elem_of_app. by right.
Qed.
End maps.
