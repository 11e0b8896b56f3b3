(** A region that was found is marked, and so all rectangles get places that do not overlap. *)
From Coq Require Import ZArith Lia.
From stdpp Require Import base list numbers.
From Verif Require Import GridModel SpecLayoutGen SpecRpack GridProofs.

Definition const_on (rows cols : list cell) (M : marks) : Prop :=
  forall s e s' e' b a, (s, e) ∈ rows -> (s', e') ∈ cols -> (s <= b < e)%Z -> (s' <= a < e')%Z -> M b a = M s s'.
Definition aligned (l : list cell) (lo hi : Z) : Prop :=
  forall s e, (s, e) ∈ l -> (s < e)%Z /\ ((lo <= s /\ e <= hi) \/ e <= lo \/ hi <= s)%Z.
Lemma set_const rows cols M lo hi lo' hi' v : const_on rows cols M -> aligned rows lo hi -> aligned cols lo' hi' ->
  const_on rows cols (set_marks M lo hi lo' hi' v).
Proof.
  intros D A1 A2 s e s' e' b a Hr Hc Hb Ha. destruct (A1 _ _ Hr), (A2 _ _ Hc).
  destruct (set_marks_case M lo hi lo' hi' v b a) as [(? & ? & ->)|[? ->]].
  - rewrite set_marks_in by lia. done.
  - rewrite set_marks_out by lia. by eapply D.
Qed.
Lemma cut_sub l p s e : (s, e) ∈ cut l p -> exists s0 e0, (s0, e0) ∈ l /\ (s0 <= s)%Z /\ (e <= e0)%Z.
Proof.
  intros [?|(s0 & e0 & ? & ? & [E|E])]%cut_in; [exists s, e|exists s0, e0..]; (split; [done|]); simplify_eq; lia.
Qed.
Lemma const_cut lo hi lo' hi' rows cols M p q : chain lo hi rows -> chain lo' hi' cols -> const_on rows cols M -> const_on (cut rows p) (cut cols q) M.
Proof.
  intros Hc1 Hc2 D s e s' e' b a Hr Hc Hb Ha.
  destruct (cut_sub _ _ _ _ Hr) as (s0 & e0 & H1 & ? & ?). destruct (cut_sub _ _ _ _ Hc) as (s0' & e0' & H2 & ? & ?).
  rewrite (D s0 e0 s0' e0' b a) by (done || lia). rewrite (D s0 e0 s0' e0' s s') by (done || lia). done.
Qed.
Lemma start_side lo hi l p e0 s e : chain lo hi l -> (p, e0) ∈ l -> (s, e) ∈ l -> (s < e)%Z /\ (e <= p \/ (s = p /\ e = e0) \/ e0 <= s)%Z.
Proof.
  intros Hc Hp Hs. pose proof (chain_in _ _ _ _ _ Hc Hp). pose proof (chain_in _ _ _ _ _ Hc Hs). split; [lia|].
  destruct (decide (e <= p)%Z); [auto|]. destruct (decide (e0 <= s)%Z); [auto|]. right. left.
  destruct (decide (s <= p)%Z); [apply (chain_eq _ _ _ s e p e0 p Hc Hs Hp); lia|].
  apply (chain_eq _ _ _ s e p e0 s Hc Hs Hp); lia.
Qed.
Lemma supported_mono P r x y : supported P x y -> supported (r :: P) x y.
Proof. intros [->|(x' & y' & w' & h' & Hr & ?)]; [by left|]. right. exists x', y', w', h'. split; [by right|done]. Qed.

Section step.
  Context (W H : Z).
  Lemma split_spec rows cols P M x y w h : placed W H rows cols P -> marked rows cols P M -> (0 < w)%Z -> (0 < h)%Z ->
    free_at W H rows cols P M x y w h ->
    let g := split H x y w h (Grid rows cols M) in
    placed W H (g_rows g) (g_cols g) (((x, y), (w, h)) :: P) /\ marked (g_rows g) (g_cols g) (((x, y), (w, h)) :: P) (g_marks g).
  Proof.
    intros HP HM Hw Hh HF. assert (HA := free_apart W H rows cols P HP M x y w h HM HF).
    destruct HF as ((ex & Hex) & (ey & Hey) & Hsup & HW & HH & _ & _). cbv zeta. unfold split. simpl.
    assert (Cr := cut_chain _ _ _ (y + h)%Z (p_rows _ _ _ _ _ HP)). assert (Cc := cut_chain _ _ _ (x + w)%Z (p_cols _ _ _ _ _ HP)).
    destruct (cut_start _ (x + w)%Z _ _ Hex) as (fc & Hfc & _). destruct (cut_start _ (y + h)%Z _ _ Hey) as (fr & Hfr & _).
    rewrite (end_of_in _ _ _ _ _ Cr Hfr), (end_of_in _ _ _ _ _ Cc Hfc).
    assert (Bc := chain_in _ _ _ _ _ Cc Hfc). assert (Br := chain_in _ _ _ _ _ Cr Hfr).
    assert (Lc : (fc <= x + w)%Z) by (destruct (cut_side _ _ _ _ _ _ (p_cols _ _ _ _ _ HP) Hfc); lia).
    assert (Lr : (fr <= y + h)%Z) by (destruct (cut_side _ _ _ _ _ _ (p_rows _ _ _ _ _ HP) Hfr); lia).
    set (v := if (y + h =? H)%Z then Full else To (y + h)%Z).
    assert (Hv : v <> Free) by (unfold v; by destruct (y + h =? H)%Z).
    assert (Hvt : forall t, v = To t -> t = (y + h)%Z) by (unfold v; intros t; destruct (y + h =? H)%Z; congruence).
    clearbody v. split; split.
    - done.
    - done.
    - intros x' y' w' h' [E|Hr]%elem_of_cons; [simplify_eq; eauto 6|].
      destruct (p_in _ _ _ _ _ HP _ _ _ _ Hr) as (? & ? & [e1 H1] & [e2 H2]). split; [done|]. split; [done|].
      destruct (cut_start _ (x + w)%Z _ _ H1) as (e1' & ? & _). destruct (cut_start _ (y + h)%Z _ _ H2) as (e2' & ? & _). eauto.
    - intros x' y' w' h' [E|Hr]%elem_of_cons; apply supported_mono; [by simplify_eq|by eapply (p_sup _ _ _ _ _ HP)].
    - intros r r' [->|Hr]%elem_of_cons [->|Hr']%elem_of_cons Ho; [done|..].
      + destruct (HA r' Hr' Ho).
      + destruct (HA r Hr). destruct Ho as (ab & ? & ?). by exists ab.
      + by apply (p_dis _ _ _ _ _ HP).
    - apply set_const; [apply set_const|..].
      + eapply const_cut; [apply HP|apply HP|exact (m_const _ _ _ _ HM)].
      + intros s e Hs. destruct (start_side _ _ _ _ _ _ _ Cr Hfr Hs) as [? K].
        destruct (cut_side _ _ _ _ _ _ (p_rows _ _ _ _ _ HP) Hs); lia.
      + intros s e Hs. destruct (start_side _ _ _ _ _ _ _ Cc Hfc Hs) as [? K]. lia.
      + intros s e Hs. destruct (start_side _ _ _ _ _ _ _ Cr Hfr Hs) as [? K]. lia.
      + intros s e Hs. destruct (start_side _ _ _ _ _ _ _ Cc Hfc Hs) as [? K].
        destruct (cut_side _ _ _ _ _ _ (p_cols _ _ _ _ _ HP) Hs); lia.
    - intros x' y' w' h' b Hr Hb. destruct (set_marks_case (set_marks M y (y + h) x fc v) y fr fc (x + w) v b x') as [(_ & _ & ->)|[_ ->]]; [done|].
      apply elem_of_cons in Hr as [E|Hr].
      + simplify_eq. rewrite set_marks_in by lia. done.
      + destruct (set_marks_case M y (y + h) x fc v b x') as [(_ & _ & ->)|[_ ->]]; [done|]. by eapply (m_left _ _ _ _ HM).
    - intros x' y' w' h' a Hr Ha. destruct (set_marks_case (set_marks M y (y + h) x fc v) y fr fc (x + w) v y' a) as [(_ & _ & ->)|[K ->]]; [done|].
      apply elem_of_cons in Hr as [E|Hr].
      + simplify_eq. rewrite set_marks_in by lia. done.
      + destruct (set_marks_case M y (y + h) x fc v y' a) as [(_ & _ & ->)|[_ ->]]; [done|]. by eapply (m_top _ _ _ _ HM).
    - intros b a t. assert (Hnew : v = To t -> (x <= a < x + w)%Z -> supported ((x, y, (w, h)) :: P) a t).
      { intros E Ha. right. exists x, y, w, h. split; [by left|]. rewrite (Hvt t E). done. }
      destruct (set_marks_case (set_marks M y (y + h) x fc v) y fr fc (x + w) v b a) as [(_ & ? & ->)|[_ ->]]; [intros E; apply Hnew; [done|lia]|].
      destruct (set_marks_case M y (y + h) x fc v b a) as [(_ & ? & ->)|[_ ->]]; [intros E; apply Hnew; [done|lia]|].
      intros E. apply supported_mono. by eapply (m_to _ _ _ _ HM).
  Qed.

  Lemma place_all_spec sizes : forall g P ps, (forall w h, (w, h) ∈ sizes -> (0 < w)%Z /\ (0 < h)%Z) ->
    placed W H (g_rows g) (g_cols g) P -> marked (g_rows g) (g_cols g) P (g_marks g) -> place_all W H sizes g = Some ps ->
    length ps = length sizes /\
    (forall x y w h, ((x, y), (w, h)) ∈ zip ps sizes -> (0 <= x)%Z /\ (x + w <= W)%Z /\ (0 <= y)%Z /\ (y + h <= H)%Z) /\
    (forall r r', r ∈ P -> r' ∈ zip ps sizes -> ~ overlap r r') /\
    (forall i j r r', i < j -> zip ps sizes !! i = Some r -> zip ps sizes !! j = Some r' -> ~ overlap r r').
  Proof.
    induction sizes as [|[w h] sizes IH]; intros [rows cols M] P ps Hs HP HM; simpl in *.
    { intros [= <-]. split; [done|]. split; [intros ? ? ? ? Hi; inversion Hi|]. split; [intros ? ? _ Hi; inversion Hi|done]. }
    destruct (Hs w h) as [Hw Hh]; [by left|].
    destruct (find_region W w h rows cols M) as [r M1] eqn:E.
    destruct (find_region_spec W H rows cols P HP w h Hw Hh cols 0%Z M r M1) as [HM1 HF]; [apply HP|done|done|done|].
    destruct r as [[x y]|]; [|done]. specialize (HF x y eq_refl).
    assert (HA := free_apart W H rows cols P HP M1 x y w h HM1 HF).
    destruct (split_spec rows cols P M1 x y w h HP HM1 Hw Hh HF) as [HP2 HM2].
    destruct (place_all W H sizes _) as [ps'|] eqn:E2; [|done]. intros [= <-].
    destruct (IH _ _ _ (fun w h Hi => Hs w h (elem_of_list_further _ _ _ Hi)) HP2 HM2 E2) as (I1 & I2 & I3 & I4).
    destruct HF as ((ex & Hex) & (ey & Hey) & _ & HW & HH & _).
    assert (Bx := chain_in _ _ _ _ _ (p_cols _ _ _ _ _ HP) Hex). assert (By := chain_in _ _ _ _ _ (p_rows _ _ _ _ _ HP) Hey).
    simpl. split; [by rewrite I1|]. split; [|split].
    - intros x' y' w' h' [E'|Hi]%elem_of_cons; [simplify_eq; lia|by apply I2].
    - intros r r' Hr [->|Hi]%elem_of_cons.
      + intros (ab & ? & ?). apply (HA r Hr). by exists ab.
      + apply I3; [by right|done].
    - intros [|i] [|j] r r' Hij Hi Hj; simpl in *; [lia| |lia|apply (I4 i j); [lia|done|done]].
      simplify_eq. apply I3; [by left|by eapply elem_of_list_lookup_2].
  Qed.
  Lemma grid_pack_spec sizes ps : (0 < W)%Z -> (0 < H)%Z -> (forall w h, (w, h) ∈ sizes -> (0 < w)%Z /\ (0 < h)%Z) -> grid_pack W H sizes = Some ps ->
    length ps = length sizes /\
    (forall x y w h, ((x, y), (w, h)) ∈ zip ps sizes -> (0 <= x)%Z /\ (x + w <= W)%Z /\ (0 <= y)%Z /\ (y + h <= H)%Z) /\
    (forall i j r r', i <> j -> zip ps sizes !! i = Some r -> zip ps sizes !! j = Some r' -> ~ overlap r r').
  Proof.
    intros HW HH Hs E. destruct (place_all_spec sizes (Grid [(0, H)%Z] [(0, W)%Z] (fun _ _ => Free)) [] ps Hs) as (I1 & I2 & _ & I4).
    - split; simpl; [lia|lia|..]. all: intros; match goal with Hi : _ ∈ [] |- _ => inversion Hi end.
    - split; simpl; try done. all: intros; match goal with Hi : _ ∈ [] |- _ => inversion Hi end.
    - done.
    - split; [done|]. split; [done|]. intros i j r r' Hn Hi Hj. destruct (decide (i < j)); [by apply (I4 i j)|].
      intros (ab & ? & ?). apply (I4 j i r' r); [lia|done|done|]. by exists ab.
  Qed.
End step.
