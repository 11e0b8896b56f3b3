(** The regions found in the grid do not overlap. *)
From Coq Require Import ZArith Lia.
From stdpp Require Import base list numbers.
From Verif Require Import GridModel SpecLayoutGen SpecRpack.

Fixpoint chain (lo hi : Z) (l : list cell) : Prop :=
  match l with [] => lo = hi | (s, e) :: l => s = lo /\ (s < e)%Z /\ chain e hi l end.
Lemma chain_le lo hi l : chain lo hi l -> (lo <= hi)%Z.
Proof. revert lo. induction l as [|[s e] l IH]; intros lo; simpl; [lia|]. intros (-> & ? & H). apply IH in H. lia. Qed.
Lemma chain_in lo hi l s e : chain lo hi l -> (s, e) ∈ l -> (lo <= s /\ s < e /\ e <= hi)%Z.
Proof.
  revert lo. induction l as [|[s' e'] l IH]; intros lo; simpl; [intros _ H; inversion H|].
  intros (-> & ? & H) [E|Hin]%elem_of_cons; [injection E as -> ->; apply chain_le in H; lia|]. specialize (IH _ H Hin). lia.
Qed.
Lemma chain_at lo hi l p : chain lo hi l -> (lo <= p < hi)%Z -> exists s e, (s, e) ∈ l /\ (s <= p < e)%Z.
Proof.
  revert lo. induction l as [|[s e] l IH]; intros lo; simpl; [lia|]. intros (-> & ? & H) Hp.
  destruct (decide (p < e)%Z); [exists lo, e; split; [by left|lia]|].
  destruct (IH _ H) as (s & e' & ? & ?); [lia|]. exists s, e'. split; [by right|done].
Qed.
Lemma chain_eq lo hi l s e s' e' p : chain lo hi l -> (s, e) ∈ l -> (s', e') ∈ l -> (s <= p < e)%Z -> (s' <= p < e')%Z -> s = s' /\ e = e'.
Proof.
  revert lo. induction l as [|[s0 e0] l IH]; intros lo; simpl; [intros _ H; inversion H|].
  intros (-> & ? & H) [E|H1]%elem_of_cons [E'|H2]%elem_of_cons Hp Hp'.
  - by simplify_eq.
  - simplify_eq. apply (chain_in _ _ _ _ _ H) in H2. lia.
  - simplify_eq. apply (chain_in _ _ _ _ _ H) in H1. lia.
  - eauto.
Qed.
Lemma cut_chain lo hi l p : chain lo hi l -> chain lo hi (cut l p).
Proof.
  revert lo. induction l as [|[s e] l IH]; intros lo; simpl; [done|]. intros (-> & ? & H).
  destruct (Z.ltb_spec lo p), (Z.ltb_spec p e); simpl; auto.
Qed.
(** every cell of the new list lies in one of the old list, and starts stay *)
Lemma cut_in l p s e : (s, e) ∈ cut l p -> (s, e) ∈ l \/ exists s0 e0, (s0, e0) ∈ l /\ (s0 < p < e0)%Z /\ ((s, e) = (s0, p) \/ (s, e) = (p, e0)).
Proof.
  induction l as [|[s0 e0] l IH]; simpl; [auto|].
  destruct (Z.ltb_spec s0 p), (Z.ltb_spec p e0); simpl.
  1: { intros [E|[E|Hi]%elem_of_cons]%elem_of_cons; [..|left; by right]; right; exists s0, e0; (split; [by left|]); (split; [lia|]); auto. }
  all: intros [E|Hi]%elem_of_cons; [left; rewrite E; by left|].
  all: destruct (IH Hi) as [?|(s1 & e1 & ? & ? & ?)]; [left; by right|right; exists s1, e1; split; [by right|auto]].
Qed.
Lemma cut_start l p s e : (s, e) ∈ l -> exists e', (s, e') ∈ cut l p /\ (e' <= e)%Z.
Proof.
  induction l as [|[s0 e0] l IH]; simpl; [intros H; inversion H|].
  destruct (Z.ltb_spec s0 p), (Z.ltb_spec p e0); simpl.
  1: { intros [E|Hi]%elem_of_cons; [simplify_eq; exists p; split; [by left|lia]|exists e; split; [by do 2 right|lia]]. }
  all: intros [E|Hi]%elem_of_cons; [simplify_eq; exists e0; split; [by left|lia]|].
  all: destruct (IH Hi) as (e' & ? & ?); exists e'; split; [by right|done].
Qed.
Lemma cut_at lo hi l p : chain lo hi l -> (lo < p)%Z -> (p < hi)%Z -> exists e, (p, e) ∈ cut l p.
Proof.
  revert lo. induction l as [|[s0 e0] l IH]; intros lo; simpl; [lia|]. intros (-> & ? & H) H1 H2.
  destruct (Z.ltb_spec lo p), (Z.ltb_spec p e0); simpl; [exists e0; right; by left|..|lia|lia].
  destruct (decide (p = e0)) as [->|].
  - destruct l as [|[s e] l]; simpl in *; [lia|]. destruct H as (-> & ? & _). exists e. right.
    destruct (Z.ltb_spec e0 e0); [lia|]. simpl. by left.
  - destruct (IH _ H) as [e Hi]; [lia|lia|]. exists e. by right.
Qed.
Lemma end_of_in lo hi l s e : chain lo hi l -> (s, e) ∈ l -> end_of l s = e.
Proof.
  revert lo. induction l as [|[s' e'] l IH]; intros lo; simpl; [intros _ H; inversion H|].
  intros (-> & ? & H) [E|Hi]%elem_of_cons; [simplify_eq; by rewrite Z.eqb_refl|].
  pose proof (chain_in _ _ _ _ _ H Hi). destruct (Z.eqb_spec lo s); [lia|]. eauto.
Qed.
(** a cell of a list cut at [p] lies on one side of [p] *)
Lemma cut_side lo hi l p s e : chain lo hi l -> (s, e) ∈ cut l p -> (e <= p)%Z \/ (p <= s)%Z.
Proof.
  intros Hc Hi. pose proof (chain_in _ _ _ _ _ (cut_chain _ _ _ p Hc) Hi) as Hb.
  destruct (decide (e <= p)%Z); [auto|]. destruct (decide (p <= s)%Z); [auto|]. exfalso.
  destruct (cut_at lo hi l p Hc) as [e' He']; [lia..|].
  pose proof (chain_in _ _ _ _ _ (cut_chain _ _ _ p Hc) He').
  destruct (chain_eq _ _ _ s e p e' p (cut_chain _ _ _ p Hc) Hi He'); lia.
Qed.

Lemma set_marks_in M s e s' e' v b a : (s <= b < e)%Z -> (s' <= a < e')%Z -> set_marks M s e s' e' v b a = v.
Proof.
  intros. unfold set_marks. destruct (Z.leb_spec s b), (Z.ltb_spec b e), (Z.leb_spec s' a), (Z.ltb_spec a e'); simpl; auto; lia.
Qed.
Lemma set_marks_out M s e s' e' v b a : ~ ((s <= b < e)%Z /\ (s' <= a < e')%Z) -> set_marks M s e s' e' v b a = M b a.
Proof.
  intros. unfold set_marks. destruct (Z.leb_spec s b), (Z.ltb_spec b e), (Z.leb_spec s' a), (Z.ltb_spec a e'); simpl; auto; lia.
Qed.
Lemma set_marks_case M s e s' e' v b a :
  ((s <= b < e)%Z /\ (s' <= a < e')%Z /\ set_marks M s e s' e' v b a = v) \/
  (~ ((s <= b < e)%Z /\ (s' <= a < e')%Z) /\ set_marks M s e s' e' v b a = M b a).
Proof.
  destruct (decide ((s <= b < e)%Z /\ (s' <= a < e')%Z)) as [[? ?]|]; [left|right].
  - split; [done|]. split; [done|]. by apply set_marks_in.
  - split; [done|]. by apply set_marks_out.
Qed.

Section grid.
  Context (W H : Z).
  Definition supported (P : list rectangle) (x y : Z) : Prop :=
    y = 0%Z \/ exists x' y' w' h', ((x', y'), (w', h')) ∈ P /\ (y' + h' = y)%Z /\ (x' <= x < x' + w')%Z.
  (** the matrix belongs to the cells and the placed rectangles *)
  Record marked (rows cols : list cell) (P : list rectangle) (M : marks) : Prop := Marked {
    m_const : forall s e s' e' b a, (s, e) ∈ rows -> (s', e') ∈ cols -> (s <= b < e)%Z -> (s' <= a < e')%Z -> M b a = M s s';
    m_left : forall x y w h b, ((x, y), (w, h)) ∈ P -> (y <= b < y + h)%Z -> M b x <> Free;
    m_top : forall x y w h a, ((x, y), (w, h)) ∈ P -> (x <= a < x + w)%Z -> M y a <> Free;
    m_to : forall b a t, M b a = To t -> supported P a t }.
  Record placed (rows cols : list cell) (P : list rectangle) : Prop := Placed {
    p_rows : chain 0 H rows;
    p_cols : chain 0 W cols;
    p_in : forall x y w h, ((x, y), (w, h)) ∈ P -> (0 < w)%Z /\ (0 < h)%Z /\ (exists e, (x, e) ∈ cols) /\ (exists e, (y, e) ∈ rows);
    p_sup : forall x y w h, ((x, y), (w, h)) ∈ P -> supported P x y;
    p_dis : forall r r', r ∈ P -> r' ∈ P -> overlap r r' -> r = r' }.

  Section search.
    Context (rows cols : list cell) (P : list rectangle) (HP : placed rows cols P).
    Lemma keep M j c s e v : marked rows cols P M -> j ∈ rows -> c ∈ cols -> (s, e) ∈ rows -> M s c.1 = v -> v <> Free ->
      marked rows cols P (set_marks M j.1 j.2 c.1 c.2 v).
    Proof using HP.
      destruct j as [js je], c as [cs ce]. simpl. intros [D L T C] Hj Hc Hs Hv Hn.
      assert (Bj := chain_in _ _ _ _ _ (p_rows _ _ _ HP) Hj). assert (Bc := chain_in _ _ _ _ _ (p_cols _ _ _ HP) Hc).
      assert (Bs := chain_in _ _ _ _ _ (p_rows _ _ _ HP) Hs). split.
      - intros s1 e1 s1' e1' b a H1 H1' Hb Ha.
        assert (B1 := chain_in _ _ _ _ _ (p_rows _ _ _ HP) H1). assert (B1' := chain_in _ _ _ _ _ (p_cols _ _ _ HP) H1').
        destruct (set_marks_case M js je cs ce v b a) as [(X1 & X2 & ->)|[X ->]].
        + destruct (chain_eq _ _ _ js je s1 e1 b (p_rows _ _ _ HP) Hj H1 X1 Hb) as [-> ->].
          destruct (chain_eq _ _ _ cs ce s1' e1' a (p_cols _ _ _ HP) Hc H1' X2 Ha) as [-> ->].
          rewrite set_marks_in by lia. done.
        + rewrite set_marks_out; [by eapply D|]. intros [Y1 Y2]. apply X.
          destruct (chain_eq _ _ _ js je s1 e1 s1 (p_rows _ _ _ HP) Hj H1 Y1) as [-> ->]; [lia|].
          destruct (chain_eq _ _ _ cs ce s1' e1' s1' (p_cols _ _ _ HP) Hc H1' Y2) as [-> ->]; [lia|]. done.
      - intros x y w h b Hr Hb. destruct (set_marks_case M js je cs ce v b x) as [(_ & _ & ->)|[_ ->]]; [done|eauto].
      - intros x y w h a Hr Ha. destruct (set_marks_case M js je cs ce v y a) as [(_ & _ & ->)|[_ ->]]; [done|eauto].
      - intros b a t. destruct (set_marks_case M js je cs ce v b a) as [(_ & X & ->)|[_ ->]]; [|apply C].
        intros ->. apply (C s a). rewrite <- Hv. eapply D; [exact Hs|exact Hc|lia|done].
    Qed.
    Lemma scan_rows_spec h c : (0 < h)%Z -> c ∈ cols -> forall rs cur skip y jf M r M',
      chain cur H rs -> (forall c, c ∈ rs -> c ∈ rows) -> marked rows cols P M -> (forall j, jf = Some j -> j ∈ rows) ->
      supported P c.1 y ->
      match skip with
      | None => (0 <= y <= cur)%Z /\ (y = cur \/ exists e, (y, e) ∈ rows) /\ (forall s e, (s, e) ∈ rows -> (y <= s < cur)%Z -> M s c.1 = Free)
                /\ (cur < y + h)%Z
      | Some t => y = t end ->
      scan_rows h c rs skip y jf M = (r, M') ->
      marked rows cols P M' /\ forall y0, r = Some y0 -> supported P c.1 y0 /\ (exists e, (y0, e) ∈ rows) /\ (y0 + h <= H)%Z /\
        forall s e, (s, e) ∈ rows -> (y0 <= s < y0 + h)%Z -> M' s c.1 = Free.
    Proof using HP.
      intros Hh Hc. induction rs as [|[s e] rs IH]; intros cur skip y jf M r M' Hch Hsub HM Hj Hy Hsk; simpl.
      { intros [= <- <-]. split; [done|]. intros ? [=]. }
      destruct Hch as (-> & Hse & Hch). assert (Hin : (cur, e) ∈ rows) by (apply Hsub; by left).
      assert (Bin := chain_in _ _ _ _ _ (p_rows _ _ _ HP) Hin).
      assert (Hsub' : forall c, c ∈ rs -> c ∈ rows) by (intros; apply Hsub; by right).
      destruct (match skip with Some t => negb (cur =? t)%Z | None => false end) eqn:Ek.
      { destruct skip as [t|]; [|done]. intros E. apply (IH e (Some t) y jf M r M'); [exact Hch|exact Hsub'|exact HM|exact Hj|exact Hy|exact Hsk|exact E]. }
      assert (HY : (0 <= y <= cur)%Z /\ (exists e, (y, e) ∈ rows) /\ (forall s e, (s, e) ∈ rows -> (y <= s < cur)%Z -> M s c.1 = Free) /\ (cur < y + h)%Z).
      { destruct skip as [t|].
        - subst t. apply negb_false_iff, Z.eqb_eq in Ek. subst y. split; [lia|]. split; [eauto|]. split; [intros; lia|lia].
        - destruct Hsk as (? & [->|?] & ? & ?); (split; [lia|]); (split; [eauto|]); auto. }
      destruct HY as (Y1 & Y2 & Y3 & Y4). destruct (M cur c.1) as [|t|] eqn:Ev.
      - assert (Y3' : forall s e0, (s, e0) ∈ rows -> (y <= s < e)%Z -> M s c.1 = Free).
        { intros s e0 Hs Hb. destruct (decide (s < cur)%Z); [apply (Y3 s e0 Hs); lia|].
          assert (B := chain_in _ _ _ _ _ (p_rows _ _ _ HP) Hs).
          destruct (chain_eq _ _ _ s e0 cur e s (p_rows _ _ _ HP) Hs Hin) as [-> _]; [lia|lia|done]. }
        destruct (Z.ltb_spec e (y + h)).
        + intros E. eapply (IH e None y None M); [exact Hch|exact Hsub'|exact HM|intros ? [=]|exact Hy| |exact E].
          split; [lia|]. split; [by right|]. split; [done|lia].
        + intros [= <- <-]. split; [done|]. intros y0 [= <-]. split; [done|]. split; [done|]. split; [lia|].
          intros s e0 Hs Hb. apply (Y3' s e0 Hs). lia.
      - intros E. assert (HM2 : marked rows cols P (match jf with None => M | Some j => set_marks M j.1 j.2 c.1 c.2 (To t) end)).
        { destruct jf as [j|]; [|done]. eapply keep; [done|by apply Hj|done|exact Hin|done|done]. }
        eapply (IH e (Some t) t _ _); [exact Hch|exact Hsub'|exact HM2| | |done|exact E].
        + destruct jf as [j|]; [exact Hj|]. intros j [= <-]. done.
        + eapply (m_to _ _ _ _ HM). exact Ev.
      - intros [= <- <-]. split; [|intros ? [=]]. destruct jf as [j|]; [|done]. eapply keep; [done|by apply Hj|done|exact Hin|done|done].
    Qed.
    Lemma scan_cols_spec x w y M : (0 < w)%Z -> forall cs cur, chain cur W cs -> (forall c, c ∈ cs -> c ∈ cols) -> (x <= cur)%Z ->
      (forall s e, (s, e) ∈ cols -> (x <= s < cur)%Z -> M y s = Free) -> scan_cols x w y cs M = true ->
      (x + w <= W)%Z /\ forall s e, (s, e) ∈ cols -> (x <= s < x + w)%Z -> M y s = Free.
    Proof using HP.
      intros Hw. induction cs as [|[s e] cs IH]; intros cur Hch Hsub Hx Hf; simpl; [done|].
      destruct Hch as (-> & Hse & Hch). assert (Hin : (cur, e) ∈ cols) by (apply Hsub; by left).
      assert (Bin := chain_in _ _ _ _ _ (p_cols _ _ _ HP) Hin). destruct (M y cur) eqn:Ev; [|done..].
      assert (Hf' : forall s e0, (s, e0) ∈ cols -> (x <= s < e)%Z -> M y s = Free).
      { intros s e0 Hs Hb. destruct (decide (s < cur)%Z); [apply (Hf s e0 Hs); lia|].
        assert (B := chain_in _ _ _ _ _ (p_cols _ _ _ HP) Hs).
        destruct (chain_eq _ _ _ s e0 cur e s (p_cols _ _ _ HP) Hs Hin) as [-> _]; [lia|lia|done]. }
      destruct (Z.leb_spec (x + w) e).
      - intros _. split; [lia|]. intros s e0 Hs Hb. apply (Hf' s e0 Hs). lia.
      - apply (IH e); [done|intros; apply Hsub; by right|lia|done].
    Qed.
    (** what is known about a region that was found *)
    Definition free_at (M : marks) (x y w h : Z) : Prop :=
      (exists e, (x, e) ∈ cols) /\ (exists e, (y, e) ∈ rows) /\ supported P x y /\ (x + w <= W)%Z /\ (y + h <= H)%Z /\
      (forall s e, (s, e) ∈ rows -> (y <= s < y + h)%Z -> M s x = Free) /\
      (forall s e, (s, e) ∈ cols -> (x <= s < x + w)%Z -> M y s = Free).
    Lemma find_region_spec w h : (0 < w)%Z -> (0 < h)%Z -> forall cs cur M r M', chain cur W cs -> (forall c, c ∈ cs -> c ∈ cols) ->
      marked rows cols P M -> find_region W w h rows cs M = (r, M') ->
      marked rows cols P M' /\ forall x y, r = Some (x, y) -> free_at M' x y w h.
    Proof using HP.
      intros Hw Hh. induction cs as [|[s e] cs IH]; intros cur M r M' Hch Hsub HM; cbn [find_region].
      { intros [= <- <-]. split; [done|]. intros ? ? [=]. }
      assert (Hin : (s, e) ∈ cols) by (apply Hsub; by left).
      destruct (scan_rows h (s, e) rows None 0 None M) as [r1 M1] eqn:E1.
      destruct (scan_rows_spec h (s, e) Hh Hin rows 0%Z None 0%Z None M r1 M1) as [HM1 H1]; [apply HP|done|done|intros ? [=]|by left| |done|].
      { split; [lia|]. split; [by left|]. split; [intros; lia|lia]. }
      assert (Hch0 := Hch). destruct Hch as (-> & Hse & Hch).
      assert (Hnext : forall r M', (if (W <? (cur, e).2 + w)%Z then (None, M1) else find_region W w h rows cs M1) = (r, M') ->
        marked rows cols P M' /\ forall x y, r = Some (x, y) -> free_at M' x y w h).
      { clear r M'. intros r M'. destruct (Z.ltb_spec W ((cur, e).2 + w)).
        - intros [= <- <-]. split; [done|]. intros ? ? [=].
        - apply (IH e); [done|intros; apply Hsub; by right|done]. }
      destruct r1 as [y|]; [|apply Hnext].
      destruct (scan_cols (cur, e).1 w y ((cur, e) :: cs) M1) eqn:E2; [|apply Hnext].
      intros [= <- <-]. split; [done|]. intros x0 y0 [= <- <-].
      destruct (H1 y eq_refl) as (A1 & A2 & A3 & A4).
      destruct (scan_cols_spec cur w y M1 Hw ((cur, e) :: cs) cur Hch0 Hsub) as [B1 B2]; [lia|intros; lia|done|].
      split; [eauto|]. split; [done|]. split; [done|]. split; [done|]. split; [done|]. split; [exact A4|exact B2].
    Qed.
    (** the region has nothing in common with the rectangles placed before *)
    Lemma free_apart M x0 y0 w0 h0 : marked rows cols P M -> free_at M x0 y0 w0 h0 ->
      forall r, r ∈ P -> ~ overlap ((x0, y0), (w0, h0)) r.
    Proof using HP.
      intros HM (_ & (ey0 & Hey0) & Hsup & _ & _ & FL & FT).
      assert (B0 := chain_in _ _ _ _ _ (p_rows _ _ _ HP) Hey0).
      (* rectangles that reach the column [x0] *)
      assert (G1 : forall x y w h, ((x, y), (w, h)) ∈ P -> (x <= x0 < x + w)%Z -> (y < y0 + h0)%Z -> (y0 < y + h)%Z -> False).
      { intros x y w h Hr Hx H1 H2. destruct (p_in _ _ _ HP _ _ _ _ Hr) as (Pw & Ph & _ & [e He]).
        destruct (decide (y0 <= y)%Z).
        - apply (m_top _ _ _ _ HM _ _ _ _ x0 Hr Hx). apply (FL y e He). lia.
        - destruct Hsup as [->|(x' & y' & w' & h' & Hr' & Hy' & Hx')].
          + assert (B := chain_in _ _ _ _ _ (p_rows _ _ _ HP) He). lia.
          + destruct (p_in _ _ _ HP _ _ _ _ Hr') as (? & ? & _).
            assert (E : ((x, y), (w, h)) = ((x', y'), (w', h'))); [|injection E as -> -> -> ->; lia].
            apply (p_dis _ _ _ HP); [done..|]. exists (x0, (y0 - 1)%Z). unfold covers. simpl. lia. }
      assert (G2 : forall n x y w h, (Z.to_nat y < n)%nat -> ((x, y), (w, h)) ∈ P -> (x0 < x < x0 + w0)%Z -> (y < y0 + h0)%Z -> (y0 < y + h)%Z -> False).
      { induction n as [|n IH]; [lia|]. intros x y w h Hn Hr Hx H1 H2.
        destruct (p_in _ _ _ HP _ _ _ _ Hr) as (Pw & Ph & [ex Hex] & [e He]).
        assert (B := chain_in _ _ _ _ _ (p_rows _ _ _ HP) He).
        destruct (decide (y <= y0)%Z).
        - apply (m_left _ _ _ _ HM _ _ _ _ y0 Hr); [lia|]. apply (FT x ex Hex). lia.
        - destruct (p_sup _ _ _ HP _ _ _ _ Hr) as [->|(x' & y' & w' & h' & Hr' & Hy' & Hx')]; [lia|].
          destruct (p_in _ _ _ HP _ _ _ _ Hr') as (? & ? & _ & [e' He']).
          assert (B' := chain_in _ _ _ _ _ (p_rows _ _ _ HP) He').
          destruct (decide (x' <= x0)%Z); [apply (G1 x' y' w' h' Hr'); lia|].
          apply (IH x' y' w' h'); [lia|done|lia..]. }
      intros [[x y] [w h]] Hr [[a b] [C1 C2]]. unfold covers in *. simpl in *.
      destruct (decide (x <= x0)%Z); [apply (G1 x y w h Hr); lia|].
      apply (G2 (S (Z.to_nat y)) x y w h); [lia|done|lia..].
    Qed.
  End search.
End grid.
