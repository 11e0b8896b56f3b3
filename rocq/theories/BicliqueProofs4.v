(** The table of shortest rectangles, what the iterator visits, and the collection over masks. *)
From stdpp Require Import base list list_numbers numbers gmap relations.
From Verif Require Import Base BusModel BicliqueModel SpecBus CoordProofs BitProofs BundleProofs MaskProofs MaskProofs2 TopoProofs BusTop
  CliqueProofs2 CliqueProofs5 CliqueProofs6 CliqueProofs7 BicliqueProofs1 BicliqueProofs2 BicliqueProofs3.

(** a loop whose iterations each cover some items *)
Lemma foldM_cover {S A X} (f : S -> A -> res S) (I : (X -> Prop) -> S -> Prop) (cov : A -> X -> Prop) :
  (forall (D D' : X -> Prop) s, I D s -> (forall x, D' x -> D x) -> I D' s) ->
  forall l s D, I D s -> (forall a D s, a ∈ l -> I D s -> exists s', f s a = Ok s' /\ I (fun x => D x \/ cov a x) s') ->
  exists s', foldM f l s = Ok s' /\ I (fun x => D x \/ exists a, a ∈ l /\ cov a x) s'.
Proof.
  intros Hsub l. induction l as [|a l IH]; intros s D HI Hf.
  - exists s. split; [done|]. eapply Hsub; [exact HI|]. intros x [?|(a & Ha & _)]; [done|]. by apply elem_of_nil in Ha.
  - destruct (Hf a D s ltac:(left) HI) as (s1 & E & H1). cbn [foldM]. rewrite E. cbn [rbind].
    destruct (IH s1 _ H1) as (s' & E' & H'). { intros a' D' s' Ha'. apply Hf. by right. }
    exists s'. split; [done|]. eapply Hsub; [exact H'|]. intros x [?|(b & Hb & Hx)]; [by left; left|].
    apply elem_of_cons in Hb as [->|Hb]; [by left; right|]. right. by exists b.
Qed.

Lemma vget2_ok {A} (l : list (list A)) i j r x : l !! i = Some r -> r !! j = Some x -> vget2 l i j = Ok x.
Proof. intros H1 H2. unfold vget2. erewrite vget_ok by done. cbn [rbind]. by apply vget_ok. Qed.

Definition grid {A} (rows cols : nat) (l : list (list A)) : Prop := length l = rows /\ Forall (fun r => length r = cols) l.
Lemma grid_get {A} rows cols (l : list (list A)) i j : grid rows cols l -> i < rows -> j < cols -> exists x, vget2 l i j = Ok x.
Proof.
  intros [H1 H2] Hi Hj. destruct (lookup_lt_is_Some_2 l i) as [r Hr]; [lia|]. rewrite Forall_forall in H2.
  pose proof (H2 r ltac:(by eapply elem_of_list_lookup_2)). destruct (lookup_lt_is_Some_2 r j) as [x Hx]; [lia|]. exists x. by eapply vget2_ok.
Qed.
Lemma grid_set {A} rows cols (l : list (list A)) i j (v : A) : grid rows cols l -> i < rows -> j < cols ->
  exists l', vset2 l i j v = Ok l' /\ grid rows cols l' /\ vget2 l' i j = Ok v /\
    forall i' j', (i', j') <> (i, j) -> vget2 l' i' j' = vget2 l i' j'.
Proof.
  intros [H1 H2] Hi Hj. destruct (lookup_lt_is_Some_2 l i) as [r Hr]; [lia|]. rewrite Forall_forall in H2.
  pose proof (H2 r ltac:(by eapply elem_of_list_lookup_2)) as Hl. unfold vset2. erewrite vget_ok by done. cbn [rbind].
  rewrite vset_ok by lia. cbn [rbind]. rewrite vset_ok by lia. eexists. split; [reflexivity|]. split_and!.
  - split; [by rewrite insert_length|]. apply Forall_insert; [by apply Forall_forall|]. by rewrite insert_length.
  - eapply vget2_ok; [apply list_lookup_insert; lia|apply list_lookup_insert; lia].
  - intros i' j' Hne. unfold vget2, vget. destruct (decide (i' = i)) as [->|Hi'].
    + rewrite list_lookup_insert by lia. rewrite Hr. cbn [rbind]. rewrite list_lookup_insert_ne; [done|]. congruence.
    + by rewrite list_lookup_insert_ne by done.
Qed.
Lemma grid_replicate {A} rows cols (v : A) : grid rows cols (replicate rows (replicate cols v)).
Proof. split; [by rewrite replicate_length|]. apply Forall_replicate. by rewrite replicate_length. Qed.
Lemma replicate_get {A} rows cols (v : A) i j : i < rows -> j < cols -> vget2 (replicate rows (replicate cols v)) i j = Ok v.
Proof. intros. eapply vget2_ok; by apply lookup_replicate_2. Qed.

Section yields.
Context (t : topo) (nodes : list nat) (edges : list (nat * nat)) (lm : list N) (Hrd : ready t nodes edges lm).
Notation rows := (dim_x t * shore t).
Notation cols := (dim_y t * shore t).
Notation rc := (rcount t lm).
Notation rects := (nat * nat * nat * nat)%type.

Definition rvalid (z : rects) : Prop := let '(y0, y1, x0, x1) := z in y0 <= y1 < dim_y t /\ x0 <= x1 < dim_x t.
Definition roffer (z : rects) (a b : nat) : Prop := let '(y0, y1, x0, x1) := z in rc false y0 y1 x0 x1 = a /\ rc true y0 y1 x0 x1 = b.
(** any topology's lines and lengths; a rectangle with chains on both sides has a positive length *)
Context (line : liner) (len : blength).
Definition rlen (z : rects) : nat := let '(y0, y1, x0, x1) := z in len y0 y1 x0 x1.
Context (Hlen : forall z a b, rvalid z -> roffer z (S a) (S b) -> rlen z <> 0).
Lemma len_rlen y0 y1 x0 x1 : len y0 y1 x0 x1 = rlen (y0, y1, x0, x1).
Proof. done. Qed.

Definition ybest (D : rects -> Prop) (ys : byields) : Prop :=
  grid rows cols ys.1 /\ grid rows cols ys.2 /\
  forall i j, i < rows -> j < cols -> exists cl z, vget2 ys.1 i j = Ok cl /\ vget2 ys.2 i j = Ok z /\
    (cl = 0 -> forall r, rvalid r -> D r -> ~ roffer r (S i) (S j)) /\
    (cl <> 0 -> rvalid z /\ roffer z (S i) (S j) /\ cl = rlen z /\ forall r, rvalid r -> D r -> roffer r (S i) (S j) -> cl <= rlen r).
Lemma ybest_sub D (D' : rects -> Prop) ys : ybest D ys -> (forall r, D' r -> D r) -> ybest D' ys.
Proof using.
  intros (H1 & H2 & H3) HD. split_and!; [done..|]. intros i j Hi Hj. destruct (H3 i j Hi Hj) as (cl & z & E1 & E2 & A & B).
  exists cl, z. split_and!; [done..| |].
  - intros Hc r Hr Hd. apply A; [done..|by apply HD].
  - intros Hc. destruct (B Hc) as (? & ? & ? & Bm). split_and!; [done..|]. intros r Hr Hd. apply Bm; [done|by apply HD].
Qed.

Lemma at_ok mem h w D ys y x : filled t lm mem -> ybest D ys -> 1 <= h -> 1 <= w -> y + h <= dim_y t -> x + w <= dim_x t ->
  exists ys', byield_at t len mem h w (ycof t h w) ys y x = Ok ys' /\ ybest (fun r => D r \/ r = (y, y + h - 1, x, x + w - 1)) ys'.
Proof using Hrd Hlen.
  intros HF HB Hh Hw Hy Hx. unfold byield_at.
  rewrite (get_cell t lm (rd_len _ _ _ _ Hrd) mem h w y x HF Hh Hw Hy Hx false). cbn [rbind].
  rewrite (get_cell t lm (rd_len _ _ _ _ Hrd) mem h w y x HF Hh Hw Hy Hx true). cbn [rbind].
  set (z0 := (y, y + h - 1, x, x + w - 1)).
  assert (V0 : rvalid z0) by (simpl; lia).
  set (s0 := rc false y (y + h - 1) x (x + w - 1)). set (s1 := rc true y (y + h - 1) x (x + w - 1)).
  assert (O0 : forall a b, roffer z0 a b <-> s0 = a /\ s1 = b) by done.
  assert (L0 : s0 <= rows) by (apply (rcount_le t nodes edges lm Hrd false); lia).
  assert (L1 : s1 <= cols) by (apply (rcount_le t nodes edges lm Hrd true); lia).
  rewrite len_rlen. fold z0.
  destruct (Nat.eqb_spec s0 0) as [Z0|N0]; cbn [orb].
  { exists ys. split; [done|]. destruct HB as (H1 & H2 & H3). split_and!; [done..|]. intros i j Hi Hj.
    destruct (H3 i j Hi Hj) as (cl & z & E1 & E2 & A & B). exists cl, z. split_and!; [done..| |].
    - intros Hc r Hr [Hd| ->]; [by apply A|]. rewrite O0. lia.
    - intros Hc. destruct (B Hc) as (? & ? & ? & Bm). split_and!; [done..|]. intros r Hr [Hd| ->]; [by apply Bm|]. rewrite O0. lia. }
  destruct (Nat.eqb_spec s1 0) as [Z1|N1].
  { exists ys. split; [done|]. destruct HB as (H1 & H2 & H3). split_and!; [done..|]. intros i j Hi Hj.
    destruct (H3 i j Hi Hj) as (cl & z & E1 & E2 & A & B). exists cl, z. split_and!; [done..| |].
    - intros Hc r Hr [Hd| ->]; [by apply A|]. rewrite O0. lia.
    - intros Hc. destruct (B Hc) as (? & ? & ? & Bm). split_and!; [done..|]. intros r Hr [Hd| ->]; [by apply Bm|]. rewrite O0. lia. }
  destruct HB as (H1 & H2 & H3).
  destruct (H3 (s0 - 1) (s1 - 1) ltac:(lia) ltac:(lia)) as (cl & z & E1 & E2 & A & B). rewrite E1. cbn [rbind].
  replace (S (s0 - 1)) with s0 in * by lia. replace (S (s1 - 1)) with s1 in * by lia.
  assert (Hl0 : rlen z0 <> 0). { apply (Hlen z0 (s0 - 1) (s1 - 1) V0). apply O0. lia. }
  destruct ((cl =? 0) || (rlen z0 <? cl)) eqn:Ec.
  - destruct (grid_set rows cols ys.1 (s0 - 1) (s1 - 1) (rlen z0) H1 ltac:(lia) ltac:(lia)) as (l1 & S1 & G1 & G1a & G1b).
    destruct (grid_set rows cols ys.2 (s0 - 1) (s1 - 1) z0 H2 ltac:(lia) ltac:(lia)) as (l2 & S2 & G2 & G2a & G2b).
    rewrite S1. cbn [rbind]. rewrite S2. cbn [rbind]. eexists. split; [reflexivity|]. split_and!; [done..|].
    intros i j Hi Hj. cbn [fst snd]. destruct (decide ((i, j) = (s0 - 1, s1 - 1))) as [[= -> ->]|Hne].
    + exists (rlen z0), z0. split_and!; [done..|done|]. intros _. split_and!; [done| |done|]. { apply O0. lia. }
      intros r Hr [Hd| ->]; [|lia]. replace (S (s0 - 1)) with s0 by lia. replace (S (s1 - 1)) with s1 by lia. intros Ho.
      apply orb_true_iff in Ec as [Ec%Nat.eqb_eq|Ec%Nat.ltb_lt].
      * exfalso. by apply (A Ec r).
      * destruct (B ltac:(lia)) as (_ & _ & _ & Bm). specialize (Bm r Hr Hd Ho). lia.
    + rewrite G1b, G2b by done. destruct (H3 i j Hi Hj) as (cl' & z' & E1' & E2' & A' & B'). exists cl', z'. split_and!; [done..| |].
      * intros Hc r Hr [Hd| ->]; [by apply A'|]. rewrite O0. intros [? ?]. destruct Hne. f_equal; lia.
      * intros Hc. destruct (B' Hc) as (? & ? & ? & Bm). split_and!; [done..|]. intros r Hr [Hd| ->]; [by apply Bm|]. rewrite O0.
        intros [? ?]. destruct Hne. f_equal; lia.
  - apply orb_false_iff in Ec as [Ec1%Nat.eqb_neq Ec2%Nat.ltb_ge].
    exists ys. split; [done|]. split_and!; [done..|]. intros i j Hi Hj.
    destruct (H3 i j Hi Hj) as (cl' & z' & E1' & E2' & A' & B'). exists cl', z'. split_and!; [done..| |].
    + intros Hc r Hr [Hd| ->]; [by apply A'|]. rewrite O0. intros [Ei Ej]. 
      replace (s0 - 1) with i in E1 by lia. replace (s1 - 1) with j in E1 by lia. rewrite E1 in E1'. injection E1' as ->. lia.
    + intros Hc. destruct (B' Hc) as (? & ? & ? & Bm). split_and!; [done..|]. intros r Hr [Hd| ->]; [by apply Bm|]. rewrite O0. intros [Ei Ej].
      replace (s0 - 1) with i in E1 by lia. replace (s1 - 1) with j in E1 by lia. rewrite E1 in E1'. injection E1' as ->. lia.
Qed.

Lemma table_ok mem : filled t lm mem -> exists ys, byield_cache t len mem = Ok ys /\ ybest (fun _ => True) ys.
Proof using Hrd Hlen.
  intros HF. unfold byield_cache. cbv zeta.
  match goal with |- context [foldM ?F ?l ?a] => destruct (foldM_cover F ybest
     (fun h (r : rects) => rvalid r /\ let '(y0, y1, x0, x1) := r in y1 = y0 + h - 1) ybest_sub l a (fun _ => False)) as (ys & E & HB) end.
  - split_and!; [apply grid_replicate..|]. intros i j Hi Hj. exists 0, (0, 0, 0, 0). cbn [fst snd]. rewrite !replicate_get by done. split_and!; [done..| |done].
    intros _ r _ [].
  - intros h D ys [Hh1 Hh2]%elem_of_seq HB.
    match goal with |- context [foldM ?F ?l ?a] => destruct (foldM_cover F ybest
     (fun w (r : rects) => rvalid r /\ let '(y0, y1, x0, x1) := r in y1 = y0 + h - 1 /\ x1 = x0 + w - 1) ybest_sub l a D HB) as (ys' & E & HB') end.
    + intros w D' ys' [Hw1 Hw2]%elem_of_seq HB'. rewrite bget_ok by (apply HF || lia). cbn [rbind].
      match goal with |- context [foldM ?F ?l ?a] => destruct (foldM_cover F ybest
       (fun y (r : rects) => rvalid r /\ let '(y0, y1, x0, x1) := r in y0 = y /\ y1 = y0 + h - 1 /\ x1 = x0 + w - 1) ybest_sub l a D' HB') as (ys2 & E & HB2) end.
      * intros y D2 ys2 [Hy1 Hy2]%elem_of_seq HB2.
        match goal with |- context [foldM ?F ?l ?a] => destruct (foldM_cover F ybest
         (fun x (r : rects) => r = (y, y + h - 1, x, x + w - 1)) ybest_sub l a D2 HB2) as (ys3 & E & HB3) end.
        -- intros x D3 ys3 [Hx1 Hx2]%elem_of_seq HB3. unfold bmemrows, bmemcols in *. apply at_ok; (done || lia).
        -- exists ys3. split; [done|]. eapply ybest_sub; [exact HB3|]. intros [[[y0 y1] x0] x1] [?|(Hv & -> & -> & ->)]; [by left|].
           right. exists x0. simpl in Hv. split; [|done]. apply elem_of_seq. unfold bmemcols. lia.
      * exists ys2. split; [done|]. eapply ybest_sub; [exact HB2|]. intros [[[y0 y1] x0] x1] [?|(Hv & -> & ->)]; [by left|].
        right. exists y0. simpl in Hv. split; [|done]. apply elem_of_seq. unfold bmemrows. lia.
    + exists ys'. split; [done|]. eapply ybest_sub; [exact HB'|]. intros [[[y0 y1] x0] x1] [?|(Hv & ->)]; [by left|].
      right. exists (x1 - x0 + 1). simpl in Hv. split; [apply elem_of_seq; lia|]. split; [done|]. split; [done|lia].
  - exists ys. split; [done|]. destruct HB as (H1 & H2 & H3). split_and!; [done..|]. intros i j Hi Hj.
    destruct (H3 i j Hi Hj) as (cl & z & E1 & E2 & A & B). exists cl, z.
    assert (HD : forall r, rvalid r -> False \/ exists h, h ∈ seq 1 (dim_y t) /\ rvalid r /\ let '(y0, y1, x0, x1) := r in y1 = y0 + h - 1).
    { intros [[[y0 y1] x0] x1] Hv. right. exists (y1 - y0 + 1). pose proof Hv as Hv'. simpl in Hv'. split; [apply elem_of_seq; lia|]. split; [done|lia]. }
    split_and!; [done..| |].
    + intros Hc r Hr _. apply A; [done..|by apply HD].
    + intros Hc. destruct (B Hc) as (? & ? & ? & Bm). split_and!; [done..|]. intros r Hr _. apply Bm; [done|by apply HD].
Qed.

(** an entry of the iterator: the chains of a rectangle of least length *)
Definition bentry (z : nat * nat * nat * list (list nat)) : Prop :=
  let '(s0, s1, cl, emb) := z in
  1 <= s0 /\ 1 <= s1 /\
  (exists y0 y1 x0 x1, rvalid (y0, y1, x0, x1) /\ roffer (y0, y1, x0, x1) s0 s1 /\ cl = len y0 y1 x0 x1 /\ emb = rect_emb t lm line y0 y1 x0 x1) /\
  forall r, rvalid r -> roffer r s0 s1 -> cl <= rlen r.

Lemma visit_ok ys : ybest (fun _ => True) ys -> exists zs, bvisit t line lm ys = Ok zs /\
  (forall z, z ∈ zs -> bentry z) /\
  forall r s0 s1, rvalid r -> roffer r s0 s1 -> 1 <= s0 -> 1 <= s1 -> exists cl emb, (s0, s1, cl, emb) ∈ zs.
Proof using Hrd Hlen.
  intros (H1 & H2 & H3). unfold bvisit.
  set (I := fun (D : nat * nat -> Prop) (zs : list (nat * nat * nat * list (list nat))) =>
    (forall z, z ∈ zs -> bentry z) /\ forall r i j, rvalid r -> roffer r (S i) (S j) -> i < rows -> j < cols -> D (i, j) -> exists cl emb, (S i, S j, cl, emb) ∈ zs).
  assert (Isub : forall (D D' : nat * nat -> Prop) s, I D s -> (forall x, D' x -> D x) -> I D' s).
  { intros D D' s [I1 I2] HD. split; [done|]. intros r i j Hr Ho Hi Hj Hd. by apply (I2 r i j); [..|apply HD]. }
  match goal with |- context [foldM ?F ?l ?a] => destruct (foldM_cover F I (fun i ij => ij.1 = i) Isub l a (fun _ => False)) as (zs & E & HI1 & HI2) end.
  - split; [|intros r i j _ _ _ _ []]. intros z Hz. by apply elem_of_nil in Hz.
  - intros i D acc [_ Hi]%elem_of_seq HI.
    match goal with |- context [foldM ?F ?l ?a] => destruct (foldM_cover F I (fun j ij => ij = (i, j)) Isub l a D HI) as (zs & E & HI') end.
    + intros j D' acc' [_ Hj]%elem_of_seq [I1 I2].
      destruct (H3 i j ltac:(lia) ltac:(lia)) as (cl & z & E1 & E2 & A & B). rewrite E1. cbn [rbind].
      destruct (Nat.eqb_spec cl 0) as [Hc|Hc].
      * exists acc'. split; [done|]. split; [done|]. intros r i' j' Hr Ho Hi' Hj' [Hd|[= -> ->]]; [by apply (I2 r)|]. exfalso. by apply (A Hc r Hr).
      * rewrite E2. cbn [rbind]. destruct z as [[[y0 y1] x0] x1]. destruct (B Hc) as ([Vy Vx] & [O1 O2] & -> & Bm).
        rewrite (rect_ok t nodes edges lm Hrd line) by done. cbn [rbind]. eexists. split; [reflexivity|].
        split.
        -- intros z' [Hz|Hz]%elem_of_app; [by apply I1|]. apply elem_of_list_singleton in Hz as ->. unfold bentry.
           replace (i + 1) with (S i) by lia. replace (j + 1) with (S j) by lia. split_and!; [lia..| |].
           ++ by exists y0, y1, x0, x1.
           ++ intros r Hr Ho. by apply Bm.
        -- intros r i' j' Hr Ho Hi' Hj' [Hd|[= -> ->]].
           ++ destruct (I2 r i' j' Hr Ho Hi' Hj' Hd) as (cl & emb & Hin). exists cl, emb. apply elem_of_app. by left.
           ++ eexists _, _. apply elem_of_app. right. apply elem_of_list_singleton. replace (S i) with (i + 1) by lia. replace (S j) with (j + 1) by lia. done.
    + exists zs. split; [done|]. destruct HI' as [I1 I2]. split; [done|]. intros r i' j' Hr Ho Hi' Hj' Hd. apply (I2 r); [done..|].
      destruct Hd as [Hd|Hd]; [by left|]. simpl in Hd. subst i'. right. exists j'. split; [apply elem_of_seq; lia|done].
  - exists zs. split; [done|]. split; [done|]. intros r s0 s1 Hr Ho Hs0 Hs1. destruct r as [[[y0 y1] x0] x1].
    pose proof Hr as [Vy Vx]. pose proof Ho as [O1 O2].
    pose proof (rcount_le t nodes edges lm Hrd false y0 y1 x0 x1 Vy Vx) as L0. pose proof (rcount_le t nodes edges lm Hrd true y0 y1 x0 x1 Vy Vx) as L1.
    rewrite O1 in L0. rewrite O2 in L1. cbn iota in L0, L1.
    destruct (HI2 (y0, y1, x0, x1) (s0 - 1) (s1 - 1)) as (cl & emb & Hin); [done| |lia|lia| |].
    + split; lia.
    + right. exists (s0 - 1). split; [apply elem_of_seq; lia|done].
    + exists cl, emb. replace s0 with (S (s0 - 1)) by lia. replace s1 with (S (s1 - 1)) by lia. done.
Qed.
End yields.

(** Chimera *)
Section chimera.
Context (t : topo) (nodes : list nat) (edges : list (nat * nat)) (lm : list N) (Hrd : ready t nodes edges lm).
Notation rvalid := (rvalid t).
Notation roffer := (roffer t lm).
Notation rlen := (rlen chimera_biclique_length).
Lemma chimera_rlen y0 y1 x0 x1 : y0 <= y1 -> x0 <= x1 -> rlen (y0, y1, x0, x1) = (y1 - y0 + 1) `max` (x1 - x0 + 1).
Proof. intros. cbn. unfold chimera_biclique_length. lia. Qed.
Lemma chimera_pos z a b : rvalid z -> roffer z (S a) (S b) -> rlen z <> 0.
Proof using. destruct z as [[[y0 y1] x0] x1]. cbn. unfold chimera_biclique_length. lia. Qed.
Lemma chimera_entry s0 s1 cl emb : bentry t lm (chimera_line t) chimera_biclique_length (s0, s1, cl, emb) ->
  1 <= s0 /\ 1 <= s1 /\ biclique_embedding nodes edges s0 s1 emb /\
  (forall ch, ch ∈ emb -> length ch <= cl) /\ (exists ch, ch ∈ emb /\ length ch = cl) /\
  forall r, rvalid r -> roffer r s0 s1 -> cl <= rlen r.
Proof using Hrd.
  intros (P1 & P2 & (y0 & y1 & x0 & x1 & (Vy & Vx) & (O1 & O2) & -> & ->) & Hmin).
  destruct (rect_biclique t nodes edges lm Hrd y0 y1 x0 x1 Vy Vx) as [Hb Hlen]. rewrite O1, O2 in Hb. rewrite O1 in Hlen.
  assert (El : chimera_biclique_length y0 y1 x0 x1 = (y1 - y0 + 1) `max` (x1 - x0 + 1)) by (unfold chimera_biclique_length; lia).
  split_and!; [done..| | |done]; rewrite El.
  - intros ch [n Hn]%elem_of_list_lookup. rewrite (Hlen n ch Hn). destruct (n <? s0); lia.
  - destruct Hb as [Hl _]. destruct (decide (x1 - x0 + 1 <= y1 - y0 + 1)) as [Hle|Hle].
    + destruct (lookup_lt_is_Some_2 (rect_emb t lm (chimera_line t) y0 y1 x0 x1) 0) as [ch Hch]; [lia|]. exists ch.
      split; [by eapply elem_of_list_lookup_2|]. rewrite (Hlen 0 ch Hch). destruct (Nat.ltb_spec 0 s0); lia.
    + destruct (lookup_lt_is_Some_2 (rect_emb t lm (chimera_line t) y0 y1 x0 x1) s0) as [ch Hch]; [lia|]. exists ch.
      split; [by eapply elem_of_list_lookup_2|]. rewrite (Hlen s0 ch Hch), Nat.ltb_irrefl. lia.
Qed.
End chimera.
