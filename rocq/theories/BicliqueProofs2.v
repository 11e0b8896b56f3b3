(** The two passes: every word holds the number of complete lines across its rectangle. *)
From stdpp Require Import base list list_numbers numbers gmap.
From Verif Require Import Base BusModel BicliqueModel CoordProofs BitProofs BundleProofs CliqueProofs2 BicliqueProofs1.

Section passes.
Context (t : topo) (lm : list N).
Context (Hlm : length lm = line_mask_size t) (Hby : bytes lm).
Notation cellv := (cellv t).
Notation caddr := (caddr t).
Notation header := (header t).

(** complete lines among the line [l], at positions [p] to [p + a - 1] *)
Definition ls (u : bool) (a p l : nat) : nat := length (bits (lmask t lm u l p (p + a - 1))).
Definition lsum (u : bool) (a b p l : nat) : nat := sum_to (fun i => ls u a p (l + i)) b.

Lemma score_ls u a p l : 1 <= a -> p + a <= blen t u -> l < blines t u -> get_line_score t lm u l p (p + a - 1) = Ok (ls u a p l).
Proof using Hlm Hby.
  intros Ha Hp Hl. destruct (get_line_ok t lm Hlm Hby u l p (p + a - 1)) as [E Hb]; [destruct u; simpl in *; lia..|].
  unfold get_line_score. rewrite E. cbn [rbind]. by apply popcount_bits.
Qed.

Notation cells := (bool -> nat -> nat -> nat -> nat -> Prop).
Definition good (mem : list nat) (D : cells) : Prop :=
  header mem /\ forall u a b p l, cellv u a b p l -> D u a b p l -> mem !! caddr u a b p l = Some (lsum u a b p l).
Lemma good_sub mem D (D' : cells) : good mem D -> (forall u a b p l, cellv u a b p l -> D' u a b p l -> D u a b p l) -> good mem D'.
Proof. intros [H1 H2] H. split; [done|]. intros u a b p l Hc Hd. apply H2; [done|]. by apply H. Qed.
Lemma set_ok mem D u a b p l : good mem D -> cellv u a b p l ->
  exists mem', vset mem (caddr u a b p l) (lsum u a b p l) = Ok mem' /\
    good mem' (fun u' a' b' p' l' => D u' a' b' p' l' \/ (u' = u /\ a' = a /\ b' = b /\ p' = p /\ l' = l)).
Proof using Hlm.
  intros [[H1 H2] H3] Hc. pose proof (caddr_range t u a b p l Hc) as [R1 R2].
  rewrite vset_ok by lia. eexists. split; [reflexivity|]. split; [split|].
  - by rewrite insert_length.
  - intros h w Hh Hw. pose proof (grid_lt t h w Hh Hw). rewrite list_lookup_insert_ne by lia. by apply H2.
  - intros u' a' b' p' l' Hc' Hd. destruct (decide (caddr u a b p l = caddr u' a' b' p' l')) as [E|N].
    + pose proof E as E'. apply (caddr_inj t) in E as (<- & <- & <- & <- & <-); [|done..]. rewrite list_lookup_insert by lia. done.
    + rewrite list_lookup_insert_ne by done. apply H3; [done|]. destruct Hd as [Hd|(-> & -> & -> & -> & ->)]; [done|]. by destruct N.
Qed.

Lemma yc_at (u : bool) a b p l : yc_index (ycof t (hw u a b).1 (hw u a b).2) (if u then (l, p) else (p, l)).1 (if u then (l, p) else (p, l)).2 u = caddr u a b p l.
Proof. done. Qed.

Lemma first_lines_ok mem D u a : good mem D -> 1 <= a <= blen t u -> 1 <= blines t u -> exists mem', first_lines t lm u a mem = Ok mem' /\
  good mem' (fun u' a' b' p' l' => D u' a' b' p' l' \/ (u' = u /\ a' = a /\ b' = 1)).
Proof using Hlm Hby.
  intros HG Ha H1. unfold first_lines. destruct (hw u a 1) as [h w] eqn:Ehw.
  assert (Hh : 1 <= h <= dim_y t /\ 1 <= w <= dim_x t) by (destruct u; simpl in *; injection Ehw as <- <-; simpl in *; lia).
  rewrite (bget_ok t mem h w) by (apply HG || lia). cbn [rbind].
  destruct (foldM_inv (fun mem y0 => foldM (fun mem x0 =>
      let '(p, l) := if u then (x0, y0) else (y0, x0) in
      let! s := get_line_score t lm u l p (p + a - 1) in
      yc_set mem (ycof t h w) y0 x0 u s) (seq 0 (S (dim_x t - w))) mem)
    (fun dn mem => good mem (fun u' a' b' p' l' => D u' a' b' p' l' \/ (u' = u /\ a' = a /\ b' = 1 /\ (if u then l' else p') < length dn)))
    (seq 0 (S (dim_y t - h))) mem) as (mem' & E & HG').
  - eapply good_sub; [exact HG|]. simpl. intros. destruct_or?; [done|lia].
  - intros dn y0 rest m Hsp Hm. apply seq_split in Hsp as (Ey & Hy). simpl in Ey. rewrite app_length. cbn [length]. rewrite Nat.add_1_r, <- Ey in *.
    destruct (foldM_inv (fun mem x0 =>
      let '(p, l) := if u then (x0, y0) else (y0, x0) in
      let! s := get_line_score t lm u l p (p + a - 1) in
      yc_set mem (ycof t h w) y0 x0 u s)
      (fun dn mem => good mem (fun u' a' b' p' l' => D u' a' b' p' l' \/ (u' = u /\ a' = a /\ b' = 1 /\
         ((if u then l' else p') < y0 \/ ((if u then l' else p') = y0 /\ (if u then p' else l') < length dn)))))
      (seq 0 (S (dim_x t - w))) m) as (m' & E & Hm').
    + eapply good_sub; [exact Hm|]. simpl. intros u0 a0 b0 p0 l0 _ HH. destruct u; (destruct HH as [?|(-> & -> & -> & [?|[_ ?]])]; [by left|by right|lia]).
    + intros dn' x0 rest' m1 Hsp Hm1. apply seq_split in Hsp as (Ex & Hx). simpl in Ex. rewrite app_length. cbn [length]. rewrite Nat.add_1_r, <- Ex in *.
      set (p := if u then x0 else y0). set (l := if u then y0 else x0).
      assert (Epl : (if u then (x0, y0) else (y0, x0)) = (p, l)) by (by destruct u). rewrite Epl.
      assert (Hc : cellv u a 1 p l).
      { subst p l. destruct u; simpl in *; injection Ehw as <- <-; split_and!; simpl in *; lia. }
      destruct Hc as (Hc1 & Hc2 & Hc3 & Hc4). rewrite score_ls by lia. cbn [rbind]. unfold yc_set.
      destruct (set_ok m1 _ u a 1 p l Hm1) as (m2 & E2 & Hm2); [done|]. exists m2. split.
      * rewrite <- E2. f_equal.
        -- unfold caddr. subst p l. destruct u; simpl in *; injection Ehw as <- <-; done.
        -- unfold lsum, sum_to. simpl. by rewrite !Nat.add_0_r.
      * eapply good_sub; [exact Hm2|]. simpl. intros u' a' b' p' l' _ HH. subst p l. destruct HH as [?|(-> & -> & -> & HH)]; [by left; left|].
        destruct u; destruct HH as [?|[-> ?]].
        1, 3: left; right; split_and!; (done || by left).
        -- destruct (decide (p' = x0)) as [->|]; [by right|left; right; split_and!; try done; right; lia].
        -- destruct (decide (l' = x0)) as [->|]; [by right|left; right; split_and!; try done; right; lia].
    + exists m'. split; [done|]. eapply good_sub; [exact Hm'|]. simpl. intros u' a' b' p' l' (Hc1 & Hc2 & Hc3 & Hc4) HH. destruct HH as [?|(-> & -> & -> & HH)]; [by left|].
      right. split_and!; [done..|]. rewrite seq_length. destruct u; simpl in *; injection Ehw as <- <-; lia.
  - exists mem'. split; [done|]. eapply good_sub; [exact HG'|]. simpl. intros u' a' b' p' l' (Hc1 & Hc2 & Hc3 & Hc4) HH. destruct HH as [?|(-> & -> & ->)]; [by left|].
    right. split_and!; [done..|]. rewrite seq_length. destruct u; simpl in *; injection Ehw as <- <-; lia.
Qed.

Lemma lsum_S u a b p l : lsum u a (S b) p l = lsum u a b p l + ls u a p (l + b).
Proof. unfold lsum. by rewrite sum_to_S. Qed.
Lemma lsum_slide u a b p l : 1 <= b -> ls u a p l <= lsum u a b p l /\ lsum u a b p l - ls u a p l + ls u a p (l + b) = lsum u a b p (S l).
Proof.
  intros Hb. destruct b as [|b]; [lia|].
  assert (E : lsum u a (S b) p l = ls u a p l + lsum u a b p (S l)).
  { unfold lsum. rewrite sum_to_0, Nat.add_0_r. f_equal. apply sum_to_ext. intros i _. by rewrite Nat.add_succ_r. }
  rewrite E, lsum_S. replace (S l + b) with (l + S b) by lia. lia.
Qed.

Lemma slide_ok mem D u a b p : good mem D -> 2 <= b -> 1 <= a -> p + a <= blen t u -> b <= blines t u -> D u a (b - 1) p 0 ->
  exists mem', slide t lm u a b p (ycof t (hw u a (b - 1)).1 (hw u a (b - 1)).2) (ycof t (hw u a b).1 (hw u a b).2) mem = Ok mem' /\
  good mem' (fun u' a' b' p' l' => D u' a' b' p' l' \/ (u' = u /\ a' = a /\ b' = b /\ p' = p)).
Proof using Hlm Hby.
  intros HG Hb Ha Hp Hbl Hd. unfold slide. cbv zeta.
  unfold yc_get, yc_set. rewrite !yc_at.
  erewrite vget_ok; [|apply HG; [split_and!; lia|done]]. cbn [rbind].
  rewrite score_ls by lia. cbn [rbind].
  assert (E0 : lsum u a (b - 1) p 0 + ls u a p (b - 1) = lsum u a b p 0).
  { replace b with (S (b - 1)) at 3 by lia. by rewrite lsum_S. }
  rewrite E0. destruct (set_ok mem D u a b p 0 HG) as (m1 & E1 & Hm1); [split_and!; lia|]. rewrite E1. cbn [rbind].
  match goal with |- context [foldM ?F _ _] => set (f := F) end.
  destruct (foldM_inv f (fun dn (s : list nat * nat) => s.2 = lsum u a b p (length dn) /\
     good s.1 (fun u' a' b' p' l' => D u' a' b' p' l' \/ (u' = u /\ a' = a /\ b' = b /\ p' = p /\ l' <= length dn)))
     (seq 1 (blines t u - b)) (m1, lsum u a b p 0)) as ([m2 sc2] & E2 & _ & Hm2).
  - split; [done|]. eapply good_sub; [exact Hm1|]. simpl. intros u' a' b' p' l' _ [?|(-> & -> & -> & -> & ?)]; [by left|right]. split_and!; try done. lia.
  - intros dn l rest [m sc] Hsp [Hs Hm]. apply seq_split in Hsp as (El & Hl). cbn [fst snd] in *. subst f. cbn beta iota.
    rewrite yc_at.
    destruct (lsum_slide u a b p (length dn) ltac:(lia)) as [L1 L2].
    rewrite (score_ls u a p (l - 1)) by lia. cbn [rbind]. replace (l - 1) with (length dn) by lia.
    destruct (Nat.ltb_spec sc (ls u a p (length dn))) as [?|_]; [lia|].
    rewrite score_ls by lia. cbn [rbind]. replace (l + b - 1) with (length dn + b) by lia. rewrite Hs, L2.
    replace (S (length dn)) with l by lia.
    destruct (set_ok m _ u a b p l Hm) as (m' & E' & Hm'); [split_and!; lia|]. rewrite E'. cbn [rbind].
    eexists. split; [reflexivity|]. cbn [fst snd]. rewrite app_length. cbn [length]. replace (length dn + 1) with l by lia.
    split; [done|]. eapply good_sub; [exact Hm'|]. simpl. intros u' a' b' p' l' _ [?|(-> & -> & -> & -> & ?)]; [by left; left|].
    destruct (decide (l' = l)) as [->|]; [by right|]. left. right. split_and!; try done. lia.
  - rewrite E2. cbn [rbind fst]. exists m2. split; [done|]. cbn [fst] in Hm2. eapply good_sub; [exact Hm2|]. simpl.
    intros u' a' b' p' l' (? & ? & ? & ?) [?|(-> & -> & -> & ->)]; [by left|]. right. split_and!; try done. rewrite seq_length. lia.
Qed.

Lemma bpass_ok mem D u : good mem D -> 1 <= blines t u -> exists mem', bpass t lm u mem = Ok mem' /\
  good mem' (fun u' a' b' p' l' => D u' a' b' p' l' \/ u' = u).
Proof using Hlm Hby.
  intros HG H1. unfold bpass.
  match goal with |- context [foldM ?F _ _] => set (f := F) end.
  destruct (foldM_inv f (fun dn mem => good mem (fun u' a' b' p' l' => D u' a' b' p' l' \/ (u' = u /\ a' <= length dn)))
    (seq 1 (blen t u)) mem) as (mem' & E & Hm).
  - eapply good_sub; [exact HG|]. simpl. intros u' a' b' p' l' (? & _) ?. destruct_or?; [done|lia].
  - intros dn a rest m Hsp Hm. apply seq_split in Hsp as (Ea & Hal). subst f. cbn beta.
    destruct (first_lines_ok m _ u a Hm) as (m1 & E1 & Hm1); [lia..|]. rewrite E1. cbn [rbind].
    match goal with |- context [foldM ?F _ _] => set (g := F) end.
    destruct (foldM_inv g (fun dn' mem => good mem (fun u' a' b' p' l' => D u' a' b' p' l' \/ (u' = u /\ (a' <= length dn \/ (a' = a /\ b' <= S (length dn'))))))
      (seq 2 (blines t u - 1)) m1) as (m2 & E2 & Hm2).
    + eapply good_sub; [exact Hm1|]. simpl. intros u' a' b' p' l' (? & ? & _) [?|(-> & [?|[-> ?]])]; [by left; left|left; right; done|].
      right. split_and!; try done. lia.
    + intros dn' b rest' m' Hsp Hm'. apply seq_split in Hsp as (Eb & Hbl). subst g. cbn beta.
      assert (Hh : forall b, 1 <= b <= blines t u -> 1 <= (hw u a b).1 <= dim_y t /\ 1 <= (hw u a b).2 <= dim_x t).
      { intros b' Hb'. destruct u; simpl in *; lia. }
      destruct (Hh (b - 1) ltac:(lia)) as [Hb1 Hb2]. destruct (Hh b ltac:(lia)) as [Hb3 Hb4].
      rewrite !(bget_ok t m') by (apply Hm' || done). cbn [rbind].
      match goal with |- context [foldM ?F _ _] => set (g := F) end.
      destruct (foldM_inv g (fun dn2 mem => good mem (fun u' a' b' p' l' => D u' a' b' p' l' \/ (u' = u /\ (a' <= length dn \/ (a' = a /\ (b' < b \/ (b' = b /\ p' < length dn2)))))))
       (seq 0 (S (blen t u - a))) m') as (m3 & E3 & Hm3).
      * eapply good_sub; [exact Hm'|]. simpl. intros. destruct_or?; [by left|right]. split; [tauto|]. destruct_and?. destruct_or?; [by left|right]. lia.
      * intros dn2 p rest2 m4 Hsp Hm4. apply seq_split in Hsp as (Ep & Hpl). subst g. cbn beta.
        destruct (slide_ok m4 _ u a b p Hm4) as (m5 & E5 & Hm5); [lia..| |]. { right. split; [done|]. right. split; [done|]. left. lia. }
        exists m5. split; [done|]. eapply good_sub; [exact Hm5|]. simpl. rewrite app_length. cbn [length].
        intros u' a' b' p' l' _ [?|(-> & [?|(-> & [?|[-> ?]])])]; [by left; left|left; right; split; [done|by left]| |].
        -- left. right. split; [done|]. right. split; [done|by left].
        -- destruct (decide (p' = p)) as [->|]; [by right|]. left. right. split; [done|]. right. split; [done|]. right. split; [done|]. lia.
      * exists m3. split; [done|]. eapply good_sub; [exact Hm3|]. simpl. rewrite app_length. cbn [length].
        intros u' a' b' p' l' (? & ? & ? & ?) [?|(-> & [?|(-> & ?)])]; [by left|right; split; [done|by left]|].
        right. split; [done|]. right. split; [done|]. rewrite seq_length. lia.
    + exists m2. split; [done|]. eapply good_sub; [exact Hm2|]. simpl. rewrite app_length. cbn [length].
      intros u' a' b' p' l' (? & ? & ? & ?) [?|(-> & ?)]; [by left|right]. split; [done|]. rewrite seq_length.
      destruct (decide (a' = a)) as [->|]; [right; split; [done|lia]|left; lia].
  - exists mem'. split; [done|]. eapply good_sub; [exact Hm|]. simpl. rewrite seq_length.
    intros u' a' b' p' l' (? & ? & ? & ?) [?| ->]; [by left|right]. split; [done|]. lia.
Qed.

Definition filled (mem : list nat) : Prop := good mem (fun _ _ _ _ _ => True).
Lemma cache_ok : 1 <= dim_y t -> 1 <= dim_x t -> exists mem, biclique_cache t lm = Ok mem /\ filled mem.
Proof using Hlm Hby.
  intros Hy Hx. unfold biclique_cache.
  destruct (access_ok t (replicate (bmemtotal t) 0)) as (m0 & E0 & H0). { apply replicate_length. } rewrite E0. cbn [rbind].
  destruct (bpass_ok m0 (fun _ _ _ _ _ => False) false) as (m1 & E1 & H1); [by split|done|]. rewrite E1. cbn [rbind].
  destruct (bpass_ok m1 _ true H1) as (m2 & E2 & H2); [done|]. exists m2. split; [done|].
  eapply good_sub; [exact H2|]. intros [] a b p l _ _; tauto.
Qed.

(** the two counts of a rectangle *)
Definition rcount (u : bool) (y0 y1 x0 x1 : nat) : nat :=
  if u then lsum true (x1 - x0 + 1) (y1 - y0 + 1) x0 y0 else lsum false (y1 - y0 + 1) (x1 - x0 + 1) y0 x0.
Lemma get_cell mem h w y x : filled mem -> 1 <= h -> 1 <= w -> y + h <= dim_y t -> x + w <= dim_x t -> forall u,
  yc_get mem (ycof t h w) y x u = Ok (rcount u y (y + h - 1) x (x + w - 1)).
Proof.
  intros [_ H] Hh Hw Hy Hx u. unfold yc_get, rcount.
  replace (y + h - 1 - y + 1) with h by lia. replace (x + w - 1 - x + 1) with w by lia.
  destruct u.
  - erewrite vget_ok; [reflexivity|]. apply (H true w h x y); [split_and!; simpl; lia|done].
  - erewrite vget_ok; [reflexivity|]. apply (H false h w y x); [split_and!; simpl; lia|done].
Qed.
Lemma bscore_ok mem y0 y1 x0 x1 : filled mem -> y0 <= y1 < dim_y t -> x0 <= x1 < dim_x t ->
  bscore t mem y0 y1 x0 x1 = Ok (rcount false y0 y1 x0 x1, rcount true y0 y1 x0 x1).
Proof.
  intros HF Hy Hx. unfold bscore. rewrite bget_ok by (apply HF || lia). cbn [rbind].
  rewrite !get_cell by (done || lia). cbn [rbind]. repeat f_equal; lia.
Qed.
End passes.
