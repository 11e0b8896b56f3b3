(** The biclique table: where its words are and what the two passes put there. *)
From stdpp Require Import base list list_numbers numbers gmap.
From Verif Require Import Base BusModel BicliqueModel CoordProofs BitProofs BundleProofs CliqueProofs2.

Definition sum_to (f : nat -> nat) (n : nat) : nat := sum_list (f <$> seq 0 n).
Lemma sum_to_S f n : sum_to f (S n) = sum_to f n + f n.
Proof. unfold sum_to. rewrite seq_S, fmap_app. simpl. induction (f <$> seq 0 n) as [|a l IH]; simpl; lia. Qed.
Lemma sum_to_mono f a b : a <= b -> sum_to f a <= sum_to f b.
Proof. induction 1 as [|b _ IH]; [done|]. rewrite sum_to_S. lia. Qed.
Lemma sum_to_ext f g n : (forall i, i < n -> f i = g i) -> sum_to f n = sum_to g n.
Proof. induction n as [|n IH]; intros H; [done|]. rewrite !sum_to_S, IH by (intros; apply H; lia). rewrite H by lia. done. Qed.
Lemma sum_to_le f g n : (forall i, i < n -> f i <= g i) -> sum_to f n <= sum_to g n.
Proof. induction n as [|n IH]; intros H; [done|]. rewrite !sum_to_S. specialize (IH ltac:(intros; apply H; lia)). specialize (H n ltac:(lia)). lia. Qed.
Lemma sum_to_0 f n : sum_to f (S n) = f 0 + sum_to (fun i => f (S i)) n.
Proof. induction n as [|n IH]; [rewrite sum_to_S; unfold sum_to; simpl; lia|]. rewrite sum_to_S, IH, sum_to_S. lia. Qed.

Lemma seq_split a n (dn : list nat) x rest : seq a n = dn ++ x :: rest -> x = a + length dn /\ length dn < n.
Proof.
  intros H. assert (E : seq a n !! length dn = Some x) by (by rewrite H, list_lookup_middle).
  by apply lookup_seq in E as [-> Hl].
Qed.

Section table.
Context (t : topo).
Notation DY := (dim_y t).
Notation DX := (dim_x t).

(** the words of height [h+1] and width [w+1] *)
Definition sz (h w : nat) : nat := bmemsize t (S h) (S w).
Definition offr (h : nat) : nat := DY * DX + sum_to (fun h' => sum_to (sz h') DX) h.
Definition off (h w : nat) : nat := offr h + sum_to (sz h) w.

Lemma off_S h w : off h (S w) = off h w + sz h w.
Proof. unfold off. rewrite sum_to_S. lia. Qed.
Lemma off_row h : off h DX = offr (S h).
Proof. unfold off, offr. rewrite sum_to_S. lia. Qed.
Lemma off_lt h w h' w' : w < DX -> w' < DX -> h < h' \/ (h = h' /\ w < w') -> off h (S w) <= off h' w'.
Proof.
  intros Hw Hw' [Hl|[-> Hl]].
  - pose proof (sum_to_mono (sz h) (S w) DX Hw). pose proof (sum_to_mono (fun h' => sum_to (sz h') DX) (S h) h' Hl).
    unfold off, offr in *. rewrite sum_to_S in H0. lia.
  - unfold off. pose proof (sum_to_mono (sz h') (S w) w' Hl). lia.
Qed.
Lemma total_enough : offr DY <= bmemtotal t.
Proof.
  unfold offr. change (bmemtotal t) with (sum_to (fun h => sum_to (fun w => bmemsize t h w + 1) (S DX)) (S DY)).
  rewrite sum_to_0.
  enough (G : forall n, n * DX + sum_to (fun h' => sum_to (sz h') DX) n <= sum_to (fun h => sum_to (fun w => bmemsize t (S h) w + 1) (S DX)) n).
  { specialize (G DY). lia. }
  induction n as [|n IH]; [unfold sum_to; simpl; lia|]. rewrite (sum_to_S _ n), (sum_to_S (fun h => sum_to (fun w => bmemsize t (S h) w + 1) (S DX)) n).
  enough (G : DX + sum_to (sz n) DX <= sum_to (fun w => bmemsize t (S n) w + 1) (S DX)) by lia.
  rewrite sum_to_0. enough (G : forall m, m + sum_to (sz n) m <= sum_to (fun w => bmemsize t (S n) (S w) + 1) m) by (specialize (G DX); lia).
  induction m as [|m IHm]; [unfold sum_to; simpl; lia|]. rewrite !sum_to_S. unfold sz at 2. lia.
Qed.

Definition header (mem : list nat) : Prop :=
  length mem = bmemtotal t /\ forall h w, h < DY -> w < DX -> mem !! (grid_index DX h w) = Some (off h w).

Lemma grid_lt h w : h < DY -> w < DX -> grid_index DX h w < DY * DX.
Proof. unfold grid_index. nia. Qed.
Lemma grid_inj h w h' w' : w < DX -> w' < DX -> grid_index DX h w = grid_index DX h' w' -> h = h' /\ w = w'.
Proof. unfold grid_index. intros. assert (h = h') as -> by nia. split; [done|]. lia. Qed.

Lemma access_ok mem : length mem = bmemtotal t -> exists mem', make_access_table t mem = Ok mem' /\ header mem'.
Proof.
  intros HL. unfold make_access_table.
  assert (Hoff : DY * DX <= bmemtotal t) by (pose proof total_enough; unfold offr in *; lia).
  destruct (foldM_inv (fun (s : list nat * nat) h => foldM (fun '(mem, offset) w =>
      let! mem := vset mem (bmem_addr t h w) offset in
      Ok (mem, offset + bmemsize t h w)) (seq 1 DX) s)
    (fun dn s => s.2 = offr (length dn) /\ length s.1 = bmemtotal t /\
       forall h w, h < length dn -> w < DX -> s.1 !! grid_index DX h w = Some (off h w)) (seq 1 DY) (mem, DY * DX))
    as (s & E & _ & H2 & H3).
  - split_and!; [unfold offr, sum_to; simpl; lia|done|simpl; lia].
  - intros dn h rest s Hsp (H1 & H2 & H3). apply seq_split in Hsp as (-> & Hh). rewrite app_length. cbn [length].
    destruct (foldM_inv (fun '(mem, offset) w =>
      let! mem := vset mem (bmem_addr t (1 + length dn) w) offset in
      Ok (mem, offset + bmemsize t (1 + length dn) w))
      (fun dn' (s : list nat * nat) => s.2 = off (length dn) (length dn') /\ length s.1 = bmemtotal t /\
       forall h w, (h < length dn \/ (h = length dn /\ w < length dn')) -> w < DX -> s.1 !! grid_index DX h w = Some (off h w))
      (seq 1 DX) s) as (s' & E & G1 & G2 & G3).
    + split_and!; [unfold off, sum_to at 1; simpl; lia|done|]. simpl. intros h w [?|?] Hw; [by apply H3|lia].
    + intros dn' w rest' [m o] Hsp (G1 & G2 & G3). apply seq_split in Hsp as (-> & Hw). cbn [fst snd] in *.
      unfold bmem_addr. replace (1 + length dn - 1) with (length dn) by lia. replace (1 + length dn' - 1) with (length dn') by lia.
      pose proof (grid_lt _ _ Hh Hw).
      rewrite vset_ok by lia. cbn [rbind]. eexists. split; [reflexivity|]. cbn [fst snd]. rewrite app_length. cbn [length]. rewrite Nat.add_1_r.
      split_and!; [rewrite off_S, G1; reflexivity|by rewrite insert_length|]. intros h w Hhw Hw'.
      destruct (decide (grid_index DX (length dn) (length dn') = grid_index DX h w)) as [Eg|Ng].
      * rewrite <- Eg. rewrite list_lookup_insert by lia. apply grid_inj in Eg as [<- <-]; [|lia..]. by rewrite G1.
      * rewrite list_lookup_insert_ne by done. apply G3; [|done]. destruct Hhw as [?|[-> ?]]; [by left|]. right. split; [done|].
        destruct (decide (w = length dn')) as [->|]; [done|lia].
    + rewrite seq_length in G1. rewrite Nat.add_1_r. exists s'. split; [done|]. split_and!; [by rewrite G1, off_row|done|].
      intros h w Hh' Hw. apply G3; [|done]. rewrite seq_length. lia.
  - rewrite E. cbn [rbind]. exists s.1. split; [done|]. split; [done|]. intros h w Hh Hw. apply H3; [by rewrite seq_length|done].
Qed.

(** ** one word, seen along the lines of direction [u]: [a] positions from [p], [b] lines from [l] *)
Definition cellv (u : bool) (a b p l : nat) : Prop := 1 <= a /\ 1 <= b /\ p + a <= blen t u /\ l + b <= blines t u.
Definition yxof (u : bool) (p l : nat) : nat * nat := if u then (l, p) else (p, l).
Definition ycof (h w : nat) : yieldcache := (bmemcols t w, off (h - 1) (w - 1)).
Definition caddr (u : bool) (a b p l : nat) : nat :=
  yc_index (ycof (hw u a b).1 (hw u a b).2) (yxof u p l).1 (yxof u p l).2 u.

Lemma bget_ok mem h w : header mem -> 1 <= h <= DY -> 1 <= w <= DX -> bget t mem h w = Ok (ycof h w).
Proof.
  intros [_ H] Hh Hw. unfold bget, bmem_addr. erewrite vget_ok by (apply H; lia). done.
Qed.

Lemma index_range h w y x u : 1 <= h -> 1 <= w -> y + h <= DY -> x + w <= DX ->
  off (h - 1) (w - 1) <= yc_index (ycof h w) y x u < off (h - 1) w.
Proof.
  intros H1 H2 Hy Hx. replace (off (h - 1) w) with (off (h - 1) (S (w - 1))) by (f_equal; lia).
  rewrite off_S. unfold yc_index, ycof, sz, bmemsize, bmemrows, bmemcols. cbn [fst snd].
  replace (S (h - 1)) with h by lia. replace (S (w - 1)) with w by lia.
  split; [apply Nat.le_add_r|]. assert (b2n u <= 1) by (destruct u; simpl; lia).
  enough (x + (DX - w + 1) * y < (DY - h + 1) * (DX - w + 1)) by lia. nia.
Qed.
Lemma caddr_range u a b p l : cellv u a b p l -> DY * DX <= caddr u a b p l < bmemtotal t.
Proof.
  intros (? & ? & Hp & Hl). unfold caddr.
  assert (R : exists h w y x, (hw u a b = (h, w) /\ yxof u p l = (y, x)) /\ 1 <= h /\ 1 <= w /\ y + h <= DY /\ x + w <= DX).
  { destruct u; simpl in *; eexists _, _, _, _; (split; [split; reflexivity|]); lia. }
  destruct R as (h & w & y & x & [-> ->] & ? & ? & ? & ?). cbn [fst snd].
  pose proof (index_range h w y x u ltac:(lia) ltac:(lia) ltac:(lia) ltac:(lia)) as [R1 R2].
  assert (DY * DX <= off (h - 1) (w - 1)) by (unfold off, offr; lia).
  assert (off (h - 1) w <= offr DY).
  { transitivity (offr h).
    - replace (offr h) with (offr (S (h - 1))) by (f_equal; lia). rewrite <- off_row. unfold off. pose proof (sum_to_mono (sz (h - 1)) w DX ltac:(lia)). lia.
    - unfold offr. pose proof (sum_to_mono (fun h' => sum_to (sz h') DX) h DY ltac:(lia)). lia. }
  pose proof total_enough. lia.
Qed.
Lemma index_inj h w y x u h' w' y' x' u' :
  1 <= h -> 1 <= w -> y + h <= DY -> x + w <= DX -> 1 <= h' -> 1 <= w' -> y' + h' <= DY -> x' + w' <= DX ->
  yc_index (ycof h w) y x u = yc_index (ycof h' w') y' x' u' -> h = h' /\ w = w' /\ y = y' /\ x = x' /\ u = u'.
Proof.
  intros H1 H2 H3 H4 H5 H6 H7 H8 E.
  pose proof (index_range h w y x u H1 H2 H3 H4) as R. pose proof (index_range h' w' y' x' u' H5 H6 H7 H8) as R'.
  pose proof (off_lt (h - 1) (w - 1) (h' - 1) (w' - 1) ltac:(lia) ltac:(lia)) as L.
  pose proof (off_lt (h' - 1) (w' - 1) (h - 1) (w - 1) ltac:(lia) ltac:(lia)) as L'.
  replace (S (w - 1)) with w in L by lia. replace (S (w' - 1)) with w' in L' by lia.
  assert (h = h' /\ w = w') as [<- <-].
  { destruct (Nat.lt_total h h') as [Hl|[->|Hl]].
    - specialize (L ltac:(lia)). lia.
    - split; [done|]. destruct (Nat.lt_total w w') as [Hl|[->|Hl]]; [specialize (L ltac:(lia)); lia|done|specialize (L' ltac:(lia)); lia].
    - specialize (L' ltac:(lia)). lia. }
  unfold yc_index, ycof in E. cbn [fst snd] in E.
  destruct (cell_index_inj (mkTopo DY (bmemcols t w) 1) y x u y' x' u') as (-> & -> & ->); [..|done].
  - simpl. unfold bmemcols. lia.
  - simpl. unfold bmemcols. lia.
  - unfold cell_index. simpl. lia.
Qed.
Lemma caddr_inj u a b p l u' a' b' p' l' : cellv u a b p l -> cellv u' a' b' p' l' ->
  caddr u a b p l = caddr u' a' b' p' l' -> u = u' /\ a = a' /\ b = b' /\ p = p' /\ l = l'.
Proof.
  intros (? & ? & ? & ?) (? & ? & ? & ?) E. unfold caddr in E.
  apply index_inj in E; [|destruct u, u'; simpl in *; lia..].
  destruct E as (? & ? & ? & ? & <-). destruct u; simpl in *; split_and!; (done || lia).
Qed.
End table.
