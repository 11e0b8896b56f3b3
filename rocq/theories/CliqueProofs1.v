(** The flat memory of the clique dynamic program: the levels do not overlap and every address
    computed lies inside the allocation (C37). *)
From stdpp Require Import base list list_numbers numbers gmap.
From Verif Require Import Base BusModel CliqueModel CoordProofs BitProofs BundleProofs.

Section layout.
Context (t : topo) (width : nat).
Context (Hw2 : 2 <= width) (Hwy : width <= dim_y t) (Hwx : width <= dim_x t).

Definition rows (i : nat) : nat := dim_y t - i.
Definition cols (i : nat) : nat := if i + 1 <? width then dim_x t + i + 2 - width else dim_x t.
Fixpoint off (i : nat) : nat := match i with 0 => width | S i => off i + rows i * cols i end.
Definition addr (i y x : nat) : nat := off i + grid_index (cols i) y x.

Lemma memrows_ok i : i < width -> memrows t width i = Ok (rows i).
Proof.
  intros H. unfold memrows, rows. destruct (Nat.ltb_spec i width); [|lia].
  destruct (Nat.leb_spec i (dim_y t)); [done|lia].
Qed.
Lemma memcols_ok i : i < width -> memcols t width i = Ok (cols i).
Proof.
  intros H. unfold memcols, cols. destruct (Nat.ltb_spec (i + 1) width).
  - destruct (Nat.leb_spec width (dim_x t + i + 2)); [done|lia].
  - destruct (Nat.eqb_spec (i + 1) width); [done|lia].
Qed.
Lemma memsize_ok i : i < width -> memsize t width i = Ok (rows i * cols i).
Proof. intros H. unfold memsize. rewrite memrows_ok, memcols_ok by done. done. Qed.

Lemma off_mono i j : i <= j -> off i <= off j.
Proof. induction 1; simpl; [done|lia]. Qed.
Lemma off_width i : width <= off i.
Proof. apply (off_mono 0). lia. Qed.

Lemma addr_lt i y x : y < rows i -> x < cols i -> off i <= addr i y x < off (S i).
Proof. intros Hy Hx. unfold addr. pose proof (grid_index_lt _ _ _ _ Hy Hx). simpl. lia. Qed.

Lemma addr_inj i y x i' y' x' : y < rows i -> x < cols i -> y' < rows i' -> x' < cols i' ->
  addr i y x = addr i' y' x' -> i = i' /\ y = y' /\ x = x'.
Proof.
  intros Hy Hx Hy' Hx' E. pose proof (addr_lt i y x Hy Hx). pose proof (addr_lt i' y' x' Hy' Hx').
  assert (i = i') as ->.
  { destruct (Nat.lt_trichotomy i i') as [L|[?|L]]; [|done|].
    - pose proof (off_mono (S i) i' ltac:(lia)). lia.
    - pose proof (off_mono (S i') i ltac:(lia)). lia. }
  split; [done|]. unfold addr in E. apply (grid_index_inj (cols i')); [done..|]. lia.
Qed.

Lemma memtotal_ok : memtotal t width = Ok (off width).
Proof.
  unfold memtotal.
  destruct (foldM_inv (fun s i => let! m := memsize t width i in Ok (s + (m + 1)))
    (fun dn s => s + width = off (length dn) + length dn) (seq 0 width) 0) as (s & E & H).
  - simpl. lia.
  - intros dn i rest s Hsp HI.
    assert (Hi : i = length dn /\ length dn < width).
    { assert (E : seq 0 width !! length dn = Some i) by (by rewrite Hsp, list_lookup_middle).
      apply lookup_seq in E. simpl in E. lia. }
    destruct Hi as [-> Hi]. rewrite memsize_ok by done. cbn [rbind]. eexists. split; [done|].
    rewrite app_length. cbn [length]. rewrite (Nat.add_1_r (length dn)). cbn [off]. lia.
  - rewrite E. f_equal. rewrite seq_length in H. lia.
Qed.

(** the header of the memory *)
Definition header (mem : list N) : Prop :=
  length mem = off width /\ forall i, i < width -> mem !! i = Some (N.of_nat (off i)).

Lemma alloc_ok : exists mem, clique_alloc t width = Ok mem /\ header mem /\
  forall i y x, i < width -> y < rows i -> x < cols i -> mem !! addr i y x = Some 0%N.
Proof.
  unfold clique_alloc. rewrite memtotal_ok. cbn [rbind]. pose proof (off_width width).
  rewrite vset_ok by (rewrite replicate_length; lia). cbn [rbind].
  destruct (foldM_inv (fun mem i =>
    let! a := vget mem (i - 1) in
    let! m := memsize t width (i - 1) in
    vset mem i (a + N.of_nat m)%N)
    (fun dn mem => length mem = off width /\ (forall i, i <= length dn -> mem !! i = Some (N.of_nat (off i))) /\
       forall j, width <= j < off width -> mem !! j = Some 0%N)
    (seq 1 (width - 1)) (<[0:=N.of_nat width]> (replicate (off width) 0%N))) as (mem & E & L & H1 & H2).
  - rewrite insert_length, replicate_length. split_and!; [done| |].
    + intros i Hi. simpl in Hi. assert (i = 0) as -> by lia. rewrite list_lookup_insert; [done|].
      rewrite replicate_length. lia.
    + intros j Hj. rewrite list_lookup_insert_ne by lia. apply lookup_replicate. split; [done|lia].
  - intros dn i rest mem Hsp (L & H1 & H2).
    assert (Hi : i = S (length dn) /\ S (length dn) < width).
    { assert (E : seq 1 (width - 1) !! length dn = Some i) by (by rewrite Hsp, list_lookup_middle).
      apply lookup_seq in E. simpl in E. lia. }
    destruct Hi as [-> Hi]. simpl. rewrite Nat.sub_0_r.
    rewrite (vget_ok _ _ _ (H1 _ (le_n _))). cbn [rbind]. rewrite memsize_ok by lia. cbn [rbind].
    rewrite vset_ok by lia. eexists. split; [done|]. rewrite insert_length, app_length. simpl. split_and!.
    + done.
    + intros i Hi'. destruct (decide (i = S (length dn))) as [->|Hn].
      * rewrite list_lookup_insert by lia. f_equal. simpl. lia.
      * rewrite list_lookup_insert_ne by done. apply H1. lia.
    + intros j Hj. rewrite list_lookup_insert_ne by lia. by apply H2.
  - exists mem. split; [done|]. rewrite seq_length in H1. split.
    + split; [done|]. intros i Hi. apply H1. lia.
    + intros i y x Hi Hy Hx. apply H2. pose proof (addr_lt i y x Hy Hx). pose proof (off_width i).
      pose proof (off_mono (S i) width ltac:(lia)). lia.
Qed.

Lemma level_ok mem i : header mem -> i < width -> level t width mem i = Ok (rows i, cols i, off i).
Proof.
  intros [L H] Hi. unfold level. rewrite memrows_ok, memcols_ok by done. cbn [rbind].
  rewrite (vget_ok _ _ _ (H i Hi)). cbn [rbind]. by rewrite Nat2N.id.
Qed.

Lemma header_get mem i y x : header mem -> i < width -> y < rows i -> x < cols i ->
  exists e, mem !! addr i y x = Some e.
Proof.
  intros [L _] Hi Hy Hx. apply lookup_lt_is_Some_2. rewrite L. pose proof (addr_lt i y x Hy Hx).
  pose proof (off_mono (S i) width ltac:(lia)). lia.
Qed.

Lemma lv_get_ok mem i y x e : mem !! addr i y x = Some e -> lv_get mem (rows i, cols i, off i) y x = Ok e.
Proof. intros E. unfold lv_get. by apply vget_ok. Qed.

Lemma lv_setmax_ok mem i y x e s c : mem !! addr i y x = Some e ->
  lv_setmax mem (rows i, cols i, off i) y x s c = Ok (<[addr i y x := entry_setmax e s c]> mem).
Proof.
  intros E. unfold lv_setmax. fold (addr i y x). rewrite (vget_ok _ _ _ E). cbn [rbind].
  apply vset_ok. by eapply lookup_lt_Some.
Qed.

Lemma header_insert mem i y x e : header mem -> i < width -> y < rows i -> x < cols i ->
  header (<[addr i y x := e]> mem).
Proof.
  intros [L H] Hi Hy Hx. split; [by rewrite insert_length|]. intros j Hj.
  rewrite list_lookup_insert_ne; [by apply H|]. pose proof (addr_lt i y x Hy Hx). pose proof (off_width i). lia.
Qed.
End layout.
