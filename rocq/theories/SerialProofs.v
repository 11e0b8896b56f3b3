(** Proofs about SerialModel.v *)
Require Import Lia.
From stdpp Require Import base list list_numbers numbers.
From Verif Require Import Base SerialModel SpecSerial.
From stdpp Require Import list.

Lemma le_length k x : length (to_le k x) = k.
Proof. revert x. induction k as [|k IH]; intros x; cbn [to_le length]; [done|]. by rewrite IH. Qed.
Lemma le_bytes k x : Forall byte (to_le k x).
Proof.
  revert x. induction k as [|k IH]; intros x; cbn [to_le]; constructor; [|apply IH].
  unfold byte. apply Z.mod_pos_bound. lia.
Qed.
Lemma from_to k x : (0 <= x < 256 ^ Z.of_nat k)%Z -> from_le (to_le k x) = x.
Proof.
  revert x. induction k as [|k IH]; intros x Hx; cbn [to_le from_le].
  - cbn in Hx. lia.
  - rewrite IH; [pose proof (Z_div_mod_eq_full x 256); lia|].
    rewrite Nat2Z.inj_succ, Z.pow_succ_r in Hx by lia. split; [apply Z.div_pos; lia|apply Z.div_lt_upper_bound; lia].
Qed.
Lemma le_inj x y : word x -> word y -> to_le 8 x = to_le 8 y -> x = y.
Proof.
  unfold word. intros Hx Hy E. rewrite <- (from_to 8 x), <- (from_to 8 y), E; [done| |]; change (256 ^ Z.of_nat 8)%Z with (2 ^ 64)%Z; done.
Qed.

Lemma size_bytes v : length (bytes_of v) = size_of v.
Proof. destruct v; [apply le_length|done]. Qed.
Definition all_bytes (vs : list value) : list Z := concat (bytes_of <$> vs).
Lemma size_all vs : length (all_bytes vs) = serialize_size vs.
Proof.
  induction vs as [|v vs IH]; [done|]. unfold all_bytes in *. cbn [fmap list_fmap concat serialize_size].
  by rewrite app_length, IH, size_bytes.
Qed.

Lemma write_spec vs pre post : length post = serialize_size vs ->
  serialize_write vs (pre ++ post) (length pre) = Ok (pre ++ (Some <$> all_bytes vs), serialize_size vs).
Proof.
  revert pre post. induction vs as [|v vs IH]; intros pre post Hl; cbn [serialize_write serialize_size] in *.
  - destruct post; [|done]. done.
  - rewrite take_ge by (rewrite size_bytes; lia). unfold memcpy. rewrite bool_decide_true by (rewrite app_length, size_bytes; lia).
    cbn [rbind]. rewrite take_app. rewrite size_bytes.
    rewrite drop_app_ge by lia. replace (length pre + size_of v - length pre) with (size_of v) by lia.
    rewrite app_assoc. assert (E : length pre + size_of v = length (pre ++ (Some <$> bytes_of v))).
    { by rewrite app_length, fmap_length, size_bytes. }
    rewrite E, IH; [|rewrite drop_length; lia]. cbn [rbind]. f_equal. f_equal.
    unfold all_bytes. cbn [fmap list_fmap concat]. by rewrite fmap_app, app_assoc.
Qed.
Lemma get_byte_ok l i b : l !! i = Some b -> get_byte (Some <$> l) i = Ok b.
Proof. intros H. unfold get_byte, buffer. by rewrite (list_lookup_fmap Some l i), H. Qed.
Lemma get_bytes_ok pre l post : get_bytes (Some <$> (pre ++ l ++ post)) (length pre) (length l) = Ok l.
Proof.
  unfold get_bytes. enough (G : forall done rest, l = done ++ rest ->
    foldM (fun r j => let! b := get_byte (Some <$> (pre ++ l ++ post)) j in Ok (r ++ [b]))
      (seq (length pre + length done) (length rest)) done = Ok l).
  { specialize (G [] l eq_refl). cbn in G. by rewrite Nat.add_0_r in G. }
  intros dn rest. revert dn. induction rest as [|b rest IH]; intros dn E; cbn [length seq foldM].
  - by rewrite E, app_nil_r.
  - erewrite get_byte_ok.
    2: { rewrite lookup_app_r by lia. rewrite lookup_app_l by (rewrite E, app_length; cbn; lia).
         replace (length pre + length dn - length pre) with (length dn) by lia. rewrite E. by rewrite list_lookup_middle. }
    cbn [rbind]. specialize (IH (dn ++ [b])). rewrite app_length in IH. cbn [length] in IH.
    replace (S (length pre + length dn)) with (length pre + (length dn + 1)) by lia. apply IH. by rewrite E, <- app_assoc.
Qed.
Lemma get_bytes_at l i n : i + n <= length l -> get_bytes (Some <$> l) i n = Ok (take n (drop i l)).
Proof.
  intros H. pose proof (get_bytes_ok (take i l) (take n (drop i l)) (drop n (drop i l))) as G.
  rewrite take_drop, take_drop in G. rewrite take_length, take_length, drop_length in G.
  by rewrite Nat.min_l, Nat.min_l in G by lia.
Qed.
Lemma foldM_total {B St} (f : St -> B -> res St) l s : (forall s x, x ∈ l -> exists s', f s x = Ok s') -> exists s', foldM f l s = Ok s'.
Proof.
  revert s. induction l as [|x l IH]; intros s H; cbn; [by eexists|]. destruct (H s x ltac:(left)) as [s' ->]. cbn [rbind].
  apply IH. intros. apply H. by right.
Qed.
Lemma shortcode_total l : exists c, shortcode (Some <$> l) (length l) = Ok c.
Proof.
  unfold shortcode. edestruct (foldM_total (fun c i => let! w := get_bytes (Some <$> l) (8 * i) 8 in Ok (u64 (c + from_le w)%Z))
    (seq 0 (length l / 8)) 0%Z) as [c ->].
  { intros s i Hi%elem_of_seq. rewrite get_bytes_at; [by eexists|]. pose proof (Nat.div_mod (length l) 8). lia. }
  cbn [rbind]. apply foldM_total. intros s j Hj%elem_of_seq.
  destruct (lookup_lt_is_Some_2 l j) as [b Hb]; [pose proof (Nat.mod_le (length l) 8); lia|].
  rewrite (get_byte_ok _ _ _ Hb). by eexists.
Qed.

(** no undefined behaviour; the identifier is the concatenation of the fields *)
Lemma identifier_ok sp t : exists c, identifier sp t = Ok (all_bytes (values sp t), c)
  /\ shortcode (Some <$> all_bytes (values sp t)) (length (all_bytes (values sp t))) = Ok c.
Proof.
  unfold identifier. pose proof (write_spec (values sp t) [] (replicate (serialize_size (values sp t)) None)) as H.
  cbn [app length] in H. rewrite H by apply replicate_length. cbn [rbind].
  rewrite <- size_all. rewrite get_bytes_at by lia. cbn [rbind]. rewrite drop_0, firstn_all.
  destruct (shortcode_total (all_bytes (values sp t))) as [c Hc]. rewrite Hc. cbn [rbind]. by exists c.
Qed.

Lemma app_split {B} (a b a' b' : list B) : length a = length a' -> a ++ b = a' ++ b' -> a = a' /\ b = b'.
Proof. apply app_inj_1. Qed.

Lemma masks_inj sp t sp' t' : topo_ok sp t -> topo_ok sp' t' ->
  t_dim_y t = t_dim_y t' -> t_dim_x t = t_dim_x t' ->
  t_nodemask t ++ t_edgemask t ++ t_badmask t ++ [] = t_nodemask t' ++ t_edgemask t' ++ t_badmask t' ++ [] ->
  t_nodemask t = t_nodemask t' /\ t_edgemask t = t_edgemask t' /\ t_badmask t = t_badmask t'.
Proof.
  intros H H' Hy Hx E.
  apply app_split in E as [E1 E]; [|pose proof (to_node _ _ H); pose proof (to_node _ _ H'); rewrite Hy, Hx in *; lia].
  apply app_split in E as [E2 E]; [|pose proof (to_edge _ _ H); pose proof (to_edge _ _ H'); rewrite Hy, Hx in *; lia].
  rewrite !app_nil_r in E. done.
Qed.

Lemma base_inj sp t sp' t' : topo_ok sp t -> topo_ok sp' t' ->
  all_bytes ([VWord (t_dim_y t); VWord (t_dim_x t); VWord (t_shore t); VWord (t_seed t)] ++ [VBytes (t_nodemask t); VBytes (t_edgemask t); VBytes (t_badmask t)]) =
  all_bytes ([VWord (t_dim_y t'); VWord (t_dim_x t'); VWord (t_shore t'); VWord (t_seed t')] ++ [VBytes (t_nodemask t'); VBytes (t_edgemask t'); VBytes (t_badmask t')]) ->
  t = t'.
Proof.
  intros H H' E. unfold all_bytes in E. cbn [app fmap list_fmap concat bytes_of] in E.
  apply app_split in E as [E1 E]; [|by rewrite !le_length]. apply app_split in E as [E2 E]; [|by rewrite !le_length].
  apply app_split in E as [E3 E]; [|by rewrite !le_length]. apply app_split in E as [E4 E]; [|by rewrite !le_length].
  apply le_inj in E1; [|apply H|apply H']. apply le_inj in E2; [|apply H|apply H'].
  apply le_inj in E3; [|apply H|apply H']. apply le_inj in E4; [|apply H|apply H'].
  destruct (masks_inj _ _ _ _ H H' E1 E2 E) as (E5 & E6 & E7). destruct t, t'; cbn in *; congruence.
Qed.

Lemma identifier_inj sp t sp' t' i c c' : topo_ok sp t -> topo_ok sp' t' -> same_family sp sp' ->
  (forall d o, sp <> Pegasus d o) ->
  identifier sp t = Ok (i, c) -> identifier sp' t' = Ok (i, c') -> sp = sp' /\ t = t' /\ c = c'.
Proof.
  intros H H' HS Hp E E'. destruct (identifier_ok sp t) as (c1 & E1 & C1). destruct (identifier_ok sp' t') as (c2 & E2 & C2).
  rewrite E in E1. injection E1 as Hi1 <-. rewrite E' in E2. injection E2 as Hi2 <-.
  assert (t = t') as Ht.
  { destruct sp, sp'; try done; try (by exfalso; eapply Hp); eapply base_inj; try eassumption; unfold values in Hi1, Hi2; congruence. }
  rewrite <- Hi1 in C1. rewrite <- Hi2 in C2.
  split; [|split; [done|congruence]]. destruct sp as [|d k|d o], sp' as [|d' k'|d' o']; try done; [|by exfalso; eapply Hp].
  pose proof (to_shaped _ _ H) as S1. pose proof (to_shaped _ _ H') as S2. cbn in S1, S2. rewrite <- Ht in S2. f_equal; lia.
Qed.
Lemma pegasus_inj d o d' o' t t' i c c' : topo_ok (Pegasus d o) t -> topo_ok (Pegasus d' o') t' ->
  identifier (Pegasus d o) t = Ok (i, c) -> identifier (Pegasus d' o') t' = Ok (i, c') ->
  d = d' /\ o = o' /\ same_but_seed t t' /\ c = c'.
Proof.
  intros H H' E E'. destruct (identifier_ok (Pegasus d o) t) as (c1 & E1 & C1). destruct (identifier_ok (Pegasus d' o') t') as (c2 & E2 & C2).
  rewrite E in E1. injection E1 as Hi1 <-. rewrite E' in E2. injection E2 as Hi2 <-.
  rewrite <- Hi1 in C1. rewrite <- Hi2 in C2. assert (c = c') as Hc by congruence.
  pose proof (to_shaped _ _ H) as S1. pose proof (to_shaped _ _ H') as S2. cbn in S1, S2.
  destruct S1 as (Hd & Ho & _ & Hy & Hx & Hs), S2 as (Hd' & Ho' & _ & Hy' & Hx' & Hs').
  rewrite Hi1 in Hi2. unfold values, all_bytes in Hi2. cbn [app fmap list_fmap concat bytes_of] in Hi2.
  assert (d = d') as <-.
  { apply (f_equal length) in Hi2. rewrite !app_length in Hi2. cbn [length] in Hi2.
    pose proof (to_node _ _ H) as N. pose proof (to_edge _ _ H) as Ed. pose proof (to_bad _ _ H) as B.
    pose proof (to_node _ _ H') as N'. pose proof (to_edge _ _ H') as Ed'. pose proof (to_bad _ _ H') as B'.
    rewrite Hy, Hx in N, Ed. rewrite Hy', Hx' in N', Ed'. rewrite Hy, Hx, Hs in B. rewrite Hy', Hx', Hs' in B'.
    assert (d * d = d' * d')%Z by nia. nia. }
  apply app_split in Hi2 as [-> E4]; [|congruence].
  destruct (masks_inj _ _ _ _ H H' ltac:(congruence) ltac:(congruence) E4) as (E5 & E6 & E7).
  split; [done|]. split; [done|]. split; [|done]. split_and!; congruence.
Qed.
Lemma pegasus_no_seed d o t s : identifier (Pegasus d o) (mkStored (t_dim_y t) (t_dim_x t) (t_shore t) s (t_nodemask t) (t_edgemask t) (t_badmask t)) = identifier (Pegasus d o) t.
Proof. done. Qed.
