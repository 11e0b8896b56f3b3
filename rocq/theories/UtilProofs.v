(** Proofs about minorminer/utils: grids in Chimera, and the functions for cliques and bicliques. *)
From Coq Require Import Arith.
From stdpp Require Import base list list_numbers numbers relations gmap.
From Verif Require Import Base NxModel DiagProofs SpecBus SpecCache SpecUtil PyCacheModel PyCacheProofs1 PyCacheProofs3 PyCacheTop UtilModel.

Lemma lin_inj a k a' k' t : k < t -> k' < t -> a * t + k = a' * t + k' -> a = a' /\ k = k'.
Proof. intros Hk Hk' E. assert (a = a') as -> by (destruct (Nat.lt_trichotomy a a') as [H|[H|H]]; [nia|done|nia]). split; [done|lia]. Qed.
Lemma qubit_inj n t y x u k y' x' u' k' : x < n -> x' < n -> k < t -> k' < t ->
  qubit n t y x u k = qubit n t y' x' u' k' -> y = y' /\ x = x' /\ u = u' /\ k = k'.
Proof.
  intros Hx Hx' Hk Hk' E. unfold qubit in E. apply lin_inj in E as [E ->]; [|done..].
  apply lin_inj in E as [E Eu]; [|destruct u; lia|destruct u'; lia]. apply lin_inj in E as [-> ->]; [|done..].
  split_and!; [done|done| |done]. by destruct u, u'.
Qed.
Lemma qubit_lt m n t y x u k : y < m -> x < n -> k < t -> qubit n t y x u k < nqubits m n t.
Proof.
  intros Hy Hx Hk. unfold qubit, nqubits. assert (H1 : y * n + x < m * n) by nia.
  assert (H2 : (y * n + x) * 2 + (if u then 1 else 0) < m * n * 2) by (destruct u; lia). nia.
Qed.
Lemma to_linear_0 n t i j k : chimera_to_linear n t (i, j, 0, k) = qubit n t i j false k.
Proof. unfold chimera_to_linear, qubit. nia. Qed.
Lemma to_linear_1 n t i j k : chimera_to_linear n t (i, j, 1, k) = qubit n t i j true k.
Proof. unfold chimera_to_linear, qubit. nia. Qed.

Lemma NoDup_bind_key {X Y} (f : X -> list Y) (l : list X) : NoDup l -> (forall x, x ∈ l -> NoDup (f x)) ->
  (forall x y z, x ∈ l -> y ∈ l -> z ∈ f x -> z ∈ f y -> x = y) -> NoDup (l ≫= f).
Proof.
  induction l as [|a l IH]; intros Hl Hf Hd; cbn; [apply NoDup_nil_2|].
  apply NoDup_cons in Hl as [Ha Hl]. apply NoDup_app. split; [apply Hf; left|]. split.
  - intros z Hz Hz'. apply elem_of_list_bind in Hz' as (y & Hy & Hyl). assert (a = y) as <- by (eapply Hd; [left|by right|done|done]). done.
  - apply IH; [done|intros x Hx; apply Hf; by right|]. intros x y z Hx Hy. apply Hd; by right.
Qed.

Lemma fmap_bind {X Y Z} (f : X -> list Y) (g : Y -> Z) (l : list X) : g <$> (l ≫= f) = l ≫= (fun x => g <$> f x).
Proof. induction l as [|a l IH]; [done|]. cbn. rewrite fmap_app. f_equal. exact IH. Qed.

Section grid.
  Context (key : nat -> nat -> nat -> list nat) (R C A m n t : nat).
  Context (HR : R <= m) (HC : C <= n) (HA : A <= t).
  Context (Hinj : forall r c a r' c' a', r < R -> c < C -> a < A -> r' < R -> c' < C -> a' < A -> key r c a = key r' c' a' -> r = r' /\ c = c' /\ a = a').
  Definition gdict : list (list nat * list nat) :=
    row ← seq 0 R; col ← seq 0 C; aisle ← seq 0 A;
      [(key row col aisle, [qubit n t row col false aisle; qubit n t row col true aisle])].
  Lemma elem_gdict x ch : (x, ch) ∈ gdict <-> exists r c a, r < R /\ c < C /\ a < A /\ x = key r c a /\
    ch = [qubit n t r c false a; qubit n t r c true a].
  Proof using HR HC HA.
    unfold gdict. rewrite elem_of_list_bind. setoid_rewrite elem_of_list_bind. setoid_rewrite elem_of_list_bind.
    setoid_rewrite elem_of_seq. setoid_rewrite elem_of_list_singleton. split.
    - intros (r & (c & (a & E & Ha) & Hc) & Hr). injection E as -> ->. exists r, c, a. split_and!; first [lia|done].
    - intros (r & c & a & Hr & Hc & Ha & -> & ->). exists r. split; [|lia]. exists c. split; [|lia]. exists a. split; [done|lia].
  Qed.
  Lemma gdict_once : NoDup gdict.*1.
  Proof using HR HC HA Hinj.
    unfold gdict. rewrite fmap_bind. apply NoDup_bind_key; [apply NoDup_seq| |].
    - intros r Hr%elem_of_seq. cbn. rewrite fmap_bind. apply NoDup_bind_key; [apply NoDup_seq| |].
      + intros c Hc%elem_of_seq. cbn. rewrite fmap_bind. apply NoDup_bind_key; [apply NoDup_seq|intros; cbn; apply NoDup_singleton|].
        intros a a' z Ha%elem_of_seq Ha'%elem_of_seq. cbn. rewrite !elem_of_list_singleton. intros -> E. apply Hinj in E as (_ & _ & ->); [done|lia..].
      + intros c c' z Hc%elem_of_seq Hc'%elem_of_seq. cbn. rewrite !fmap_bind, !elem_of_list_bind.
        intros (a & E & Ha%elem_of_seq) (a' & E' & Ha'%elem_of_seq). cbn in E, E'. apply elem_of_list_singleton in E, E'. subst z.
        apply Hinj in E' as (_ & -> & _); [done|lia..].
    - intros r r' z Hr%elem_of_seq Hr'%elem_of_seq. cbn. rewrite !fmap_bind, !elem_of_list_bind.
      intros (c & E & Hc%elem_of_seq) (c' & E' & Hc'%elem_of_seq). cbn in E, E'. rewrite fmap_bind, elem_of_list_bind in E, E'.
      destruct E as (a & E & Ha%elem_of_seq), E' as (a' & E' & Ha'%elem_of_seq). cbn in E, E'. apply elem_of_list_singleton in E, E'. subst z.
      apply Hinj in E' as (-> & _); [done|lia..].
  Qed.
  Lemma gdict_embedding (V : list nat -> Prop) (adj : list nat -> list nat -> Prop) :
    (forall x, V x <-> exists r c a, r < R /\ c < C /\ a < A /\ x = key r c a) ->
    (forall x y, adj x y -> V x /\ V y /\ forall r c a r' c' a', x = key r c a -> y = key r' c' a' ->
       r < R -> c < C -> a < A -> r' < R -> c' < C -> a' < A ->
       (c' = c /\ a' = a /\ (r' = S r \/ r = S r')) \/ (r' = r /\ a' = a /\ (c' = S c \/ c = S c')) \/ (r' = r /\ c' = c)) ->
    dict_embedding V adj (fun q => q < nqubits m n t) (chimera_adj m n t) gdict.
  Proof using HR HC HA Hinj.
    intros HV Hadj. split.
    - apply gdict_once.
    - intros x. rewrite HV, elem_of_list_fmap. split.
      + intros ([x' ch] & -> & H). apply elem_gdict in H as (r & c & a & ? & ? & ? & -> & ->). by exists r, c, a.
      + intros (r & c & a & ? & ? & ? & ->). eexists (_, _). split; [done|]. apply elem_gdict. by exists r, c, a.
    - intros x ch H. apply elem_gdict in H as (r & c & a & Hr & Hc & Ha & -> & ->). split; [done|]. split.
      + apply NoDup_cons. split; [|apply NoDup_singleton]. rewrite elem_of_list_singleton. intros E. apply qubit_inj in E as (_ & _ & E & _); [done|lia..].
      + intros q [->| ->%elem_of_list_singleton]%elem_of_cons; apply qubit_lt; lia.
    - intros x ch p q H. apply elem_gdict in H as (r & c & a & Hr & Hc & Ha & -> & ->).
      assert (Hcell : chimera_coupler m n t (qubit n t r c false a) (qubit n t r c true a)) by (apply cc_cell; lia).
      intros [->| ->%elem_of_list_singleton]%elem_of_cons [->| ->%elem_of_list_singleton]%elem_of_cons; try done; apply rtc_once.
      + split; [left|]. split; [right; left|]. by left.
      + split; [right; left|]. split; [left|]. by right.
    - intros x y ch ch' q H H'. apply elem_gdict in H as (r & c & a & Hr & Hc & Ha & -> & ->).
      apply elem_gdict in H' as (r' & c' & a' & Hr' & Hc' & Ha' & -> & ->).
      intros [->| ->%elem_of_list_singleton]%elem_of_cons [E|E%elem_of_list_singleton]%elem_of_cons;
        apply qubit_inj in E as (-> & -> & ? & ->); first [done|lia].
    - intros x y Hxy _. destruct (Hadj x y Hxy) as (Hx & Hy & H).
      apply HV in Hx as (r & c & a & Hr & Hc & Ha & ->). apply HV in Hy as (r' & c' & a' & Hr' & Hc' & Ha' & ->).
      specialize (H r c a r' c' a' eq_refl eq_refl Hr Hc Ha Hr' Hc' Ha').
      exists [qubit n t r c false a; qubit n t r c true a], [qubit n t r' c' false a'; qubit n t r' c' true a'].
      destruct H as [(-> & -> & Hs)|[(-> & -> & Hs)|(-> & ->)]].
      + exists (qubit n t r c false a), (qubit n t r' c false a). split; [apply elem_gdict; by exists r, c, a|]. split; [apply elem_gdict; by exists r', c, a|].
        split; [left|]. split; [left|]. destruct Hs as [->| ->]; [left|right]; apply cc_column; lia.
      + exists (qubit n t r c true a), (qubit n t r c' true a). split; [apply elem_gdict; by exists r, c, a|]. split; [apply elem_gdict; by exists r, c', a|].
        split; [right; left|]. split; [right; left|]. destruct Hs as [->| ->]; [left|right]; apply cc_row; lia.
      + exists (qubit n t r c false a), (qubit n t r c true a'). split; [apply elem_gdict; by exists r, c, a|]. split; [apply elem_gdict; by exists r, c, a'|].
        split; [left|]. split; [right; left|]. left. apply cc_cell; lia.
  Qed.
End grid.

Lemma bind_ext {X Y} (f g : X -> list Y) (l : list X) : (forall x, f x = g x) -> l ≫= f = l ≫= g.
Proof. intros H. induction l as [|a l IH]; cbn; [done|]. rewrite H. f_equal. exact IH. Qed.
Lemma grid_dict_run key (a b c m n t : Z) :
  grid_dict key a b c m n t = if (m <? a)%Z || (n <? b)%Z || (t <? c)%Z then Err BadInit else
    Ok (gdict key (Z.to_nat a) (Z.to_nat b) (Z.to_nat c) (Z.to_nat n) (Z.to_nat t)).
Proof.
  unfold grid_dict. destruct (_ || _); [done|]. f_equal. unfold gdict. apply bind_ext. intros r. apply bind_ext. intros cl. apply bind_ext.
  intros s. by rewrite to_linear_0, to_linear_1.
Qed.

Lemma size_run m n t : get_target_size m n t =
  let '(m, n, t) := lattice_size m n t in if (m <=? 0)%Z || (n <=? 0)%Z || (t <=? 0)%Z then Err BadInit else Ok (m, n, t).
Proof.
  unfold get_target_size, lattice_size. destruct (m <=? 0)%Z eqn:Em; cbn [orb]; [done|].
  destruct n as [n|]; cbn [default rbind]; unfold default, id.
  - destruct (n <=? 0)%Z eqn:En; cbn [rbind orb]; [done|]. destruct t as [t|]; cbn [rbind]; [|done]. by destruct (t <=? 0)%Z.
  - rewrite Em. cbn [orb]. destruct t as [t|]; cbn [rbind]; [|done]. by destruct (t <=? 0)%Z.
Qed.

Lemma step_inv (p q : list nat) : grid_step p q -> length q = length p /\ exists i x, p !! i = Some x /\ q !! i = Some (S x) /\ forall j, j <> i -> q !! j = p !! j.
Proof.
  intros (i & x & Hp & ->). rewrite insert_length. split; [done|]. exists i, x. split; [done|]. split; [apply list_lookup_insert; by eapply lookup_lt_Some|].
  intros j Hj. by rewrite list_lookup_insert_ne.
Qed.

Lemma point1 (a : Z) x : grid_point [a] x <-> exists r c s, r < Z.to_nat a /\ c < 1 /\ s < 1 /\ x = [r].
Proof.
  unfold grid_point. split.
  - intros H. inversion_clear H as [|r ? l ? Hr Hl]. apply Forall2_nil_inv_r in Hl as ->. exists r, 0, 0. split_and!; first [lia|done].
  - intros (r & c & s & Hr & _ & _ & ->). repeat constructor. lia.
Qed.
Lemma point2 (a b : Z) x : grid_point [a; b] x <-> exists r c s, r < Z.to_nat a /\ c < Z.to_nat b /\ s < 1 /\ x = [r; c].
Proof.
  unfold grid_point. split.
  - intros H. inversion_clear H as [|r ? l ? Hr Hl]. inversion_clear Hl as [|c ? l' ? Hc Hl']. apply Forall2_nil_inv_r in Hl' as ->.
    exists r, c, 0. split_and!; first [lia|done].
  - intros (r & c & s & Hr & Hc & _ & ->). repeat constructor; lia.
Qed.
Lemma point3 (a b d : Z) x : grid_point [a; b; d] x <-> exists r c s, r < Z.to_nat a /\ c < Z.to_nat b /\ s < Z.to_nat d /\ x = [r; c; s].
Proof.
  unfold grid_point. split.
  - intros H. inversion_clear H as [|r ? l ? Hr Hl]. inversion_clear Hl as [|c ? l' ? Hc Hl']. inversion_clear Hl' as [|s ? l2 ? Hs Hl2].
    apply Forall2_nil_inv_r in Hl2 as ->. exists r, c, s. split_and!; first [lia|done].
  - intros (r & c & s & Hr & Hc & Hs & ->). repeat constructor; lia.
Qed.

Theorem grid_found dim m n t d : find_grid_embedding dim m n t = Ok d ->
  grid_fits dim m n t /\
  let '(m, n, t) := lattice_size m n t in
  dict_embedding (grid_point dim) (grid_adj dim) (fun q => q < nqubits (Z.to_nat m) (Z.to_nat n) (Z.to_nat t))
    (chimera_adj (Z.to_nat m) (Z.to_nat n) (Z.to_nat t)) d /\ forall x C, (x, C) ∈ d -> length C = 2.
Proof.
  unfold find_grid_embedding, grid_fits. rewrite size_run. destruct (lattice_size m n t) as [[m' n'] t'].
  destruct (_ || _) eqn:E; cbn [rbind]; [done|]. apply orb_false_iff in E as [[E1 E2]%orb_false_iff E3].
  apply Z.leb_gt in E1, E2, E3.
  assert (Hf : forall a b c, (m' <? a)%Z || (n' <? b)%Z || (t' <? c)%Z = false -> (a <= m' /\ b <= n' /\ c <= t')%Z).
  { intros a b c [[H1 H2]%orb_false_iff H3]%orb_false_iff. apply Z.ltb_ge in H1, H2, H3. done. }
  destruct dim as [|a [|b [|c [|]]]]; [done| | | |done]; rewrite grid_dict_run; (destruct (_ || _) eqn:E; [done|]); apply Hf in E as (Ha & Hb & Hc); intros [= <-].
  - split; [split_and!; [done..|cbn; lia|cbn; lia|]|].
    { intros [|[|i]] d s; cbn; [|done|done]. by intros [= ->] [= ->]. }
    split; [|intros x C H; apply (elem_gdict _ _ _ _ (Z.to_nat m')) in H as (? & ? & ? & ? & ? & ? & ? & ->); [done|lia..]].
    change (Z.to_nat 1) with 1. apply gdict_embedding; [lia..| |apply point1|].
    + intros r c s r' c' s' ? ? ? ? ? ? [= ->]. split_and!; [done|lia..].
    + intros x y (Hx & Hy & H). split; [done|]. split; [done|]. intros r c s r' c' s' -> -> ? ? ? ? ? ?. left. split; [lia|]. split; [lia|].
      destruct H as [H|H]; apply step_inv in H as (_ & [|] & z & L1 & L2 & _); try done; cbn in L1, L2; injection L1 as <-; injection L2 as <-; [by left|by right].
  - split; [split_and!; [done..|cbn; lia|cbn; lia|]|].
    { intros [|[|i]] d s; cbn; [..|done]; by intros [= ->] [= ->]. }
    split; [|intros x C H; apply (elem_gdict _ _ _ _ (Z.to_nat m')) in H as (? & ? & ? & ? & ? & ? & ? & ->); [done|lia..]].
    change (Z.to_nat 1) with 1. apply gdict_embedding; [lia..| |apply point2|].
    + intros r c s r' c' s' ? ? ? ? ? ? [= -> ->]. split_and!; [done|done|lia].
    + intros x y (Hx & Hy & H). split; [done|]. split; [done|]. intros r c s r' c' s' -> -> ? ? ? ? ? ?.
      destruct H as [H|H]; apply step_inv in H as (_ & [|[|]] & z & L1 & L2 & L3); try done; cbn in L1, L2; injection L1 as <-; injection L2 as <-.
      * left. specialize (L3 1 ltac:(lia)). injection L3 as <-. split_and!; [done|lia|by left].
      * right; left. specialize (L3 0 ltac:(lia)). injection L3 as <-. split_and!; [done|lia|by left].
      * left. specialize (L3 1 ltac:(lia)). injection L3 as <-. split_and!; [done|lia|by right].
      * right; left. specialize (L3 0 ltac:(lia)). injection L3 as <-. split_and!; [done|lia|by right].
  - split; [split_and!; [done..|cbn; lia|cbn; lia|]|].
    { intros [|[|[|i]]] d s; cbn; [..|done]; by intros [= ->] [= ->]. }
    split; [|intros x C H; apply (elem_gdict _ _ _ _ (Z.to_nat m')) in H as (? & ? & ? & ? & ? & ? & ? & ->); [done|lia..]].
    apply gdict_embedding; [lia..| |apply point3|].
    + intros r c0 s r' c' s' ? ? ? ? ? ? [= -> -> ->]. done.
    + intros x y (Hx & Hy & H). split; [done|]. split; [done|]. intros r c0 s r' c' s' -> -> ? ? ? ? ? ?.
      destruct H as [H|H]; apply step_inv in H as (_ & [|[|[|]]] & z & L1 & L2 & L3); try done; cbn in L1, L2; injection L1 as L1; injection L2 as L2;
        pose proof (L3 0) as G0; pose proof (L3 1) as G1; pose proof (L3 2) as G2; cbn in G0, G1, G2;
        repeat match goal with
        | H : ?a <> ?a -> _ |- _ => clear H
        | H : _ -> Some _ = Some _ |- _ => specialize (H ltac:(lia)); injection H as H
        end; lia.
Qed.
Theorem grid_refused dim m n t e : find_grid_embedding dim m n t = Err e -> ~ grid_fits dim m n t.
Proof.
  unfold find_grid_embedding, grid_fits. rewrite size_run. destruct (lattice_size m n t) as [[m' n'] t'].
  intros H (Hm & Hn & Ht & Hd & Hs). destruct (_ || _) eqn:E; cbn [rbind] in H.
  { apply orb_true_iff in E as [[E|E]%orb_true_iff|E]; apply Z.leb_le in E; lia. }
  destruct dim as [|a [|b [|c [|]]]]; cbn in Hd; [lia| | | |lia]; rewrite grid_dict_run in H; clear E; destruct (_ || _) eqn:E' in H; try done.
  - pose proof (Hs 0 a _ eq_refl eq_refl). apply orb_true_iff in E' as [[E'|E']%orb_true_iff|E']; apply Z.ltb_lt in E'; lia.
  - pose proof (Hs 0 a _ eq_refl eq_refl). pose proof (Hs 1 b _ eq_refl eq_refl). apply orb_true_iff in E' as [[E'|E']%orb_true_iff|E']; apply Z.ltb_lt in E'; lia.
  - pose proof (Hs 0 a _ eq_refl eq_refl). pose proof (Hs 1 b _ eq_refl eq_refl). pose proof (Hs 2 c _ eq_refl eq_refl).
    apply orb_true_iff in E' as [[E'|E']%orb_true_iff|E']; apply Z.ltb_lt in E'; lia.
Qed.

(** ** Cliques and bicliques *)
Lemma dstore_key {B} (d : list (nat * B)) k b k' : k' ∈ (dstore d k b).*1 <-> k' = k \/ k' ∈ d.*1.
Proof.
  rewrite !dlookup_key, dlookup_dstore. destruct (decide (k = k')) as [->|]; [split; [by left|by eexists]|].
  split; [by right|]. by intros [->|].
Qed.
Lemma dstore_keys {B} (d : list (nat * B)) k b : (dstore d k b).*1 = if decide (k ∈ d.*1) then d.*1 else d.*1 ++ [k].
Proof.
  induction d as [|[k' b'] d IH]; cbn; [done|]. destruct (decide (k' = k)) as [->|Hk]; cbn.
  - by rewrite decide_True by left.
  - rewrite IH. destruct (decide (k ∈ d.*1)) as [Hd|Hd].
    + by rewrite decide_True by (by right).
    + rewrite decide_False; [done|]. intros [->|H]%elem_of_cons; done.
Qed.
Lemma dstore_nodup {B} (d : list (nat * B)) k b : NoDup d.*1 -> NoDup (dstore d k b).*1.
Proof.
  intros H. rewrite dstore_keys. destruct (decide _); [done|]. apply NoDup_app. split; [done|]. split; [|apply NoDup_singleton].
  intros x Hx ->%elem_of_list_singleton. done.
Qed.
Lemma dstore_fresh {B} (d : list (nat * B)) k b : k ∉ d.*1 -> dstore d k b = d ++ [(k, b)].
Proof.
  induction d as [|[k' b'] d IH]; cbn; [done|]. intros [H1 H2]%not_elem_of_cons. rewrite decide_False by congruence. by rewrite IH.
Qed.
Lemma to_dict_from (l : list (nat * pchain)) : forall d : list (nat * pchain), let r := foldl (fun d e => dstore d e.1 e.2) d l in
  length r <= length d + length l /\ (NoDup d.*1 -> length r = length d + length l -> NoDup (d.*1 ++ l.*1) /\ r = d ++ l) /\
  (NoDup (d.*1 ++ l.*1) -> r = d ++ l).
Proof.
  induction l as [|[k b] l IH]; intros d; cbn [foldl fst snd].
  - cbn. rewrite !app_nil_r. split; [lia|]. split; [|done]. intros; by split.
  - destruct (IH (dstore d k b)) as (H1 & H2 & H3). cbv zeta in *.
    assert (Hl : length (dstore d k b) = if decide (k ∈ d.*1) then length d else S (length d)).
    { rewrite <- (fmap_length fst), dstore_keys. destruct (decide _); rewrite ?app_length, fmap_length; cbn; lia. }
    cbn [fmap list_fmap length fst]. change (list_fmap _ _ fst l) with (l.*1). split; [destruct (decide _); lia|]. split.
    + intros Hd HE. destruct (decide (k ∈ d.*1)) as [Hk|Hk]; [lia|]. destruct (H2 (dstore_nodup _ _ _ Hd) ltac:(lia)) as [HN ->].
      rewrite dstore_fresh by done. rewrite dstore_keys, decide_False, <- app_assoc in HN by done. split; [done|]. by rewrite <- app_assoc.
    + intros HN. assert (Hk : k ∉ d.*1). { apply NoDup_app in HN as (_ & HN & _). intros Hk. eapply HN; [exact Hk|left]. }
      rewrite H3. { rewrite dstore_fresh by done. by rewrite <- app_assoc. }
      rewrite dstore_keys, decide_False, <- app_assoc by done. done.
Qed.
Lemma to_dict_spec l : (length (to_dict l) = length l -> NoDup l.*1 /\ to_dict l = l) /\ (NoDup l.*1 -> to_dict l = l).
Proof. destruct (to_dict_from l []) as (_ & H2 & H3). cbn in *. split; [intros H; apply H2; [apply NoDup_nil_2|done]|exact H3]. Qed.

Lemma clique_dict (nodes : list nat) (edges : list (nat * nat)) l d : NoDup l -> clique_answer nodes edges l d ->
  dict_embedding (fun x => x ∈ l) (fun x y => x ∈ l /\ y ∈ l) (fun q => q ∈ nodes) (has_edge edges) d.
Proof.
  intros Hl [<- [Hg Hp]]. unfold chains_of in *. 
  assert (Hch : forall x C, (x, C) ∈ d -> C ∈ d.*2) by (intros x C H; apply elem_of_list_fmap; by exists (x, C)).
  assert (Hat : forall x C, (x, C) ∈ d -> exists i, d.*1 !! i = Some x /\ d.*2 !! i = Some C).
  { intros x C H. apply elem_of_list_lookup in H as [i H]. exists i. by rewrite !list_lookup_fmap, H. }
  split; [done|done| | | |].
  - intros x C H. apply Hch, Hg in H as (H1 & H2 & H3 & _). done.
  - intros x C p q H. apply Hch, Hg in H as (_ & _ & _ & H). by apply H.
  - intros x y C D q HC HD HqC HqD. apply Hat in HC as (i & Hi & HC), HD as (j & Hj & HD).
    destruct (decide (i = j)) as [->|Hne]; [congruence|]. destruct (Hp i j C D Hne HC HD) as [Hdis _]. by destruct (Hdis q).
  - intros x y [Hx Hy] Hxy. apply elem_of_list_fmap in Hx as ([x' C] & -> & HC), Hy as ([y' D] & -> & HD). cbn in Hxy |- *.
    destruct (Hat _ _ HC) as (i & Hi & HCi), (Hat _ _ HD) as (j & Hj & HDj).
    destruct (Hp i j C D) as [_ (p & q & Hpq)]; [congruence|done|done|]. exists C, D, p, q. done.
Qed.

Theorem util_clique_ok (nodes : list nat) (edges : list (nat * nat)) c k : reached (clique_embedding nodes edges) c -> let l := nodes_or_number k in
  match util_clique c k with
  | Ok d => d.*1 = l /\ dict_embedding (fun x => x ∈ l) (fun x y => x ∈ l /\ y ∈ l) (fun q => q ∈ nodes) (has_edge edges) d
  | Err e => e = BadInit /\ (~ NoDup l \/ (l <> [] /\ find_clique_embedding c (Names l) = Ok []))
  end.
Proof.
  intros Hr l. unfold util_clique. fold l. destruct (history_answers nodes edges c (Names l) Hr) as (r & -> & H). cbn [rbind].
  destruct (to_dict_spec r) as [H1 H2]. destruct (length (to_dict r) =? length l) eqn:E.
  - apply Nat.eqb_eq in E. destruct H as [->|HA].
    + cbn in E. destruct l; [|done]. cbn. split; [done|]. apply clique_dict; [apply NoDup_nil_2|]. split; [done|].
      split; [intros ch Hch; by apply elem_of_nil in Hch|done].
    + cbn in HA. pose proof HA as [Hk _]. assert (El : length r = length l) by (by rewrite <- Hk, fmap_length).
      destruct H1 as [HN ->]; [congruence|]. rewrite Hk in HN. split; [done|]. by apply clique_dict.
  - apply Nat.eqb_neq in E. split; [done|]. destruct H as [->|[Hk _]].
    + right. split; [|done]. intros ->. by cbn in E.
    + left. cbn in Hk. intros HN. rewrite <- Hk in HN. rewrite H2 in E by done. by rewrite <- Hk, fmap_length in E.
Qed.

Lemma util_side_ok emb xs off : (forall i, i < length xs -> is_Some (dlookup emb (i + off))) ->
  exists d, util_side emb xs off = Ok d /\ NoDup d.*1 /\
  (forall x, x ∈ d.*1 <-> x ∈ xs) /\
  forall x C, (x, C) ∈ d -> exists i, xs !! i = Some x /\ dlookup emb (i + off) = Some C.
Proof.
  intros Hs. unfold util_side.
  destruct (foldM_inv (fun d x =>
      let! i := py_get (fst <$> list_find (fun y => y = x) xs) in
      let! C := py_get (dlookup emb (i + off)) in
      Ok (dstore d x C)) (fun dn d => NoDup d.*1 /\ (forall x, x ∈ d.*1 <-> x ∈ dn) /\
         forall x C, (x, C) ∈ d -> exists i, xs !! i = Some x /\ dlookup emb (i + off) = Some C) xs []) as (d & -> & H).
  - split; [apply NoDup_nil_2|]. split; [done|]. intros x C H. by apply elem_of_nil in H.
  - intros dn x rest d E (H1 & H2 & H3).
    destruct (list_find (fun y => y = x) xs) as [[i y]|] eqn:F.
    + apply list_find_Some in F as (Hi & -> & _). cbn [fmap option_fmap option_map fst py_get rbind].
      destruct (Hs i) as [C HC]; [by eapply lookup_lt_Some|]. rewrite HC. cbn [py_get rbind]. eexists. split; [done|].
      split; [by apply dstore_nodup|]. split.
      * intros z. rewrite dstore_key, H2, elem_of_app, elem_of_list_singleton. tauto.
      * intros z D HD. apply dlookup_Some in HD; [|by apply dstore_nodup]. rewrite dlookup_dstore in HD.
        destruct (decide (x = z)) as [->|Hz]; [injection HD as <-; by exists i|]. apply H3. by apply dlookup_Some.
    + exfalso. apply list_find_None in F. rewrite Forall_forall in F. apply (F x); [|done]. rewrite E, elem_of_app. right. left.
  - cbn [rbind]. exists d. done.
Qed.

Lemma biclique_lookup (nodes : list nat) (edges : list (nat * nat)) a b r : biclique_answer nodes edges (seq 0 a) (seq a b) r ->
  exists E, biclique_embedding nodes edges a b E /\ forall i, dlookup r i = E !! i.
Proof.
  intros (A & B & HA & HB & Hp & Hb). rewrite !seq_length in *. exists (A ++ B). split; [done|].
  assert (Ez : zip (seq 0 a) A ++ zip (seq a b) B = zip (seq 0 (a + b)) (A ++ B)).
  { rewrite seq_app. cbn. symmetry. apply zip_with_app. by rewrite seq_length. }
  rewrite Ez in Hp. assert (HN : NoDup r.*1).
  { rewrite Hp, fst_zip; [apply NoDup_seq|]. rewrite seq_length, app_length. lia. }
  intros i. apply option_eq. intros C. rewrite dlookup_Some by done. rewrite Hp, elem_of_list_lookup. split.
  - intros [j H]. rewrite lookup_zip_with in H. destruct (seq 0 (a + b) !! j) as [i'|] eqn:Ej; [|done]. apply lookup_seq in Ej as [-> _].
    cbn in H. destruct ((A ++ B) !! j) eqn:EA; [|done]. cbn in H. injection H as <- <-. done.
  - intros H. exists i. rewrite lookup_zip_with, H. rewrite (proj2 (lookup_seq 0 (a + b) i i)); [done|].
    apply lookup_lt_Some in H. rewrite app_length in H. lia.
Qed.

(** the labels of the two sides: the second side is numbered on if both are numbers *)
Lemma util_biclique_ok (nodes : list nat) (edges : list (nat * nat)) c a b anodes bnodes : anodes = nodes_or_number a ->
  bnodes = match a, b with Count _, Count _ => (fun x => length anodes + x) <$> nodes_or_number b | _, _ => nodes_or_number b end ->
  (exists r, find_biclique_embedding c (Count (length anodes)) (Count (length bnodes)) = Ok r /\
     (r = [] \/ biclique_answer nodes edges (seq 0 (length anodes)) (seq (length anodes) (length bnodes)) r)) ->
  match util_biclique c a b with
  | Ok (l, r) => (forall x, x ∈ l.*1 <-> x ∈ anodes) /\ (forall x, x ∈ r.*1 <-> x ∈ bnodes) /\
      dict_embedding (fun x => x ∈ anodes \/ x ∈ bnodes) (fun x y => (x ∈ anodes /\ y ∈ bnodes) \/ (x ∈ bnodes /\ y ∈ anodes))
        (fun q => q ∈ nodes) (has_edge edges) (l ++ r)
  | Err e => e = BadInit /\ ((exists x, x ∈ anodes /\ x ∈ bnodes) \/
      find_biclique_embedding c (Count (length anodes)) (Count (length bnodes)) = Ok [])
  end.
Proof.
  intros Ea Eb (r & Hr & HA). unfold util_biclique. rewrite <- Ea, <- Eb. destruct (bool_decide _) eqn:Eo.
  { apply bool_decide_eq_true, Exists_exists in Eo. split; [done|]. by left. }
  apply bool_decide_eq_false in Eo. rewrite Hr. cbn [rbind]. destruct r as [|e0 r0]; [split; [done|]; by right|].
  destruct HA as [|HA]; [done|]. set (r := e0 :: r0) in *.
  destruct (biclique_lookup _ _ _ _ _ HA) as (E & (Hlen & Hg & Hdis & Hcp) & HE).
  destruct (util_side_ok r anodes 0) as (dl & -> & HNl & Hkl & Hvl).
  { intros i Hi. rewrite HE. apply lookup_lt_is_Some. lia. }
  destruct (util_side_ok r bnodes (length anodes)) as (dr & -> & HNr & Hkr & Hvr).
  { intros i Hi. rewrite HE. apply lookup_lt_is_Some. lia. }
  cbn [rbind]. split; [done|]. split; [done|].
  assert (Hno : forall x, x ∈ anodes -> x ∈ bnodes -> False) by (intros x H1 H2; apply Eo, Exists_exists; by exists x).
  assert (Hl : forall x C, (x, C) ∈ dl -> x ∈ anodes /\ exists i, i < length anodes /\ anodes !! i = Some x /\ E !! i = Some C).
  { intros x C H. destruct (Hvl x C H) as (i & Hi & HC). rewrite HE, Nat.add_0_r in HC. split; [by eapply elem_of_list_lookup_2|].
    exists i. split; [by eapply lookup_lt_Some|done]. }
  assert (Hri : forall x C, (x, C) ∈ dr -> x ∈ bnodes /\ exists i, bnodes !! i = Some x /\ E !! (i + length anodes) = Some C).
  { intros x C H. destruct (Hvr x C H) as (i & Hi & HC). rewrite HE in HC. split; [by eapply elem_of_list_lookup_2|]. by exists i. }
  assert (Hat : forall x C, (x, C) ∈ dl ++ dr -> exists i, E !! i = Some C /\
     ((i < length anodes /\ anodes !! i = Some x) \/ (length anodes <= i /\ bnodes !! (i - length anodes) = Some x))).
  { intros x C [H|H]%elem_of_app.
    - apply Hl in H as (_ & i & Hi & Hx & HC). exists i. split; [done|]. by left.
    - apply Hri in H as (_ & i & Hx & HC). exists (i + length anodes). split; [done|]. right. split; [lia|]. by rewrite Nat.add_sub. }
  split.
  - rewrite fmap_app. apply NoDup_app. split; [done|]. split; [|done]. intros x H1 H2. apply Hkl in H1. apply Hkr in H2. by eapply Hno.
  - intros x. rewrite fmap_app, elem_of_app, Hkl, Hkr. done.
  - intros x C H. apply Hat in H as (i & HC & _). apply elem_of_list_lookup_2, Hg in HC as (H1 & H2 & H3 & _). done.
  - intros x C p q H. apply Hat in H as (i & HC & _). apply elem_of_list_lookup_2, Hg in HC as (_ & _ & _ & H). by apply H.
  - intros x y C D q HC HD HqC HqD. apply Hat in HC as (i & HC & Hi), HD as (j & HD & Hj).
    destruct (decide (i = j)) as [->|Hne]; [|by destruct (Hdis i j C D Hne HC HD q)].
    destruct Hi as [[Hi Hx]|[Hi Hx]], Hj as [[Hj Hy]|[Hj Hy]]; first [lia|congruence].
  - assert (Hone : forall x y, x ∈ anodes -> y ∈ bnodes -> exists C D p q, (x, C) ∈ dl /\ (y, D) ∈ dr /\ p ∈ C /\ q ∈ D /\ has_edge edges p q).
    { intros x y Hx Hy. apply Hkl, elem_of_list_fmap in Hx as ([x' C] & -> & HC). apply Hkr, elem_of_list_fmap in Hy as ([y' D] & -> & HD). cbn.
      destruct (Hl _ _ HC) as (_ & i & Hi & _ & HCi), (Hri _ _ HD) as (_ & j & _ & HDj).
      destruct (Hcp i (j + length anodes) C D) as (p & q & Hp & Hq & He); [done|lia|done|done|]. exists C, D, p, q. done. }
    intros x y [[Hx Hy]|[Hx Hy]] _.
    + destruct (Hone x y Hx Hy) as (C & D & p & q & HC & HD & H). exists C, D, p, q. rewrite !elem_of_app. split; [by left|]. split; [by right|]. done.
    + destruct (Hone y x Hy Hx) as (C & D & p & q & HC & HD & Hp & Hq & He). exists D, C, q, p. rewrite !elem_of_app. split; [by right|]. split; [by left|].
      split; [done|]. split; [done|]. destruct He; [by right|by left].
Qed.

Theorem util_biclique_requests (nodes : list nat) (edges : list (nat * nat)) (embs : gmap (nat * nat) pemb) lst c a b :
  (forall s0 s1 e, embs !! (s0, s1) = Some e -> 1 <= s0 /\ 1 <= s1 /\ biclique_embedding nodes edges s0 s1 e) ->
  lst ≡ₚ map_to_list embs -> make_biclique_cache lst = Ok c ->
  let anodes := nodes_or_number a in
  let bnodes := match a, b with Count _, Count n => seq (length anodes) n | _, _ => nodes_or_number b end in
  match util_biclique c a b with
  | Ok (l, r) => (forall x, x ∈ l.*1 <-> x ∈ anodes) /\ (forall x, x ∈ r.*1 <-> x ∈ bnodes) /\
      dict_embedding (fun x => x ∈ anodes \/ x ∈ bnodes) (fun x y => (x ∈ anodes /\ y ∈ bnodes) \/ (x ∈ bnodes /\ y ∈ anodes))
        (fun q => q ∈ nodes) (has_edge edges) (l ++ r)
  | Err e => e = BadInit /\ ((exists x, x ∈ anodes /\ x ∈ bnodes) \/ (anodes = [] /\ bnodes = []) \/
      forall s0 s1, is_Some (embs !! (s0, s1)) -> s0 `min` s1 < length anodes `max` length bnodes)
  end.
Proof.
  intros Hv Hlst Hc anodes bnodes. pose proof (biclique_requests nodes edges embs Hv lst Hlst) as H. rewrite Hc in H. destruct H as [H _].
  assert (Eb : bnodes = match a, b with Count _, Count _ => (fun x => length anodes + x) <$> nodes_or_number b | _, _ => nodes_or_number b end).
  { subst bnodes. destruct a, b; try done. unfold nodes_or_number; cbn. rewrite fmap_add_seq. f_equal. lia. }
  specialize (H (Count (length anodes)) (Count (length bnodes))). cbn [num_nodes snd] in H. rewrite !seq_length in H.
  destruct (decide (1 <= length anodes `max` length bnodes)) as [Hm|Hm].
  - destruct (H Hm) as (r & Hr & HH).
    pose proof (util_biclique_ok nodes edges c a b anodes bnodes eq_refl Eb) as HU.
    destruct (util_biclique c a b) as [[l rr]|e].
    + apply HU. exists r. split; [done|]. destruct HH as [[HA _]|[-> _]]; [by right|by left].
    + destruct HU as [-> HU]; [exists r; split; [done|]; destruct HH as [[HA _]|[-> _]]; [by right|by left]|]. split; [done|].
      destruct HU as [HU|HU]; [by left|]. right; right. destruct HH as [[HA (s0 & s1 & Hs & Hle)]|[-> Hno]]; [|done].
      exfalso. rewrite Hr in HU. injection HU as ->. destruct HA as (A & B & HA & HB & Hp & _). apply Permutation_nil in Hp.
      rewrite !seq_length in *. apply app_eq_nil in Hp as [Hp1 Hp2]. apply (f_equal length) in Hp1, Hp2. rewrite zip_with_length, seq_length in Hp1, Hp2. cbn in Hp1, Hp2. lia.
  - assert (Ha : anodes = []) by (destruct anodes; [done|cbn in Hm; lia]). assert (Hb : bnodes = []) by (destruct bnodes; [done|cbn in Hm; lia]).
    unfold util_biclique. fold anodes. rewrite <- Eb, Ha, Hb. cbn. split; [done|]. right; left. done.
Qed.
