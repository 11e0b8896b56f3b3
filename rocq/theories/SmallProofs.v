(** The small clique finders are sound and complete (C40). *)
From stdpp Require Import base list numbers gmap relations.
From Verif Require Import Base SpecBus SmallModel.

Lemma elem_of_set_add x y l : y ∈ set_add x l <-> y = x \/ y ∈ l.
Proof.
  induction l as [|z l IH]; cbn [set_add]; [set_solver|].
  destruct (Nat.ltb_spec x z); [set_solver|]. destruct (Nat.eqb_spec x z); [set_solver|]. rewrite !elem_of_cons, IH. tauto.
Qed.

(** [adj] is the neighbour table of the edges [dn] *)
Definition table (adj : adjmap) (dn : list (nat * nat)) : Prop := forall v w, w ∈ adj_at adj v <-> has_edge dn v w.

Lemma table_nil : table ∅ [].
Proof. intros v w. unfold adj_at. rewrite lookup_empty. simpl. unfold has_edge. set_solver. Qed.

Lemma has_edge_snoc dn a b v w : has_edge (dn ++ [(a, b)]) v w <-> has_edge dn v w \/ (v = a /\ w = b) \/ (v = b /\ w = a).
Proof. unfold has_edge. rewrite !elem_of_app, !elem_of_list_singleton. naive_solver. Qed.

Lemma table_step adj dn a b : table adj dn -> table (adj_edge adj a b) (dn ++ [(a, b)]).
Proof.
  intros H v w. pose proof (H v w) as Hvw. rewrite has_edge_snoc, <- Hvw. clear Hvw. unfold adj_edge, adj_at.
  destruct (decide (a = v)) as [->|Ha].
  - rewrite lookup_insert. cbn [default from_option id]; unfold id. rewrite elem_of_set_add. destruct (decide (b = v)) as [->|Hb].
    + rewrite lookup_insert. cbn [default from_option id]; unfold id. rewrite elem_of_set_add. naive_solver.
    + rewrite lookup_insert_ne by done. naive_solver.
  - rewrite lookup_insert_ne by done. destruct (decide (b = v)) as [->|Hb].
    + rewrite lookup_insert. cbn [default from_option id]; unfold id. rewrite elem_of_set_add. naive_solver.
    + rewrite lookup_insert_ne by done. naive_solver.
Qed.

Lemma head_in {A} (l : list A) x : head l = Some x -> x ∈ l.
Proof. destruct l; [done|]. intros [= ->]. left. Qed.
Lemma head_none {A} (l : list A) : head l = None -> l = [].
Proof. by destruct l. Qed.

Lemma third_some A B p : third A B = Some p -> p ∈ A /\ p ∈ B.
Proof. unfold third. intros H%head_in. apply elem_of_list_filter in H. tauto. Qed.
Lemma third_none A B p : third A B = None -> p ∈ A -> p ∈ B -> False.
Proof. unfold third. intros H%head_none HA HB. assert (Hp : p ∈ filter (fun p => p ∈ B) A) by (by apply elem_of_list_filter). rewrite H in Hp. by apply elem_of_nil in Hp. Qed.

Lemma elem_of_fourth adj (A B : list nat) p q :
  (p, q) ∈ (p ← filter (fun p => p ∈ B) A; q ← filter (fun q => ~ p < q /\ q ∈ B) A; if decide (p ∈ adj_at adj q) then [(p, q)] else []) <->
  (p ∈ A /\ p ∈ B) /\ (q ∈ A /\ q ∈ B) /\ q <= p /\ p ∈ adj_at adj q.
Proof.
  rewrite elem_of_list_bind. setoid_rewrite elem_of_list_bind. setoid_rewrite elem_of_list_filter. split.
  - intros (p' & (q' & Hin & (? & ?) & ?) & ?). destruct (decide (p' ∈ adj_at adj q')); [|by apply elem_of_nil in Hin].
    apply elem_of_list_singleton in Hin. injection Hin as -> ->. split_and!; try tauto. lia.
  - intros ((? & ?) & (? & ?) & ? & ?). exists p. split; [|done]. exists q. split; [|split_and!; try done; lia].
    rewrite decide_True by done. by left.
Qed.
Lemma fourth_some adj A B p q : fourth adj A B = Some (p, q) -> (p ∈ A /\ p ∈ B) /\ (q ∈ A /\ q ∈ B) /\ q <= p /\ p ∈ adj_at adj q.
Proof. unfold fourth. intros H%head_in. by apply elem_of_fourth. Qed.
Lemma fourth_none adj A B p q : fourth adj A B = None -> p ∈ A -> p ∈ B -> q ∈ A -> q ∈ B -> q <= p -> p ∈ adj_at adj q -> False.
Proof.
  unfold fourth. intros H%head_none HA HB HA' HB' Hle Hpq.
  pose proof (proj2 (elem_of_fourth adj A B p q) ltac:(done)) as Hp. rewrite H in Hp. by apply elem_of_nil in Hp.
Qed.

Definition tri (edges : list (nat * nat)) (a b c : nat) : Prop := has_edge edges a b /\ has_edge edges a c /\ has_edge edges b c.
Definition quad (edges : list (nat * nat)) (a b c d : nat) : Prop :=
  tri edges a b c /\ has_edge edges a d /\ has_edge edges b d /\ has_edge edges c d.
Lemma has_edge_comm edges a b : has_edge edges a b <-> has_edge edges b a.
Proof. unfold has_edge. tauto. Qed.
Lemma has_edge_app_l dn rest a b : has_edge dn a b -> has_edge (dn ++ rest) a b.
Proof. unfold has_edge. rewrite !elem_of_app. tauto. Qed.
Lemma has_edge_irrefl edges a b : Forall (fun e => e.1 <> e.2) edges -> has_edge edges a b -> a <> b.
Proof. rewrite Forall_forall. intros H [?%H|?%H] ->; done. Qed.

Lemma find_3_ok edges dn adj : table adj dn -> Forall (fun e => e.1 <> e.2) (dn ++ edges) -> (forall a b c, ~ tri dn a b c) ->
  forall emb, match find_3 adj edges emb with
  | Some e => exists a b c, e = emb ++ [[a]; [b]; [c]] /\ tri (dn ++ edges) a b c
  | None => forall a b c, ~ tri (dn ++ edges) a b c
  end.
Proof.
  revert dn adj. induction edges as [|[a b] edges IH]; intros dn adj HT HL Hno emb; cbn [find_3].
  - by rewrite app_nil_r.
  - destruct (third (adj_at adj a) (adj_at adj b)) as [p|] eqn:E.
    + apply third_some in E as [HA HB]. apply HT in HA. apply HT in HB. exists a, b, p. split; [done|].
      split_and!; [|by apply has_edge_app_l|by apply has_edge_app_l]. left. set_solver.
    + rewrite cons_middle, app_assoc in HL |- *. apply IH; [by apply table_step|done|].
      assert (HL' : Forall (fun e => e.1 <> e.2) (dn ++ [(a, b)])) by (by apply Forall_app in HL as [? _]).
      assert (Hkey : forall c, has_edge (dn ++ [(a, b)]) a c -> has_edge (dn ++ [(a, b)]) b c -> False).
      { intros c Hac Hbc. pose proof (has_edge_irrefl _ _ _ HL' Hac). pose proof (has_edge_irrefl _ _ _ HL' Hbc).
        apply has_edge_snoc in Hac as [Hac|[[? ?]|[? ?]]]; [|congruence..].
        apply has_edge_snoc in Hbc as [Hbc|[[? ?]|[? ?]]]; [|congruence..].
        apply HT in Hac. apply HT in Hbc. by eapply third_none. }
      intros x y z (Hxy & Hxz & Hyz). pose proof Hxy as Hxy0. pose proof Hxz as Hxz0. pose proof Hyz as Hyz0.
      apply has_edge_snoc in Hxy as [Hxy|[[-> ->]|[-> ->]]]; [|exact (Hkey z Hxz0 Hyz0)|exact (Hkey z Hyz0 Hxz0)].
      apply has_edge_snoc in Hxz as [Hxz|[[-> ->]|[-> ->]]].
      2:{ apply (Hkey y); [done|by apply has_edge_comm]. }
      2:{ apply (Hkey y); [by apply has_edge_comm|done]. }
      apply has_edge_snoc in Hyz as [Hyz|[[-> ->]|[-> ->]]].
      2:{ apply (Hkey x); by apply has_edge_comm. }
      2:{ apply (Hkey x); by apply has_edge_comm. }
      by apply (Hno x y z).
Qed.

Lemma find_4_ok edges dn adj : table adj dn -> Forall (fun e => e.1 <> e.2) (dn ++ edges) -> (forall a b c d, ~ quad dn a b c d) ->
  forall emb, match find_4 adj edges emb with
  | Some e => exists a b c d, e = emb ++ [[a]; [b]; [c]; [d]] /\ quad (dn ++ edges) a b c d
  | None => forall a b c d, ~ quad (dn ++ edges) a b c d
  end.
Proof.
  revert dn adj. induction edges as [|[a b] edges IH]; intros dn adj HT HL Hno emb; cbn [find_4].
  - by rewrite app_nil_r.
  - destruct (fourth adj (adj_at adj a) (adj_at adj b)) as [[p q]|] eqn:E.
    + apply fourth_some in E as ([HA HB] & [HA' HB'] & _ & Hpq). apply HT in HA, HB, HA', HB', Hpq. exists a, b, p, q. split; [done|].
      apply (has_edge_comm dn) in Hpq. split; split_and!; try (by apply has_edge_app_l). left. set_solver.
    + rewrite cons_middle, app_assoc in HL |- *. apply IH; [by apply table_step|done|].
      assert (HL' : Forall (fun e => e.1 <> e.2) (dn ++ [(a, b)])) by (by apply Forall_app in HL as [? _]).
      assert (Hold : forall v w, has_edge (dn ++ [(a, b)]) v w -> w <> a -> w <> b -> has_edge dn v w).
      { intros v w [Hvw|[[? ?]|[? ?]]]%has_edge_snoc ? ?; [done|congruence..]. }
      assert (Hkey : forall c d, has_edge (dn ++ [(a, b)]) a c -> has_edge (dn ++ [(a, b)]) b c ->
        has_edge (dn ++ [(a, b)]) a d -> has_edge (dn ++ [(a, b)]) b d -> has_edge (dn ++ [(a, b)]) c d -> False).
      { intros c d Hac Hbc Had Hbd Hcd.
        assert (c <> a) by (intros ->; by apply (has_edge_irrefl _ _ _ HL') in Hac). assert (c <> b) by (intros ->; by apply (has_edge_irrefl _ _ _ HL') in Hbc).
        assert (d <> a) by (intros ->; by apply (has_edge_irrefl _ _ _ HL') in Had). assert (d <> b) by (intros ->; by apply (has_edge_irrefl _ _ _ HL') in Hbd).
        apply Hold in Hac, Hbc, Had, Hbd, Hcd; try done. apply HT in Hac, Hbc, Had, Hbd.
        destruct (decide (d <= c)).
        - eapply (fourth_none adj _ _ c d E); try done. apply HT. by apply has_edge_comm.
        - eapply (fourth_none adj _ _ d c E); try done; [lia|]. by apply HT. }
      assert (Hkey' : forall v w c d, v = a /\ w = b \/ v = b /\ w = a -> has_edge (dn ++ [(a, b)]) v c -> has_edge (dn ++ [(a, b)]) w c ->
        has_edge (dn ++ [(a, b)]) v d -> has_edge (dn ++ [(a, b)]) w d -> has_edge (dn ++ [(a, b)]) c d -> False).
      { intros v w c d [[-> ->]|[-> ->]] ? ? ? ? ?; by eapply (Hkey c d). }
      intros x y z u ((Hxy & Hxz & Hyz) & Hxu & Hyu & Hzu).
      pose proof (proj1 (has_edge_comm _ _ _) Hxy). pose proof (proj1 (has_edge_comm _ _ _) Hxz). pose proof (proj1 (has_edge_comm _ _ _) Hyz).
      pose proof (proj1 (has_edge_comm _ _ _) Hxu). pose proof (proj1 (has_edge_comm _ _ _) Hyu). pose proof (proj1 (has_edge_comm _ _ _) Hzu).
      pose proof Hxy as [?|Ex]%has_edge_snoc; [|by apply (Hkey' x y z u)].
      pose proof Hxz as [?|Ex]%has_edge_snoc; [|by apply (Hkey' x z y u)].
      pose proof Hyz as [?|Ex]%has_edge_snoc; [|by apply (Hkey' y z x u)].
      pose proof Hxu as [?|Ex]%has_edge_snoc; [|by apply (Hkey' x u y z)].
      pose proof Hyu as [?|Ex]%has_edge_snoc; [|by apply (Hkey' y u x z)].
      pose proof Hzu as [?|Ex]%has_edge_snoc; [|by apply (Hkey' z u x y)].
      apply (Hno x y z u). split; [split_and!|split_and!]; done.
Qed.

(** ** cliques of single qubits *)
Lemma singles_clique nodes edges vs : (forall v, v ∈ vs -> v ∈ nodes) ->
  (forall i j a b, i <> j -> vs !! i = Some a -> vs !! j = Some b -> a <> b /\ has_edge edges a b) ->
  clique_embedding nodes edges (map (fun v => [v]) vs).
Proof.
  intros Hn He. split.
  - intros c Hc. apply elem_of_list_fmap in Hc as (v & -> & Hv). split_and!; [done|apply NoDup_singleton| |].
    + intros q ->%elem_of_list_singleton. by apply Hn.
    + intros p q ->%elem_of_list_singleton ->%elem_of_list_singleton. by apply rtc_refl.
  - intros i j c d Hij Hc Hd. rewrite list_lookup_fmap in Hc, Hd.
    destruct (vs !! i) as [a|] eqn:Ea; [|done]. destruct (vs !! j) as [b|] eqn:Eb; [|done]. injection Hc as <-. injection Hd as <-.
    destruct (He i j a b Hij Ea Eb) as [Hne Hed]. split.
    + intros x ->%elem_of_list_singleton ?%elem_of_list_singleton. done.
    + exists a, b. split_and!; [by left|by left|done].
Qed.
Lemma clique_singles nodes edges emb : clique_embedding nodes edges emb -> (forall ch, ch ∈ emb -> length ch = 1) ->
  exists vs, emb = map (fun v => [v]) vs /\ (forall v, v ∈ vs -> v ∈ nodes) /\
  (forall i j a b, i <> j -> vs !! i = Some a -> vs !! j = Some b -> a <> b /\ has_edge edges a b).
Proof.
  intros [H1 H2] Hl.
  assert (Hex : exists vs, emb = map (fun v => [v]) vs).
  { clear H1 H2. induction emb as [|c emb IH]; [by exists []|]. destruct IH as [vs ->]. { intros ch Hc. apply Hl. by right. }
    specialize (Hl c ltac:(left)). destruct c as [|v [|? ?]]; try done. by exists (v :: vs). }
  destruct Hex as [vs ->]. exists vs. split_and!; [done| |].
  - intros v Hv. destruct (H1 [v]) as (_ & _ & Hn & _); [apply elem_of_list_fmap; by exists v|]. apply Hn. by left.
  - intros i j a b Hij Ha Hb. destruct (H2 i j [a] [b] Hij) as [Hd Hc].
    { by rewrite list_lookup_fmap, Ha. } { by rewrite list_lookup_fmap, Hb. }
    destruct Hc as (p & q & ->%elem_of_list_singleton & ->%elem_of_list_singleton & Hpq). split; [|done]. intros ->.
    exact (Hd b ltac:(left) ltac:(left)).
Qed.


Section finders.
Context (nodes : list nat) (edges : list (nat * nat)).
Context (Hloop : Forall (fun e => e.1 <> e.2) edges) (Hends : forall p q, (p, q) ∈ edges -> p ∈ nodes /\ q ∈ nodes).

Definition single_result (k : nat) (r : option (list (list nat))) : Prop :=
  match r with
  | Some emb => clique_embedding nodes edges emb /\ length emb = k /\ forall ch, ch ∈ emb -> length ch = 1
  | None => ~ has_single_clique nodes edges k
  end.

Lemma has_edge_node a b : has_edge edges a b -> a ∈ nodes /\ b ∈ nodes.
Proof. intros [H|H]%id; apply Hends in H; tauto. Qed.

Lemma map_single_len (vs : list nat) ch : ch ∈ map (fun v => [v]) vs -> length ch = 1.
Proof. intros (v & -> & _)%elem_of_list_fmap. done. Qed.

Lemma generic_1 : single_result 1 (find_generic_1 nodes []).
Proof.
  unfold find_generic_1, single_result. destruct nodes as [|v l] eqn:En.
  - intros (emb & Hc & Hl & Hs). apply clique_singles in Hc as (vs & -> & Hn & _); [|done]. destruct vs as [|v vs]; [done|].
    specialize (Hn v ltac:(left)). by apply elem_of_nil in Hn.
  - simpl. split_and!; [|done|intros ch ->%elem_of_list_singleton; done].
    apply (singles_clique _ _ [v]); [intros ? ->%elem_of_list_singleton; left|]. intros [|i] [|j] a b; try done.
Qed.

Lemma generic_2 : single_result 2 (find_generic_2 edges []).
Proof.
  unfold find_generic_2, single_result. destruct edges as [|[a b] l] eqn:En.
  - intros (emb & Hc & Hl & Hs). apply clique_singles in Hc as (vs & -> & _ & He); [|done]. destruct vs as [|v [|w [|? ?]]]; try done.
    destruct (He 0 1 v w) as [_ [Hx|Hx]]; try done; by apply elem_of_nil in Hx.
  - simpl. rewrite <- En in *. assert (Hab : (a, b) ∈ edges) by (rewrite En; left). destruct (Hends a b Hab).
    assert (a <> b) by (rewrite Forall_forall in Hloop; apply (Hloop (a, b) Hab)).
    split_and!; [|done|apply (map_single_len [a; b])].
    apply (singles_clique _ _ [a; b]).
    + intros v [->|[->|?%elem_of_nil]%elem_of_cons]%elem_of_cons; done.
    + intros [|[|i]] [|[|j]] x y Hij Hx Hy; try done; injection Hx as <-; injection Hy as <-; (split; [congruence|]); [by left|by right].
Qed.

Lemma generic_3 : single_result 3 (find_generic_3 edges []).
Proof.
  unfold find_generic_3, single_result.
  pose proof (find_3_ok edges [] ∅ table_nil Hloop) as H. specialize (H ltac:(intros a b c ([?%elem_of_nil|?%elem_of_nil] & _); done) []).
  destruct (find_3 ∅ edges []) as [emb|].
  - destruct H as (a & b & c & -> & Hab & Hac & Hbc). simpl in *.
    pose proof (has_edge_node _ _ Hab). pose proof (has_edge_node _ _ Hac).
    pose proof (has_edge_irrefl _ _ _ Hloop Hab). pose proof (has_edge_irrefl _ _ _ Hloop Hac). pose proof (has_edge_irrefl _ _ _ Hloop Hbc).
    split_and!; [|done|apply (map_single_len [a; b; c])]. apply (singles_clique _ _ [a; b; c]).
    + intros v Hv. rewrite !elem_of_cons, elem_of_nil in Hv. naive_solver.
    + intros [|[|[|i]]] [|[|[|j]]] x y Hij Hx Hy; try done; injection Hx as <-; injection Hy as <-; (split; [congruence|]); try done; by apply has_edge_comm.
  - intros (emb & Hc & Hl & Hs). apply clique_singles in Hc as (vs & -> & _ & He); [|done]. destruct vs as [|v [|w [|u [|? ?]]]]; try done.
    apply (H v w u). split_and!; [apply (He 0 1)|apply (He 0 2)|apply (He 1 2)]; done.
Qed.

Lemma generic_4 : single_result 4 (find_generic_4 edges []).
Proof.
  unfold find_generic_4, single_result.
  pose proof (find_4_ok edges [] ∅ table_nil Hloop) as H. specialize (H ltac:(intros a b c d (([?%elem_of_nil|?%elem_of_nil] & _) & _); done) []).
  destruct (find_4 ∅ edges []) as [emb|].
  - destruct H as (a & b & c & d & -> & (Hab & Hac & Hbc) & Had & Hbd & Hcd). simpl in *.
    pose proof (has_edge_node _ _ Hab). pose proof (has_edge_node _ _ Hcd).
    pose proof (has_edge_irrefl _ _ _ Hloop Hab). pose proof (has_edge_irrefl _ _ _ Hloop Hac). pose proof (has_edge_irrefl _ _ _ Hloop Hbc).
    pose proof (has_edge_irrefl _ _ _ Hloop Had). pose proof (has_edge_irrefl _ _ _ Hloop Hbd). pose proof (has_edge_irrefl _ _ _ Hloop Hcd).
    split_and!; [|done|apply (map_single_len [a; b; c; d])]. apply (singles_clique _ _ [a; b; c; d]).
    + intros v Hv. rewrite !elem_of_cons, elem_of_nil in Hv. naive_solver.
    + intros [|[|[|[|i]]]] [|[|[|[|j]]]] x y Hij Hx Hy; try done; injection Hx as <-; injection Hy as <-; (split; [congruence|]); try done; by apply has_edge_comm.
  - intros (emb & Hc & Hl & Hs). apply clique_singles in Hc as (vs & -> & _ & He); [|done]. destruct vs as [|v [|w [|u [|x [|? ?]]]]]; try done.
    apply (H v w u x). split; split_and!; [apply (He 0 1)|apply (He 0 2)|apply (He 1 2)|apply (He 0 3)|apply (He 1 3)|apply (He 2 3)]; done.
Qed.

Lemma small_cliques k r :
  (k, r) ∈ [(1, find_generic_1 nodes []); (2, find_generic_2 edges []); (3, find_generic_3 edges []); (4, find_generic_4 edges [])] ->
  single_result k r.
Proof.
  rewrite !elem_of_cons, elem_of_nil. intros [E|[E|[E|[E|[]]]]]; injection E as -> ->; [apply generic_1|apply generic_2|apply generic_3|apply generic_4].
Qed.

Lemma smaller_clique k k' : has_single_clique nodes edges k -> k' <= k -> has_single_clique nodes edges k'.
Proof.
  intros (emb & Hc & Hl & Hs) Hk. exists (take k' emb). split_and!.
  - destruct Hc as [H1 H2]. split.
    + intros c Hc. apply H1. eapply elem_of_take in Hc as (i & Hi & _). by eapply elem_of_list_lookup_2.
    + intros i j c d Hij [Hc ?]%lookup_take_Some [Hd ?]%lookup_take_Some. by eapply H2.
  - rewrite take_length. lia.
  - intros ch Hch. apply Hs. eapply elem_of_take in Hch as (i & Hi & _). by eapply elem_of_list_lookup_2.
Qed.

(** [short_clique] finds a largest clique of single qubits with at most [n] chains *)
Lemma short_clique_ok n : 2 <= n <= 4 ->
  let emb := short_clique n nodes edges [] in
  clique_embedding nodes edges emb /\ (forall ch, ch ∈ emb -> length ch = 1) /\ length emb <= n /\
  forall k, k <= n -> has_single_clique nodes edges k -> k <= length emb.
Proof.
  intros Hn emb. unfold emb, short_clique.
  pose proof generic_1 as G1. pose proof generic_2 as G2. pose proof generic_3 as G3. pose proof generic_4 as G4.
  assert (Hfin : forall m e, clique_embedding nodes edges e /\ length e = m /\ (forall ch, ch ∈ e -> length ch = 1) -> m <= n ->
    (m < n -> ~ has_single_clique nodes edges (S m)) ->
    clique_embedding nodes edges e /\ (forall ch, ch ∈ e -> length ch = 1) /\ length e <= n /\
    forall k, k <= n -> has_single_clique nodes edges k -> k <= length e).
  { intros m e (Hc & Hl & Hs) Hmn Hno. split_and!; [done|done|lia|]. intros k Hk Hck. destruct (decide (k <= length e)); [done|].
    exfalso. apply Hno; [lia|]. eapply smaller_clique; [exact Hck|lia]. }
  destruct (Nat.leb_spec 4 n).
  { destruct (find_generic_4 edges []) as [e|]; [eapply Hfin; [exact G4|lia|lia]|].
    destruct (Nat.leb_spec 3 n); [|lia]. destruct (find_generic_3 edges []) as [e|]; [by eapply Hfin; [exact G3|lia|]|].
    destruct (find_generic_2 edges []) as [e|]; [by eapply Hfin; [exact G2|lia|]|].
    destruct (find_generic_1 nodes []) as [e|]; [by eapply Hfin; [exact G1|lia|]|].
    eapply (Hfin 0); [|lia|done]. split_and!; [|done|by intros ? ?%elem_of_nil]. split; [by intros ? ?%elem_of_nil|done]. }
  destruct (Nat.leb_spec 3 n).
  { destruct (find_generic_3 edges []) as [e|]; [eapply Hfin; [exact G3|lia|lia]|].
    destruct (find_generic_2 edges []) as [e|]; [by eapply Hfin; [exact G2|lia|]|].
    destruct (find_generic_1 nodes []) as [e|]; [by eapply Hfin; [exact G1|lia|]|].
    eapply (Hfin 0); [|lia|done]. split_and!; [|done|by intros ? ?%elem_of_nil]. split; [by intros ? ?%elem_of_nil|done]. }
  destruct (find_generic_2 edges []) as [e|]; [eapply Hfin; [exact G2|lia|lia]|].
  destruct (find_generic_1 nodes []) as [e|]; [by eapply Hfin; [exact G1|lia|]|].
  eapply (Hfin 0); [|lia|done]. split_and!; [|done|by intros ? ?%elem_of_nil]. split; [by intros ? ?%elem_of_nil|done].
Qed.
End finders.
