(** What the node, edge and bad masks of a Chimera topology mean in terms of the graph. *)
From stdpp Require Import base list list_numbers numbers gmap.
From Verif Require Import Base BusModel SpecBus CoordProofs BitProofs BundleProofs.

Lemma qubit_linear t y x u k : qubit (dim_x t) (shore t) y x u k = chimera_linear t y x u k.
Proof. unfold qubit, chimera_linear, b2n. destruct u; lia. Qed.
Lemma line_qubit_linear t u w z k : line_qubit (dim_x t) (shore t) u w z k =
  (if u then chimera_linear t w z true k else chimera_linear t z w false k).
Proof. unfold line_qubit. destruct u; apply qubit_linear. Qed.
Lemma nqubits_t t : nqubits (dim_y t) (dim_x t) (shore t) = dim_y t * (dim_x t * 2) * shore t.
Proof. unfold nqubits. lia. Qed.

Section masks.
Context (t : topo) (Hsh : shore t <= 8).
Notation NQ := (dim_y t * (dim_x t * 2) * shore t).

Lemma node_mask_ok nodes : (forall q, q ∈ nodes -> q < NQ) ->
  exists nm, chimera_nodes t nodes (replicate (num_cells t) 0%N) = Ok nm /\ length nm = num_cells t /\ bytes nm /\
    forall y x u k, y < dim_y t -> x < dim_x t ->
      mbit nm (cell_index t y x u) k = true <-> (k < shore t /\ chimera_linear t y x u k ∈ nodes).
Proof.
  intros Hr. unfold chimera_nodes.
  destruct (foldM_inv (chimera_node t) (fun dn nm => length nm = num_cells t /\ bytes nm /\
      forall y x u k, y < dim_y t -> x < dim_x t ->
      mbit nm (cell_index t y x u) k = true <-> (k < shore t /\ chimera_linear t y x u k ∈ dn))
    nodes (replicate (num_cells t) 0%N)) as (nm & E & H).
  - rewrite replicate_length. split_and!; [done|apply bytes_replicate|]. intros. rewrite mbit_replicate.
    split; [done|]. intros [_ ?%elem_of_nil]. done.
  - intros dn q rest nm Hsp (L & B & HI).
    destruct (linear_chimera t q) as [[[y x] u] k] eqn:Eq.
    apply chimera_of_linear in Eq as (Eq & Hy & Hx & Hk); [|apply Hr; set_solver].
    unfold chimera_node. rewrite <- Eq, linear_of_chimera by done. rewrite mask_bit_ok by lia. cbn [rbind].
    destruct (mor_ok nm (cell_index t y x u) k) as (nm' & -> & L' & B' & HB); [|done|lia|].
    { rewrite L. by apply cell_index_lt. }
    exists nm'. split; [done|]. split_and!; [lia|done|]. intros y' x' u' k' Hy' Hx'.
    rewrite HB, orb_true_iff, HI by done. rewrite bool_decide_eq_true, elem_of_app, elem_of_list_singleton.
    split.
    + intros [[? ?]|[E ->]]; [tauto|]. apply cell_index_inj in E as (-> & -> & ->); [|done..]. tauto.
    + intros [? [?|E]]; [tauto|]. right.
      apply (f_equal (linear_chimera t)) in E. rewrite !linear_of_chimera in E by done. by injection E as -> -> -> ->.
  - exists nm. tauto.
Qed.

(** a normalised edge *)
Definition norm (e : nat * nat) : nat * nat := if e.2 <? e.1 then (e.2, e.1) else e.

Lemma norm_edge edges p q : p <= q -> (exists e, e ∈ edges /\ norm e = (p, q)) <-> has_edge edges p q.
Proof.
  intros Hpq. unfold has_edge, norm. split.
  - intros ([a b] & H & E). simpl in E. destruct (b <? a) eqn:L; injection E as <- <-; tauto.
  - intros [H|H].
    + exists (p, q). split; [done|]. simpl. destruct (Nat.ltb_spec q p); [lia|done].
    + destruct (decide (p = q)) as [->|].
      * exists (q, q). split; [done|]. simpl. by rewrite Nat.ltb_irrefl.
      * exists (q, p). split; [done|]. simpl. destruct (Nat.ltb_spec p q); [done|lia].
Qed.

Lemma pred_lt u w z k : z + 1 < dim_z t u -> 
  line_qubit (dim_x t) (shore t) u w z k <= line_qubit (dim_x t) (shore t) u w (z + 1) k.
Proof. intros. unfold line_qubit, qubit. destruct u; nia. Qed.

Lemma edge_mask_ok edges : (forall p q, (p, q) ∈ edges -> p < NQ /\ q < NQ) ->
  exists em, chimera_edges t edges (replicate (num_cells t) 0%N) = Ok em /\ length em = num_cells t /\ bytes em /\
    forall u w z k, w < dim_w t u -> z < dim_z t u ->
      mbit em (cell_index_wz t u w z) k = true <->
      (k < shore t /\ exists z', z = z' + 1 /\
         has_edge edges (line_qubit (dim_x t) (shore t) u w z' k) (line_qubit (dim_x t) (shore t) u w z k)).
Proof.
  intros Hr. unfold chimera_edges.
  destruct (foldM_inv (chimera_edge t) (fun dn em => length em = num_cells t /\ bytes em /\
      forall u w z k, w < dim_w t u -> z < dim_z t u ->
      mbit em (cell_index_wz t u w z) k = true <->
      (k < shore t /\ exists z' e, z = z' + 1 /\ e ∈ dn /\
         norm e = (line_qubit (dim_x t) (shore t) u w z' k, line_qubit (dim_x t) (shore t) u w z k)))
    edges (replicate (num_cells t) 0%N)) as (em & E & H).
  - rewrite replicate_length. split_and!; [done|apply bytes_replicate|]. intros. rewrite mbit_replicate.
    split; [done|]. intros (_ & z' & e & _ & ?%elem_of_nil & _). done.
  - intros dn e rest em Hsp (L & B & HI).
    assert (Hpq : (norm e).1 < NQ /\ (norm e).2 < NQ).
    { destruct e as [a b]. destruct (Hr a b) as [? ?]; [set_solver|]. unfold norm. simpl.
      destruct (b <? a); simpl; done. }
    destruct (norm e) as [p q] eqn:En. simpl in Hpq. destruct Hpq as [Hp Hq].
    destruct (linear_chimera t p) as [[[py px] pu] pk] eqn:Ep.
    apply chimera_of_linear in Ep as (Ep & Hpy & Hpx & Hpk); [|done].
    destruct (linear_chimera t q) as [[[qy qx] qu] qk] eqn:Eq.
    apply chimera_of_linear in Eq as (Eq & Hqy & Hqx & Hqk); [|done].
    unfold chimera_edge. unfold norm in En. rewrite En. rewrite <- Ep, <- Eq, !linear_of_chimera by done.
    fold (norm e) in En.
    (* the extended invariant, when the step does nothing *)
    assert (Hsame : (forall u w z' k, z' + 1 < dim_z t u -> w < dim_w t u -> k < shore t ->
         p = line_qubit (dim_x t) (shore t) u w z' k -> q = line_qubit (dim_x t) (shore t) u w (z' + 1) k -> False) ->
       length em = num_cells t /\ bytes em /\
      forall u w z k, w < dim_w t u -> z < dim_z t u ->
      mbit em (cell_index_wz t u w z) k = true <->
      (k < shore t /\ exists z' e0, z = z' + 1 /\ e0 ∈ dn ++ [e] /\
         norm e0 = (line_qubit (dim_x t) (shore t) u w z' k, line_qubit (dim_x t) (shore t) u w z k))).
    { intros Hno. split_and!; [done..|]. intros u w z k Hw Hz. rewrite HI by done. split.
      - intros (? & z' & e0 & ? & ? & ?). split; [done|]. exists z', e0. set_solver.
      - intros (Hk & z' & e0 & -> & [?|He]%elem_of_app & E0); [split; [done|]; by exists z', e0|].
        apply elem_of_list_singleton in He as ->. rewrite En in E0. injection E0 as E1 E2.
        exfalso. by apply (Hno u w z' k). }
    assert (Hlq : forall u w z k, k < shore t -> z < dim_z t u -> w < dim_w t u ->
        linear_chimera t (line_qubit (dim_x t) (shore t) u w z k) = if u then (w, z, true, k) else (z, w, false, k)).
    { intros u w z k ? ? ?. rewrite line_qubit_linear. destruct u; apply linear_of_chimera; done. }
    destruct (eqb pu qu) eqn:Eu.
    + apply eqb_prop in Eu as <-.
      destruct ((pk =? qk) && (py + (1 - b2n pu) =? qy) && (px + b2n pu =? qx)) eqn:Ec.
      * rewrite !andb_true_iff, !Nat.eqb_eq in Ec. destruct Ec as [[<- <-] <-].
        rewrite mask_bit_ok by lia. cbn [rbind].
        destruct (mor_ok em (cell_index t (py + (1 - b2n pu)) (px + b2n pu) pu) pk) as (em' & -> & L' & B' & HB);
          [|done|lia|].
        { rewrite L. by apply cell_index_lt. }
        exists em'. split; [done|]. split_and!; [lia|done|]. intros u w z k Hw Hz.
        rewrite HB, orb_true_iff, HI by done. rewrite bool_decide_eq_true.
        assert (Hpl : p = line_qubit (dim_x t) (shore t) pu (if pu then py else px) (if pu then px else py) pk).
        { rewrite <- Ep, line_qubit_linear. by destruct pu. }
        assert (Hql : q = line_qubit (dim_x t) (shore t) pu (if pu then py else px) (if pu then px else py) pk + 0 \/ True) by tauto.
        clear Hql.
        assert (Hql : q = line_qubit (dim_x t) (shore t) pu (if pu then py else px) ((if pu then px else py) + 1) pk).
        { rewrite <- Eq, line_qubit_linear. destruct pu; simpl; f_equal; lia. }
        assert (Hcell : cell_index t (py + (1 - b2n pu)) (px + b2n pu) pu =
           cell_index_wz t pu (if pu then py else px) ((if pu then px else py) + 1)).
        { unfold cell_index_wz. destruct pu; simpl; f_equal; lia. }
        split.
        -- intros [(? & z' & e0 & ? & ? & ?)|[Ei ->]].
           { split; [done|]. exists z', e0. set_solver. }
           split; [done|].
           assert (Huw : u = pu /\ w = (if pu then py else px) /\ z = (if pu then px else py) + 1).
           { unfold cell_index_wz in Ei. unfold dim_w, dim_z in Hw, Hz. destruct u, pu; simpl in *;
             apply cell_index_inj in Ei as (? & ? & ?); try done; try lia. }
           destruct Huw as (-> & -> & ->). exists (if pu then px else py), e. split; [done|]. split; [set_solver|].
           rewrite En. by rewrite Hpl, Hql.
        -- intros (Hk & z' & e0 & -> & [?|He]%elem_of_app & E0); [left; split; [done|]; by exists z', e0|].
           apply elem_of_list_singleton in He as ->. rewrite En in E0. injection E0 as E1 E2. right.
           apply (f_equal (linear_chimera t)) in E2. rewrite Hlq in E2 by done.
           rewrite <- Eq, linear_of_chimera in E2 by done. unfold cell_index_wz.
           destruct u; injection E2 as <- <- <- <-; done.
      * eexists. split; [done|]. apply Hsame. intros u w z' k Hz' Hw Hk E1 E2.
        apply (f_equal (linear_chimera t)) in E1, E2. rewrite Hlq in E1, E2 by (done || lia).
        rewrite <- Ep, linear_of_chimera in E1 by done. rewrite <- Eq, linear_of_chimera in E2 by done.
        destruct u; injection E1 as -> -> -> ->; injection E2 as -> -> ->; simpl in Ec;
          rewrite ?Nat.add_0_r, !Nat.eqb_refl in Ec; done.
    + eexists. split; [done|]. apply Hsame. intros u w z' k Hz' Hw Hk E1 E2.
      apply (f_equal (linear_chimera t)) in E1, E2. rewrite Hlq in E1, E2 by (done || lia).
      rewrite <- Ep, linear_of_chimera in E1 by done. rewrite <- Eq, linear_of_chimera in E2 by done.
      destruct u; injection E1 as -> -> -> ->; injection E2 as -> -> ->; done.
  - destruct H as (L & B & HI). exists em. split_and!; try done. intros u w z k Hw Hz. rewrite HI by done.
    split; intros (Hk & z' & H); (split; [done|]); exists z'.
    + destruct H as (e & -> & He & En). split; [done|]. apply norm_edge; [by apply pred_lt|]. by exists e.
    + destruct H as (-> & He). apply norm_edge in He; [|by apply pred_lt]. destruct He as (e & ? & ?). by exists e.
Qed.
End masks.
