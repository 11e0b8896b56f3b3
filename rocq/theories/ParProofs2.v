(** Embeddings in sublattices: proofs. *)
Require Import Lia.
From stdpp Require Import base list numbers relations.
From Verif Require Import Base NxModel SpecNx FeasModel ParModel SpecPar DiagProofs FeasProofs2 FeasProofs3 ParProofs.

Section sub.
Context {A : Type} `{!EqDecision A}.
Implicit Types (g S T cur : nxgraph A) (e : pyemb A) (embs : list (pyemb A)).

Lemma all_disjoint_nil : all_disjoint (A := A) [].
Proof. intros a b ? ? ? ? ? Hi. by rewrite lookup_nil in Hi. Qed.
Lemma subgraph_wf g l : nx_wf g -> nx_wf (nx_subgraph g l).
Proof.
  intros [H1 H2 H3 H4]. split; simpl.
  - by apply NoDup_filter.
  - intros a b Hab. apply elem_of_list_filter in Hab as [[Ha Hb] Hab]. apply H2 in Hab. rewrite !elem_of_list_filter. simpl in Ha, Hb. tauto.
  - by apply NoDup_filter.
  - intros a b Hab Hba. apply elem_of_list_filter in Hab as [_ Hab], Hba as [_ Hba]. eauto.
Qed.
Lemma subgraph_part g l : (forall q, q ∈ nx_nodes (nx_subgraph g l) -> q ∈ nx_nodes g) /\ (forall a b, nx_adj (nx_subgraph g l) a b -> nx_adj g a b).
Proof.
  split.
  - intros q Hq. simpl in Hq. by apply elem_of_list_filter in Hq as [_ ?].
  - intros a b. unfold nx_adj. simpl. rewrite !elem_of_list_filter. tauto.
Qed.
Lemma tuples_ok o e d : tuples o e = Ok d -> d = chains_of e /\ has_format o e.
Proof.
  revert d. induction e as [|[k v] e IH]; cbn [tuples]; intros d H.
  - injection H as <-. split; [done|]. intros k v Hk. by apply elem_of_nil in Hk.
  - assert (Hv : exists l, (match o, v with true, Chain c => Ok c | true, Node _ => Err UB | false, Node q => Ok [q] | false, Chain _ => Err UB end) = Ok l
      /\ l = cval_nodes v /\ match v with Node _ => o = false | Chain _ => o = true end).
    { destruct o, v; cbn [rbind] in H; try done; by eexists. }
    destruct Hv as (l & El & -> & Hv). rewrite El in H. cbn [rbind] in H. destruct (tuples o e) as [r|]; [|done]. cbn [rbind] in H. injection H as <-.
    destruct (IH r eq_refl) as [-> Hf]. split; [done|]. intros k' v' Hk. apply elem_of_cons in Hk as [[= -> ->]|Hk]; [done|exact (Hf k' v' Hk)].
Qed.
Lemma mapped_keys o f e p : mapped_proposal o f e = Ok p -> p.*1 = e.*1.
Proof.
  revert p. induction e as [|[k v] e IH]; cbn [mapped_proposal]; intros p H; [by injection H as <-|].
  destruct (match o, v with true, Chain c => Ok (Chain (f <$> c)) | true, Node _ => Err UB | false, Node q => Ok (Node (f q)) | false, Chain _ => Err UB end) as [v'|]; [|done].
  cbn [rbind] in H. destruct (mapped_proposal o f e) as [r|]; [|done]. cbn [rbind] in H. injection H as <-. rewrite !fmap_cons. cbn [fst]. f_equal. by apply IH.
Qed.
Lemma self_keys (o : bool) (l : list A) : ((fun q => (q, if o then Chain [q] else Node q)) <$> l).*1 = l.
Proof. induction l as [|q l IH]; [done|]. rewrite !fmap_cons. cbn [fst]. by rewrite IH. Qed.
Lemma chains_keys e : (chains_of e).*1 = e.*1.
Proof. unfold chains_of. rewrite <- list_fmap_compose. by apply list_fmap_ext. Qed.
Lemma valid_good o S T e : nx_wf S -> nx_wf T -> NoDup e.*1 -> (forall k, k ∈ e.*1 -> k ∈ nx_nodes S) ->
  valid_embedding o e S T = Ok true -> good_emb o S T e.
Proof.
  intros HS HT ND Hk H. unfold valid_embedding in H. destruct (tuples o e) as [d|] eqn:E; [|done]. cbn [rbind] in H.
  destruct (tuples_ok _ _ _ E) as [-> Hf]. split; [done..|]. injection H as H. apply (valid_iff (chains_of e) S T); [by rewrite chains_keys|done..].
Qed.

(** a call of [find_multiple_embeddings] without [one_to_iterable] *)
Lemma nested_good (w : world A) o uf it same S T i m : nx_wf S -> nx_wf T -> nx_nodes S <> [] -> honest_embedder o w ->
  (o = false \/ (m <= 1)%Z) ->
  exists j embs, find_multiple_embeddings w i S T (Some m) uf false false it same = Ok (j, T, embs) /\
    (forall e, e ∈ embs -> good_emb o S T e) /\ all_disjoint embs /\ (Z.of_nat (length embs) <= Z.max 0 m)%Z.
Proof.
  intros HwS HwT HS Hemb Hom. unfold find_multiple_embeddings. destruct it; cbn [negb].
  2:{ exists i, []. split; [done|]. split; [intros e He; by apply elem_of_nil in He|]. split; [apply all_disjoint_nil|simpl; lia]. }
  assert (Hlen : length (nx_nodes S) <> 0) by (destruct (nx_nodes S); [done|simpl; lia]).
  rewrite (proj2 (Nat.eqb_neq _ _) Hlen). set (d := length (nx_nodes T) `div` length (nx_nodes S)). set (n := Z.min (Z.of_nat d) m).
  assert (Hcur : rest_of T [] T) by (apply rest_same; [done|apply same_refl]).
  destruct (1 <? n)%Z eqn:En.
  - destruct Hom as [->|Hom]; [|apply Z.ltb_lt in En; subst n; lia].
    destruct (multi_many w false uf same S S T HwS HwT HS (same_refl S) Hemb (Z.to_nat n) (i + 2) None []) as (j & embs' & H1 & H2 & H3 & H4 & _);
      [done|done|intros e He; by apply elem_of_nil in He|apply all_disjoint_nil|].
    exists j, embs'. split; [done|]. split; [done|]. split; [done|]. simpl in H4. subst n. lia.
  - apply Z.ltb_ge in En. destruct (multi_one w o false uf same S S T T None (Z.to_nat n) (i + 2)) as (j & embs' & H1 & H2 & H3 & H4 & _);
      [done|done|done|apply same_refl|done|done|done|lia|].
    exists j, embs'. split; [done|]. split; [done|]. split; [done|]. subst n. lia.
Qed.

Lemma sub_good (w : world A) o uf S tile T n (reuse : option (pyemb A)) : nx_wf S -> nx_wf T -> nx_nodes S <> [] -> honest_embedder o w ->
  (reuse <> None \/ o = false \/ (n <= 1)%Z) ->
  (forall te, reuse = Some te -> NoDup te.*1 /\ forall k, k ∈ te.*1 -> k ∈ nx_nodes S) ->
  forall fs i own embs j T' embs', rest_of T embs (default T own) -> (own = None -> embs = [] /\ (n <= 1)%Z) ->
    (forall e, e ∈ embs -> good_emb o S T e) -> all_disjoint embs -> (Z.of_nat (length embs) <= Z.max 1 n)%Z -> (embs <> [] -> (Z.of_nat (length embs) < n)%Z) ->
  sub_loop w fs S tile n uf o reuse i T own embs = Ok (j, T', embs') ->
  T' = T /\ (forall e, e ∈ embs' -> good_emb o S T e) /\ all_disjoint embs' /\ (Z.of_nat (length embs') <= Z.max 1 n)%Z.
Proof.
  intros HwS HwT HS Hemb Hcase Hte. induction fs as [|f fs IH]; intros i own embs j T' embs' Hcur Hown Hg Hd Hlen Hlt; cbn [sub_loop]; intros H.
  - by injection H as <- <- <-.
  - destruct (w_late w i); [by injection H as <- <- <-|]. set (cur := default T own) in *.
    assert (Hfound : exists j0 found, (match reuse with
          | Some te =>
              let! p := mapped_proposal o f te in
              let! v := valid_embedding o p S cur in
              Ok (Datatypes.S i, if (v : bool) then [p] else [])
          | None =>
              let! r := find_multiple_embeddings w (Datatypes.S (Datatypes.S i)) S (nx_subgraph cur (f <$> nx_nodes tile))
                  (Some (n - Z.of_nat (length embs))%Z) uf false false (negb (w_late w (Datatypes.S i))) false in
              Ok (r.1.1, r.2)
          end) = Ok (j0, found) /\ (forall e, e ∈ found -> good_emb o S cur e) /\ all_disjoint found /\
          (Z.of_nat (length embs + length found) <= Z.max 1 n)%Z).
    { destruct reuse as [te|].
      - destruct (Hte te eq_refl) as [ND Hk].
        destruct (mapped_proposal o f te) as [p|] eqn:Ep; [|by cbn [rbind] in H]. cbn [rbind] in H |- *.
        destruct (valid_embedding o p S cur) as [v|] eqn:Ev; [|by cbn [rbind] in H]. cbn [rbind]. eexists _, _. split; [done|].
        pose proof (mapped_keys _ _ _ _ Ep) as Ek. destruct v.
        + split; [|split].
          * intros e He. apply elem_of_list_singleton in He as ->. apply valid_good; [done|apply (ro_wf _ _ _ Hcur)|by rewrite Ek|rewrite Ek; done|done].
          * apply (disjoint_snoc [] p all_disjoint_nil). intros x q _. apply used_nil.
          * simpl. destruct embs as [|e0 embs0]; [simpl; lia|]. specialize (Hlt ltac:(done)). lia.
        + split; [intros e He; by apply elem_of_nil in He|]. split; [apply all_disjoint_nil|]. simpl. lia.
      - assert (Hwf : nx_wf (nx_subgraph cur (f <$> nx_nodes tile))) by (apply subgraph_wf, (ro_wf _ _ _ Hcur)).
        destruct (nested_good w o uf (negb (w_late w (Datatypes.S i))) false S (nx_subgraph cur (f <$> nx_nodes tile)) (Datatypes.S (Datatypes.S i)) (n - Z.of_nat (length embs))) as (j0 & found & E & H1 & H2 & H3); [done..| |].
        { destruct Hcase as [?|[->|?]]; [done|by left|right; lia]. }
        rewrite E. cbn [rbind fst snd]. exists j0, found. split; [done|]. split; [|split; [done|lia]].
        intros e He. eapply good_mono; [apply subgraph_part|apply subgraph_part|by apply H1]. }
    destruct Hfound as (j0 & found & E & Hfg & Hfd & Hfl). rewrite E in H. cbn [rbind fst snd] in H. clear E.
    assert (Hunused : forall q, used found q -> ~ used embs q).
    { intros q (e & x & He & Hx). apply (good_nodes _ _ _ _ _ _ (Hfg e He)) in Hx. by apply (ro_nodes _ _ _ Hcur) in Hx as [_ ?]. }
    assert (Hd' : all_disjoint (embs ++ found)) by (by apply disjoint_app).
    assert (Hg' : forall e, e ∈ embs ++ found -> good_emb o S T e).
    { intros e He. apply elem_of_app in He as [He|He]; [auto|]. eapply good_mono; [| |by apply Hfg].
      - intros q Hq. by apply (ro_nodes _ _ _ Hcur) in Hq as [? _].
      - intros a b Hab. by apply (ro_adj _ _ _ Hcur) in Hab as [? _]. }
    destruct (n <=? Z.of_nat (length (embs ++ found)))%Z eqn:En.
    + injection H as <- <- <-. split; [done|]. split; [done|]. split; [done|]. rewrite app_length. done.
    + apply Z.leb_gt in En. destruct (taken_all_ok o found) as (gone & Eg & Hgone); [intros e He; apply Hfg, He|]. rewrite Eg in H. cbn [rbind] in H.
      assert (Hrest : rest_of T (embs ++ found) (nx_remove cur gone)) by (by apply rest_remove).
      destruct own as [g|].
      * eapply IH in H; [exact H| |done|done|done|rewrite app_length; lia|done]. exact Hrest.
      * destruct (Hown eq_refl) as [-> Hn1]. assert (found = []) as -> by (destruct found; [done|simpl in En; lia]). simpl in Eg. injection Eg as <-.
        rewrite remove_nil in H. eapply IH in H; [exact H|done|done|done|done|done|done].
Qed.

Context (generator : family -> nat -> nat -> nxgraph A) (greedy_color : nxgraph A -> A -> nat).
Context (mappings : family -> nxgraph A -> nxgraph A -> list (A -> A)).

Theorem sublattice_good (w : world A) fuel S T ft (a : subargs) j T' embs : nx_wf S -> nx_wf T -> nx_nodes S <> [] ->
  honest_embedder (sa_one_to_iterable a) w ->
  (forall tile, sa_tile a = Some tile -> nx_wf tile) -> (forall fam t m, nx_wf (generator fam t m)) ->
  (sa_tile_is_S a = true -> sa_tile a = Some S) ->
  (forall te, sa_tile_emb a = Some te -> NoDup te.*1 /\ forall k, k ∈ te.*1 -> k ∈ nx_nodes S) ->
  (sa_one_to_iterable a = false \/ sa_max a = Some 1%Z \/
   ((sa_tile a <> None \/ sa_size a <> None) /\
    (sa_use_tile a = Some true \/ (sa_use_tile a = None /\ (sa_tile_emb a <> None \/ sa_tile_is_S a = true))))) ->
  find_sublattice_embeddings generator greedy_color mappings w fuel S T ft a = Ok (j, T', embs) ->
  T' = T /\ (forall e, e ∈ embs -> good_emb (sa_one_to_iterable a) S T e) /\ all_disjoint embs /\
  (forall m, sa_max a = Some m -> (Z.of_nat (length embs) <= Z.max 1 m)%Z).
Proof.
  intros HwS HwT HS Hemb Htile Hgen HisS Hte Hcase. unfold find_sublattice_embeddings.
  set (o := sa_one_to_iterable a) in *.
  assert (Nil : forall x y : nat, Ok (x, T, []) = Ok (j, T', embs) -> T' = T /\ (forall e, e ∈ embs -> good_emb o S T e) /\ all_disjoint embs /\
    (forall m, sa_max a = Some m -> (Z.of_nat (length embs) <= Z.max 1 m)%Z)).
  { intros x y H. injection H as <- <- <-. split; [done|]. split; [intros e He; by apply elem_of_nil in He|]. split; [apply all_disjoint_nil|]. intros m _. simpl. lia. }
  destruct (sa_in_time a); cbn [negb]; [|intros H; by apply (Nil 0 0)].
  assert (Hdec : (sa_tile a = None /\ sa_size a = None) \/ (sa_tile a <> None \/ sa_size a <> None)).
  { destruct (sa_tile a); [right; by left|]. destruct (sa_size a); [right; by right|by left]. }
  destruct Hdec as [[Et Es]|Hts].
  { rewrite Et, Es. intros H.
    assert (Hcase' : o = false \/ sa_max a = Some 1%Z) by (destruct Hcase as [?|[?|[[?|?] _]]]; auto; congruence).
    destruct (decide (sa_max a = Some 1%Z)) as [E1|Hne].
    - rewrite E1 in H. destruct (nested_good w o true true false S T 0 1) as (j' & l & E & H1 & H2 & H3); [done..|right; lia|].
      rewrite E in H. injection H as <- <- <-. split; [done|]. split; [done|]. split; [done|]. intros m _. lia.
    - destruct Hcase' as [Ho|]; [|done]. clearbody o. subst o.
      assert (Hgoal : exists j' embs', find_multiple_embeddings w 0 S T (sa_max a) true false false true false = Ok (j', T, embs') /\
        (forall e, e ∈ embs' -> good_emb false S T e) /\ all_disjoint embs' /\ (forall m, sa_max a = Some m -> (Z.of_nat (length embs') <= Z.max 1 m)%Z)).
      { destruct (sa_max a) as [m|].
        - destruct (nested_good w false true true false S T 0 m) as (j' & l & E & H1 & H2 & H3); [done..|by left|].
          exists j', l. split; [done|]. split; [done|]. split; [done|]. intros m' [= <-]. lia.
        - set (w' := mkWorld (w_embedder w) (w_late w) (fun _ g => g)).
          destruct (multiple_good w' false true false true false S T 0 None) as (j' & l & E & H1 & H2 & _); [done..|intros i g; apply same_refl|].
          exists j', l. split; [|split; [done|split; [done|done]]]. rewrite <- E. unfold find_multiple_embeddings. cbn [negb]. 
          destruct (length (nx_nodes S) =? 0); [done|]. clear. generalize (@nil (pyemb A)) as l. generalize (@None (nxgraph A)) as own.
          set (k := Z.to_nat _). set (b := (1 <? _)%Z). generalize (0 + 2). clearbody k b. revert T. induction k as [|k IH]; intros T i own l; cbn [multi_loop]; [done|].
          destruct (feasibility_filter _ _ _ _) as [[]|]; cbn [rbind negb]; [|done|done]. change (w_late w' i) with (w_late w i). destruct (w_late w i); [done|].
          change (w_embedder w') with (w_embedder w). destruct (w_embedder w _ _ _); [done|]. destruct b; [|apply IH].
          destruct (taken _ _); cbn [rbind]; [|done]. destruct l; [apply IH|]. destruct own; apply IH. }
      destruct Hgoal as (j' & l & E & H1 & H2 & H3). rewrite E in H. injection H as <- <- <-. done. }
  intros H.
  assert (H' : match ft with
    | None => Err Corrupt
    | Some (fam, t) =>
        let own := if match sa_max a with Some 1%Z => negb (sa_seed a) | _ => false end then None else Some T in
        let! pre :=
          match sa_tile a with
          | Some tile =>
              if sa_filter a then
                let! b := feasibility_filter S tile (sa_tile_is_S a) (negb o) in
                Ok (if (b : bool) then Some tile else None)
              else Ok (Some tile)
          | None =>
              let size := default 0 (sa_size a) in
              if sa_filter a then
                let! bound := lattice_size_lower_bound generator greedy_color fuel S (Some (T, fam, t)) None None (negb o) in
                match bound with
                | None => Ok None
                | Some b => Ok (if size <? b then None else Some (generator fam t size))
                end
              else Ok (Some (generator fam t size))
          end in
        match pre with
        | None => Ok (0, T, [])
        | Some tile =>
            let is_S := match sa_tile a with Some _ => sa_tile_is_S a | None => false end in
            let! tile_ok := match sa_tile_emb a with
                            | None => Ok true
                            | Some te => valid_embedding o te S tile
                            end in
            if negb tile_ok then Err Corrupt
            else
              let given := match sa_tile_emb a with Some _ => true | None => false end in
              let use_tile := default (is_S || given) (sa_use_tile a) in
              let trivial := use_tile && negb given && is_S in
              let tile_emb := if trivial then Some ((fun q => (q, if o then Chain [q] else Node q)) <$> nx_nodes tile) else sa_tile_emb a in
              let use_filter := sa_filter a && negb given && negb trivial in
              let! r :=
                if use_filter || (use_tile && match tile_emb with None => true | Some _ => false end) then
                  let! d := find_multiple_embeddings w 1 S tile (Some 1%Z) false false false (negb (w_late w 0)) is_S in
                  match d.2 with
                  | [] => Ok None
                  | te :: _ =>
                      if use_tile then
                        let! qs := taken o te in
                        Ok (Some (d.1.1, Some te, nx_subgraph tile qs))
                      else Ok (Some (d.1.1, tile_emb, tile))
                  end
                else Ok (Some (1, tile_emb, tile)) in
              match r with
              | None => Ok (1, T, [])
              | Some (i, tile_emb, tile) =>
                  if length (nx_nodes S) =? 0 then Err UB
                  else
                    let n := Z.of_nat (length (nx_nodes T) `div` length (nx_nodes S)) in
                    let n := match sa_max a with None => n | Some m => Z.min n m end in
                    sub_loop w (mappings fam tile T) S tile n use_filter o (if use_tile then tile_emb else None) i T own []
              end
        end
    end = Ok (j, T', embs)).
  { rewrite <- H. destruct (sa_tile a), (sa_size a); try done. by destruct Hts. }
  clear H. rename H' into H. destruct ft as [[fam t]|]; [|done]. cbv zeta in H.
  set (own := if match sa_max a with Some 1%Z => negb (sa_seed a) | _ => false end then None else Some T) in H.
  match type of H with (rbind ?p _ = _) => destruct p as [pre|] eqn:Epre; [|done] end. cbn [rbind] in H.
  destruct pre as [tile|]; [|by apply (Nil 0 0)].
  assert (Hwt : nx_wf tile /\ (forall t0, sa_tile a = Some t0 -> tile = t0)).
  { destruct (sa_tile a) as [t0|] eqn:Et0.
    - assert (tile = t0) as ->; [|split; [by apply Htile|congruence]]. destruct (sa_filter a); [|congruence].
      destruct (feasibility_filter _ _ _ _) as [[]|]; cbn [rbind] in Epre; congruence.
    - split; [|done]. destruct (sa_filter a).
      + destruct (lattice_size_lower_bound _ _ _ _ _ _ _ _) as [[b|]|]; cbn [rbind] in Epre; [|done|done]. destruct (_ <? b); [done|]. injection Epre as <-. apply Hgen.
      + injection Epre as <-. apply Hgen. }
  destruct Hwt as [Hwt Htt]. clear Epre.
  set (is_S := match sa_tile a with Some _ => sa_tile_is_S a | None => false end) in H.
  assert (HisS' : is_S = true -> tile = S).
  { subst is_S. destruct (sa_tile a) as [t0|] eqn:Et0; [|done]. intros E. specialize (HisS E). rewrite (Htt t0 eq_refl). congruence. }
  match type of H with (rbind ?p _ = _) => destruct p as [tile_ok|]; [|done] end. cbn [rbind] in H. destruct tile_ok; cbn [negb] in H; [|done].
  set (given := match sa_tile_emb a with Some _ => true | None => false end) in H.
  set (use_tile := default (is_S || given) (sa_use_tile a)) in H.
  set (trivial := use_tile && negb given && is_S) in H.
  set (tile_emb := if trivial then Some ((fun q => (q, if o then Chain [q] else Node q)) <$> nx_nodes tile) else sa_tile_emb a) in H.
  set (use_filter := sa_filter a && negb given && negb trivial) in H.
  assert (Htemb : forall te, tile_emb = Some te -> NoDup te.*1 /\ forall k, k ∈ te.*1 -> k ∈ nx_nodes S).
  { subst tile_emb. destruct trivial eqn:Etr; [|done]. intros te [= <-].
    rewrite self_keys. subst trivial. apply andb_true_iff in Etr as [_ Etr]. rewrite (HisS' Etr). split; [apply HwS|done]. }
  match type of H with (rbind ?p _ = _) => destruct p as [r|] eqn:Er; [|done] end. cbn [rbind] in H.
  destruct r as [[[i1 temb1] tile1]|]; [|by apply (Nil 1 0)].
  assert (Hr : (forall te, temb1 = Some te -> NoDup te.*1 /\ forall k, k ∈ te.*1 -> k ∈ nx_nodes S) /\ (use_tile = true -> temb1 <> None)).
  { destruct (use_filter || (use_tile && match tile_emb with None => true | Some _ => false end)) eqn:Ec.
    - destruct (nested_good w o false (negb (w_late w 0)) is_S S tile 1 1) as (j' & l & E & H1 & H2 & H3); [done..|right; lia|].
      rewrite E in Er. cbn [rbind fst snd] in Er. destruct l as [|te l]; [done|]. destruct use_tile eqn:Eu.
      + destruct (taken o te) as [qs|]; [|done]. cbn [rbind] in Er. injection Er as <- <- <-. split; [|done]. intros te' [= <-].
        assert (Hgte := H1 te ltac:(left)). split; apply Hgte.
      + injection Er as <- <- <-. split; [done|done].
    - injection Er as <- <- <-. split; [done|]. intros Eu. rewrite Eu in Ec. apply orb_false_iff in Ec as [_ Ec]. cbn [andb] in Ec. by destruct tile_emb. }
  destruct Hr as [Hr1 Hr2]. destruct (length (nx_nodes S) =? 0); [done|].
  set (d := Z.of_nat (length (nx_nodes T) `div` length (nx_nodes S))) in H.
  set (n := match sa_max a with None => d | Some m => Z.min d m end) in H.
  assert (Hgoal : T' = T /\ (forall e, e ∈ embs -> good_emb o S T e) /\ all_disjoint embs /\ (Z.of_nat (length embs) <= Z.max 1 n)%Z).
  { eapply (sub_good w o use_filter S tile1 T n (if use_tile then temb1 else None)); [done|done|done|done| | | | | | | | |exact H].
    - destruct Hcase as [?|[E|[_ Hc]]]; [auto|right; right; subst n; rewrite E; lia|]. left.
      assert (use_tile = true) as Eu; [|rewrite Eu; by apply Hr2]. subst use_tile. destruct Hc as [->|[-> Hc]]; [done|]. cbn [default].
      apply orb_true_iff. destruct Hc as [Hc|Hc]; [right; subst given; by destruct (sa_tile_emb a)|]. left. subst is_S. rewrite (HisS Hc). done.
    - destruct use_tile; [done|]. intros te [=].
    - subst own. destruct (match sa_max a with Some 1%Z => negb (sa_seed a) | _ => false end); apply rest_same; try done; apply same_refl.
    - subst own. intros Eo. split; [done|]. subst n. destruct (sa_max a) as [[|[]|]|]; try done. lia.
    - intros e He. by apply elem_of_nil in He.
    - apply all_disjoint_nil.
    - simpl. lia.
    - done. }
  destruct Hgoal as (G1 & G2 & G3 & G4). split; [done|]. split; [done|]. split; [done|]. intros m Em. subst n. rewrite Em in G4. lia.
Qed.
End sub.
