(** The dynamic programme of [nativeCliqueEmbed]. *)
From Coq Require Import Sorted.
From stdpp Require Import base list numbers gmap.
From Verif Require Import Base NxModel PyCacheModel PolyModel PolyProofs1.

Notation entry := (nat * option rect * option rect * nat)%type.
Definition rw (R : rect) : Z := let '(a, b, c, d) := R in (b - a)%Z.
Definition step_ell (XY : rect * rect) : rect := let '((x0, x1, _, _), (y0, y1, _, _)) := XY in (x0, x1, y0, y1).
Definition step_next (XY : rect * rect) : rect := let '((_, _, nx0, nx1), (_, _, ny0, ny1)) := XY in (nx0, nx1, ny0, ny1).

Lemma elem_of_steps P xmin xmax ymin ymax X Y : (X, Y) ∈ steps P (xmin, xmax, ymin, ymax) <->
  (X = (xmin, xmax, xmin + 1, xmax) \/ X = (xmax, xmin, xmin, xmax - 1))%Z /\
  ((Y = (ymin - 1, ymax, ymin - 1, ymax) /\ 0 <= ymin - 1 <= ymax /\ ymax < Z.of_nat (ed_N P)) \/
   (Y = (ymax + 1, ymin, ymin, ymax + 1) /\ 0 <= ymin <= ymax + 1 /\ ymax + 1 < Z.of_nat (ed_N P)))%Z.
Proof.
  unfold steps. split.
  - intros (X' & (Y' & HX & HY)%elem_of_list_bind & H)%elem_of_list_bind.
    destruct X' as [[[? ?] ?] ?], Y' as [[[? ?] ny0] ny1]. 
    destruct ((0 <=? ny0) && (ny0 <=? ny1) && (ny1 <? Z.of_nat (ed_N P)))%Z eqn:E; [|by apply elem_of_nil in HX].
    apply elem_of_list_singleton in HX. injection HX as -> ->.
    apply andb_true_iff in E as [[E1 E2]%andb_true_iff E3]. apply Z.leb_le in E1, E2. apply Z.ltb_lt in E3.
    rewrite !elem_of_cons, elem_of_nil in H. rewrite !elem_of_cons, elem_of_nil in HY.
    split; [tauto|]. destruct HY as [HY|[HY|[]]]; injection HY as -> -> -> ->; [left|right]; (split; [done|lia]).
  - intros [HX HY]. apply elem_of_list_bind. exists X. split; [|rewrite !elem_of_cons; tauto].
    apply elem_of_list_bind. destruct HY as [(-> & H1 & H2)|(-> & H1 & H2)].
    + eexists. split; [|by left]. simpl.
      rewrite (proj2 (Z.leb_le 0 _)), (proj2 (Z.leb_le _ ymax)), (proj2 (Z.ltb_lt _ _)) by lia. by left.
    + eexists. split; [|right; by left]. simpl.
      rewrite (proj2 (Z.leb_le 0 _)), (proj2 (Z.leb_le _ (ymax + 1))), (proj2 (Z.ltb_lt _ _)) by lia. by left.
Qed.

Lemma elem_of_rectangles P width xmin xmax ymin ymax : (xmin, xmax, ymin, ymax) ∈ rectangles P width <->
  (0 <= xmin <= xmax /\ xmax - xmin <= Z.of_nat width + 1 /\ xmax < Z.of_nat (ed_M P) /\
   0 <= ymin /\ ymax - ymin = Z.of_nat width - (xmax - xmin) - 2 /\ ymax < Z.of_nat (ed_N P))%Z.
Proof.
  unfold rectangles. split.
  - intros (w & (y & (x & Hx & Hxs)%elem_of_list_bind & Hy)%elem_of_list_bind & Hw)%elem_of_list_bind.
    apply elem_of_list_singleton in Hx. injection Hx as -> -> -> ->.
    apply elem_of_seqZ in Hxs, Hy, Hw. lia.
  - intros H. apply elem_of_list_bind. exists (xmax - xmin)%Z. split; [|apply elem_of_seqZ; lia].
    apply elem_of_list_bind. exists ymin. split; [|apply elem_of_seqZ; lia].
    apply elem_of_list_bind. exists xmin. split; [|apply elem_of_seqZ; lia].
    apply elem_of_list_singleton. repeat f_equal; lia.
Qed.
Lemma step_next_in P width R XY : R ∈ rectangles P width -> XY ∈ steps P R -> (0 < rw R)%Z -> step_next XY ∈ rectangles P width.
Proof.
  destruct R as [[[xmin xmax] ymin] ymax], XY as [X Y]. rewrite elem_of_rectangles, elem_of_steps. simpl rw.
  intros HR [[-> | ->] [(-> & H1 & H2)|(-> & H1 & H2)]] Hw; simpl; apply elem_of_rectangles; lia.
Qed.
Lemma step_next_rw P R XY : XY ∈ steps P R -> rw (step_next XY) = (rw R - 1)%Z.
Proof.
  destruct R as [[[xmin xmax] ymin] ymax], XY as [X Y]. rewrite elem_of_steps.
  intros [[-> | ->] [(-> & H1 & H2)|(-> & H1 & H2)]]; simpl; lia.
Qed.
Lemma rw_rectangles P width R : R ∈ rectangles P width -> (0 <= rw R <= Z.of_nat width + 1)%Z.
Proof. destruct R as [[[xmin xmax] ymin] ymax]. rewrite elem_of_rectangles. simpl. lia. Qed.

Lemma sorted_bind {A B} (f : B -> Z) (g : A -> list B) (l : list A) (v : A -> Z) :
  StronglySorted (fun a b => (v a <= v b)%Z) l -> (forall a b, a ∈ l -> b ∈ g a -> f b = v a) ->
  StronglySorted (fun a b => (f a <= f b)%Z) (l ≫= g).
Proof.
  induction 1 as [|a l Hs IH Hall]; intros H; [constructor|]. rewrite bind_cons.
  assert (IH' : StronglySorted (fun a b => (f a <= f b)%Z) (l ≫= g)) by (apply IH; intros; apply H; [by right|done]).
  assert (Hg : forall b, b ∈ g a -> f b = v a) by (intros; apply H; [left|done]).
  assert (Hl : forall b, b ∈ l ≫= g -> (v a <= f b)%Z).
  { intros b (a' & Hb & Ha')%elem_of_list_bind. rewrite (H a' b); [|by right|done]. rewrite Forall_forall in Hall. by apply Hall. }
  clear IH H Hall Hs. induction (g a) as [|b bs IHb]; [done|]. simpl. constructor.
  - apply IHb. intros; apply Hg. by right.
  - apply Forall_forall. intros c [Hc|Hc]%elem_of_app.
    + rewrite (Hg b), (Hg c); [lia|by right|left].
    + rewrite (Hg b) by left. by apply Hl.
Qed.
Lemma rectangles_sorted P width : StronglySorted (fun a b => (rw a <= rw b)%Z) (rectangles P width).
Proof.
  unfold rectangles. apply (sorted_bind _ _ _ (fun w => w)).
  - assert (H : forall n a, StronglySorted (fun a b => (a <= b)%Z) (seqZ a n)); [|apply H].
    intros n. destruct (decide (0 <= n)%Z) as [Hn|Hn]; [|intros a; rewrite seqZ_nil by lia; constructor].
    revert n Hn. apply (natlike_ind (fun n => forall a, StronglySorted (fun a b => (a <= b)%Z) (seqZ a n))).
    + intros a. constructor.
    + intros n Hn IH a. rewrite seqZ_cons by lia. constructor; [replace (Z.pred (Z.succ n)) with n by lia; apply IH|].
      apply Forall_forall. intros z Hz%elem_of_seqZ. lia.
  - intros w b Hw (y & (x & Hb & _)%elem_of_list_bind & _)%elem_of_list_bind.
    apply elem_of_list_singleton in Hb as ->. simpl. lia.
Qed.
Lemma before_in P width pre R post r : rectangles P width = pre ++ R :: post -> r ∈ rectangles P width -> (rw r < rw R)%Z -> r ∈ pre.
Proof.
  intros E Hr Hlt. pose proof (rectangles_sorted P width) as Hs. rewrite E in Hr, Hs. apply elem_of_app in Hr as [Hr|Hr]; [done|].
  exfalso. assert (Hs' : StronglySorted (fun a b => (rw a <= rw b)%Z) (R :: post)).
  { clear -Hs. induction pre as [|a pre IH]; [done|]. simpl in Hs. inversion Hs. auto. }
  inversion Hs' as [|? ? ? Hall]; subst. apply elem_of_cons in Hr as [-> |Hr]; [lia|].
  rewrite Forall_forall in Hall. specialize (Hall _ Hr). simpl in Hall. lia.
Qed.
Lemma after_ge P width pre R post r : rectangles P width = pre ++ R :: post -> r ∈ pre -> (rw r <= rw R)%Z.
Proof.
  intros E Hr. pose proof (rectangles_sorted P width) as Hs. rewrite E in Hs. clear E. induction pre as [|a pre IH]; [by apply elem_of_nil in Hr|].
  simpl in Hs. inversion Hs as [|? ? ? Hall]; subst. apply elem_of_cons in Hr as [-> |Hr]; [|by apply IH].
  rewrite Forall_forall in Hall. apply Hall. apply elem_of_app. right. left.
Qed.

(** ** Values *)
Definition sval (P : eden) (R : rect) (XY : rect * rect) : nat :=
  let '(xmin, xmax, _, _) := R in let '((x0, _, _, _), (y0, _, ny0, ny1)) := XY in
  match hline_score P y0 xmin xmax, vline_score P x0 ny0 ny1 with Ok h, Ok v => h `min` v | _, _ => 0 end.
Definition score_at (cwr : gmap rect entry) (r : rect) : nat := match cwr !! r with Some (s, _, _, _) => s | None => 0 end.
Definition num_at (cwr : gmap rect entry) (r : rect) : nat := match cwr !! r with Some (_, _, _, n) => n | None => 1 end.

Lemma scores_of_step P width R XY : R ∈ rectangles P width -> XY ∈ steps P R ->
  let '(xmin, xmax, _, _) := R in let '((x0, _, _, _), (y0, _, ny0, ny1)) := XY in
  exists h v, hline_score P y0 xmin xmax = Ok h /\ vline_score P x0 ny0 ny1 = Ok v /\
    score_ok P false (Z.to_nat y0) (Z.to_nat xmin) (Z.to_nat xmax) h /\
    score_ok P true (Z.to_nat x0) (Z.to_nat ny0) (Z.to_nat ny1) v.
Proof.
  destruct R as [[[xmin xmax] ymin] ymax], XY as [X Y]. rewrite elem_of_rectangles, elem_of_steps.
  intros HR [HX HY].
  destruct X as [[[x0 x1] nx0] nx1], Y as [[[y0 y1] ny0] ny1].
  assert (Hb : (0 <= y0 < Z.of_nat (ed_N P) /\ 0 <= x0 < Z.of_nat (ed_M P) /\ 0 <= ny0 <= ny1 /\ ny1 < Z.of_nat (ed_N P))%Z).
  { destruct HX as [HX|HX], HY as [[HY ?]|[HY ?]]; injection HX as -> -> -> ->; injection HY as -> -> -> ->; lia. }
  destruct (hline_score_ok P y0 xmin xmax) as (h & Hh & Sh); [lia..|].
  destruct (vline_score_ok P x0 ny0 ny1) as (v & Hv & Sv); [lia..|]. eauto 8.
Qed.

Section dp.
  Context (rnd : nat -> nat).
  Lemma accumulate_cases {A} g count found (old new : A) : 0 < count + found ->
    exists g' x, accumulate_random rnd g count found old new = (count + found, x, g') /\ (x = new \/ (x = old /\ count <> 0)).
  Proof.
    intros H. unfold accumulate_random, randint. destruct (Nat.leb_spec (S (rnd g mod (count + found))) found) as [Hle|Hgt].
    - eexists _, _. split; [done|by left].
    - eexists _, _. split; [done|]. right. split; [done|]. intros ->. pose proof (Nat.mod_upper_bound (rnd g) (0 + found)). lia.
  Qed.

  (** one rectangle: the best over the first steps *)
  Definition good_entry (P : eden) (cwr : gmap rect entry) (R : rect) (XYs : list (rect * rect)) (e : entry) : Prop :=
    let '(sc, ell, par, num) := e in
    1 <= num /\
    (forall XY, XY ∈ XYs -> sval P R XY + score_at cwr (step_next XY) <= sc) /\
    match XYs with
    | [] => sc = 0 /\ ell = None /\ par = None
    | _ => exists XY, XY ∈ XYs /\ ell = Some (step_ell XY) /\ par = Some (step_next XY) /\ sc = sval P R XY + score_at cwr (step_next XY)
    end.
  Definition opt_score (XYs : list (rect * rect)) (e : entry) : option nat := match XYs with [] => None | _ => Some e.1.1.1 end.

  Lemma cwr_step_ok P width R cwr XY bestscore count best g :
    R ∈ rectangles P width -> XY ∈ steps P R -> (forall r e, cwr !! r = Some e -> 1 <= e.2) ->
    exists bestscore' count' best' g', cwr_step rnd P R cwr (bestscore, count, best, g) XY = Ok (bestscore', count', best', g') /\
      let sc := sval P R XY + score_at cwr (step_next XY) in
      let new := (sc, Some (step_ell XY), Some (step_next XY), num_at cwr (step_next XY)) in
      (bestscore' = Some sc /\ best' = new /\ (forall b, bestscore = Some b -> b <= sc)) \/
      (bestscore' = bestscore /\ best' = best /\ exists b, bestscore = Some b /\ sc <= b).
  Proof.
    intros HR HXY Hnum. pose proof (scores_of_step _ _ _ _ HR HXY) as Hsc. unfold cwr_step.
    destruct R as [[[xmin xmax] ymin] ymax], XY as [[[[x0 x1] nx0] nx1] [[[y0 y1] ny0] ny1]].
    destruct Hsc as (h & v & Hh & Hv & _ & _).
    set (r := (nx0, nx1, ny0, ny1)).
    assert (Hr : match cwr !! r with Some (rscore, _, _, nr) => (Some rscore, nr) | None => (None, 1) end =
      (match cwr !! r with Some (rscore, _, _, nr) => Some rscore | None => None end, num_at cwr r)).
    { unfold num_at. by destruct (cwr !! r) as [[[[? ?] ?] ?]|]. }
    rewrite Hr. clear Hr.
    assert (Hn : 1 <= num_at cwr r). { unfold num_at. destruct (cwr !! r) as [[[[? ?] ?] ?]|] eqn:E; [|lia]. apply (Hnum _ _ E). }
    assert (Hc : combine_scores P (match cwr !! r with Some (rscore, _, _, nr) => Some rscore | None => None end) (y0, xmin, xmax) (x0, ny0, ny1)
      = Ok (sval P (xmin, xmax, ymin, ymax) (x0, x1, nx0, nx1, (y0, y1, ny0, ny1)) + score_at cwr r)).
    { unfold combine_scores, sval. rewrite Hh, Hv. cbn [rbind]. unfold score_at. f_equal.
      destruct (cwr !! r) as [[[[? ?] ?] ?]|]; simpl; destruct (Nat.ltb_spec v h); lia. }
    rewrite Hc. clear Hc. cbn [rbind]. cbn zeta. simpl step_next. simpl step_ell. fold r.
    set (sc := sval P (xmin, xmax, ymin, ymax) (x0, x1, nx0, nx1, (y0, y1, ny0, ny1)) + score_at cwr r). clearbody sc.
    destruct bestscore as [b|].
    - destruct (Nat.ltb_spec b sc).
      + rewrite Nat.eqb_refl. destruct (accumulate_cases g 0 (num_at cwr r) best (sc, Some (x0, x1, y0, y1), Some r, num_at cwr r)) as (g' & x & -> & Hx); [lia|].
        eexists _, _, _, _. split; [reflexivity|]. left. destruct Hx as [-> |[_ []]]; [|done]. split_and!; [done|done|]. intros ? [= ->]. lia.
      + destruct (Nat.eqb_spec sc b) as [-> |Hne].
        * destruct (accumulate_cases g count (num_at cwr r) best (b, Some (x0, x1, y0, y1), Some r, num_at cwr r)) as (g' & x & -> & Hx); [lia|].
          eexists _, _, _, _. split; [reflexivity|]. destruct Hx as [-> |[-> _]]; [left|right].
          -- split_and!; [done|done|]. intros ? [= ->]. lia.
          -- split_and!; [done|done|]. eauto.
        * eexists _, _, _, _. split; [reflexivity|]. right. split_and!; [done|done|]. eexists. split; [done|lia].
    - rewrite Nat.eqb_refl. destruct (accumulate_cases g 0 (num_at cwr r) best (sc, Some (x0, x1, y0, y1), Some r, num_at cwr r)) as (g' & x & -> & Hx); [lia|].
      eexists _, _, _, _. split; [reflexivity|]. left. destruct Hx as [-> |[_ []]]; [|done]. split_and!; [done|done|]. intros ? [=].
  Qed.
  Lemma max_clique_ok P width R cwr g : R ∈ rectangles P width -> (forall r e, cwr !! r = Some e -> 1 <= e.2) ->
    exists best g', max_clique_with_rectangle rnd P R cwr g = Ok (opt_score (steps P R) best, best, g') /\ good_entry P cwr R (steps P R) best.
  Proof.
    intros HR Hnum. unfold max_clique_with_rectangle.
    assert (H : forall XYs pre s, steps P R = pre ++ XYs ->
      (let '(bs, _, best, _) := s in bs = opt_score pre best /\ good_entry P cwr R pre best) ->
      exists s', foldM (cwr_step rnd P R cwr) XYs s = Ok s' /\
        let '(bs, _, best, _) := s' in bs = opt_score (steps P R) best /\ good_entry P cwr R (steps P R) best).
    { induction XYs as [|XY XYs IH]; intros pre s Hpre Hs.
      - rewrite app_nil_r in Hpre. rewrite Hpre. exists s. done.
      - destruct s as [[[bs count] best] g0]. destruct Hs as [Hbs Hgood]. simpl.
        assert (HXY : XY ∈ steps P R) by (rewrite Hpre; apply elem_of_app; right; left).
        destruct (cwr_step_ok P width R cwr XY bs count best g0 HR HXY Hnum) as (bs' & count' & best' & g' & -> & Hcase). cbn [rbind].
        apply (IH (pre ++ [XY])); [by rewrite <- app_assoc|].
        assert (Hne : opt_score (pre ++ [XY]) best' = Some best'.1.1.1) by (unfold opt_score; by destruct pre). rewrite Hne.
        assert (Hn : 1 <= num_at cwr (step_next XY)). { unfold num_at. destruct (cwr !! step_next XY) as [[[[? ?] ?] ?]|] eqn:E; [|lia]. apply (Hnum _ _ E). }
        destruct best as [[[sc ell] par] num]. destruct Hgood as (Hg1 & Hg2 & Hg3).
        destruct Hcase as [(-> & -> & Hmax)|(-> & -> & b & Hb & Hle)].
        + split; [done|]. split; [done|]. split.
          * intros XY' [Hin|Hin%elem_of_list_singleton]%elem_of_app; [|by subst].
            etrans; [by apply Hg2|]. apply Hmax. rewrite Hbs. destruct pre; [by apply elem_of_nil in Hin|done].
          * destruct (pre ++ [XY]) eqn:E; [by destruct pre|]. rewrite <- E. exists XY. split_and!; try done. apply elem_of_app. right. left.
        + assert (Hpn : pre <> []) by (intros ->; simpl in Hbs; congruence).
          assert (b = sc) as -> by (destruct pre; simpl in Hbs; congruence).
          split; [by rewrite Hb|]. split; [done|]. split.
          * intros XY' [Hin|Hin%elem_of_list_singleton]%elem_of_app; [by apply Hg2|]. by subst.
          * destruct (pre ++ [XY]) eqn:E; [by destruct pre|]. rewrite <- E. destruct pre as [|p0 pre0] eqn:Epre; [done|].
            destruct Hg3 as (XY' & Hin & ?). exists XY'. split; [|done]. apply elem_of_app. by left. }
    destruct (H (steps P R) [] (None, 0, (0, None, None, 1), g) eq_refl) as (s' & -> & Hs').
    { split; [done|]. split; [lia|]. split; [intros XY HXY; by apply elem_of_nil in HXY|done]. }
    destruct s' as [[[bs count] best] g']. destruct Hs' as [-> Hgood]. eauto.
  Qed.

  (** all rectangles *)
  Definition table (P : eden) (width : nat) (cwr : gmap rect entry) (pre : list rect) : Prop :=
    (forall R, R ∈ pre <-> is_Some (cwr !! R)) /\ (forall R e, cwr !! R = Some e -> good_entry P cwr R (steps P R) e).
  Definition best_of (P : eden) (cwr : gmap rect entry) (pre : list rect) (maxscore : option nat) (key : option rect) : Prop :=
    (pre = [] -> maxscore = None /\ key = None) /\
    (pre <> [] -> exists R e, key = Some R /\ R ∈ pre /\ cwr !! R = Some e /\ maxscore = opt_score (steps P R) e) /\
    (forall R e, R ∈ pre -> cwr !! R = Some e -> steps P R <> [] -> exists m, maxscore = Some m /\ e.1.1.1 <= m).

  Lemma good_entry_num P cwr R XYs e : good_entry P cwr R XYs e -> 1 <= e.2.
  Proof. destruct e as [[[? ?] ?] ?]. by intros [? _]. Qed.
  Lemma good_entry_ext P cwr cwr' R XYs e : (forall XY, XY ∈ XYs -> score_at cwr (step_next XY) = score_at cwr' (step_next XY)) ->
    good_entry P cwr R XYs e -> good_entry P cwr' R XYs e.
  Proof.
    intros H. destruct e as [[[sc ell] par] num]. intros (H1 & H2 & H3). split; [done|]. split.
    - intros XY HXY. rewrite <- H by done. by apply H2.
    - destruct XYs as [|XY0 XYs]; [done|]. destruct H3 as (XY & Hin & -> & -> & ->). exists XY. split_and!; try done. by rewrite H.
  Qed.
  Lemma native_step_ok P width pre R post cwr maxscore count key g : rectangles P width = pre ++ R :: post ->
    table P width cwr pre -> best_of P cwr pre maxscore key ->
    exists cwr' maxscore' count' key' g', native_step rnd P (cwr, maxscore, count, key, g) R = Ok (cwr', maxscore', count', key', g') /\
      table P width cwr' (pre ++ [R]) /\ best_of P cwr' (pre ++ [R]) maxscore' key'.
  Proof.
    intros Heq [T1 T2] (B1 & B2 & B3).
    assert (HR : R ∈ rectangles P width) by (rewrite Heq; apply elem_of_app; right; left).
    destruct (max_clique_ok P width R cwr g HR) as (best & g1 & Hm & Hgood).
    { intros r e Hr. eapply good_entry_num, T2, Hr. }
    assert (Hnum : 1 <= best.2) by by eapply good_entry_num.
    assert (Hsame : forall R', (rw R' <= rw R)%Z -> forall XY, XY ∈ steps P R' -> score_at cwr (step_next XY) = score_at (<[R:=best]> cwr) (step_next XY)).
    { intros R' Hle XY HXY. unfold score_at. rewrite lookup_insert_ne; [done|]. intros E. pose proof (step_next_rw _ _ _ HXY) as Hr. rewrite <- E in Hr. lia. }
    assert (Ht : table P width (<[R:=best]> cwr) (pre ++ [R])).
    { split.
      - intros R'. rewrite elem_of_app, elem_of_list_singleton. destruct (decide (R = R')) as [<-|Hne].
        + rewrite lookup_insert. split; [eauto|by right].
        + rewrite lookup_insert_ne by done. rewrite <- T1. split; [|by left]. intros [?|?]; [done|congruence].
      - intros R' e. destruct (decide (R = R')) as [<-|Hne].
        + rewrite lookup_insert. intros [= <-]. eapply good_entry_ext; [|done]. apply Hsame. lia.
        + rewrite lookup_insert_ne by done. intros He. eapply good_entry_ext; [|by apply T2]. apply Hsame.
          eapply after_ge; [exact Heq|]. apply T1. eauto. }
    assert (Hold : forall R' e, R' ∈ pre -> (<[R:=best]> cwr) !! R' = Some e -> R' = R /\ e = best \/ cwr !! R' = Some e).
    { intros R' e HR'. destruct (decide (R = R')) as [<-|]; [rewrite lookup_insert; intros [= <-]; by left|rewrite lookup_insert_ne by done; by right]. }
    unfold native_step. rewrite Hm. cbn [rbind]. set (score := opt_score (steps P R) best).
    (* the pair after the comparison *)
    set (mck := match maxscore, score with
      | None, _ => (score, 0, None)
      | Some m, Some sc => if m <? sc then (score, 0, None) else (maxscore, count, key)
      | Some m, None => (maxscore, count, key)
      end).
    assert (Hmck : (mck = (score, 0, None) /\ (maxscore = None \/ exists m sc, maxscore = Some m /\ score = Some sc /\ m < sc)) \/
       (mck = (maxscore, count, key) /\ exists m, maxscore = Some m /\ (forall sc, score = Some sc -> sc <= m))).
    { unfold mck. destruct maxscore as [m|]; [|left; eauto]. destruct score as [sc|]; [|right; split; [done|]; eexists; split; [done|]; intros ? [=]].
      destruct (Nat.ltb_spec m sc); [left; split; [done|]; right; eauto|right]. split; [done|]. eexists. split; [done|]. intros ? [= ->]. done. }
    clearbody mck.
    (* the rectangle R itself is a possible result *)
    assert (HnewR : forall R' e, R' ∈ pre ++ [R] -> (<[R:=best]> cwr) !! R' = Some e -> steps P R' <> [] ->
      (R' = R /\ e = best) \/ (exists m, maxscore = Some m /\ e.1.1.1 <= m)).
    { intros R' e HR' He Hs. apply elem_of_app in HR' as [HR'|HR'%elem_of_list_singleton].
      - destruct (Hold R' e HR' He) as [[-> ->]|He']; [by left|]. right. by eapply B3.
      - subst R'. rewrite lookup_insert in He. injection He as <-. by left. }
    assert (Hopt : steps P R <> [] -> score = Some best.1.1.1) by (unfold score, opt_score; by destruct (steps P R)).
    destruct Hmck as [[-> Hc]|[-> (m & -> & Hc)]].
    - rewrite bool_decide_true by done.
      destruct (accumulate_cases g1 0 best.2 None (Some R)) as (g' & x & -> & [-> |[_ []]]); [lia| |done].
      eexists _, _, _, _, _. split; [reflexivity|]. split; [done|]. split; [intros E; by destruct pre|]. split.
      + intros _. exists R, best. split_and!; [done|apply elem_of_app; right; left|apply lookup_insert|done].
      + intros R' e HR' He Hs. destruct (HnewR R' e HR' He Hs) as [[-> ->]|(m & Hm' & Hle)].
        * exists best.1.1.1. split; [by apply Hopt|lia].
        * destruct Hc as [Hc|(m' & sc & Hc1 & Hc2 & Hc3)]; [congruence|]. exists sc. split; [done|]. assert (m = m') by congruence. lia.
    - assert (Hpre : pre <> []). { intros E. destruct (B1 E). done. }
      destruct (B2 Hpre) as (R0 & e0 & -> & HR0 & He0 & Hm0).
      assert (Hbound : forall R' e, R' ∈ pre ++ [R] -> (<[R:=best]> cwr) !! R' = Some e -> steps P R' <> [] -> exists m', Some m = Some m' /\ e.1.1.1 <= m').
      { intros R' e HR' He Hs. destruct (HnewR R' e HR' He Hs) as [[-> ->]|?]; [|done]. exists m. split; [done|]. apply Hc. by apply Hopt. }
      assert (Hkeep : exists e0', (<[R:=best]> cwr) !! R0 = Some e0' /\ (Some m = opt_score (steps P R0) e0')).
      { destruct (decide (R = R0)) as [<-|Hne].
        - exists best. split; [apply lookup_insert|]. rewrite Hm0. unfold opt_score. destruct (steps P R) as [|XY0 XYs] eqn:Es; [done|].
          (* the same rectangle was there before *)
          f_equal. assert (G0 := T2 _ _ He0). destruct e0 as [[[s0 ?] ?] ?], best as [[[s1 ?] ?] ?]. simpl.
          rewrite Es in G0. destruct G0 as (_ & U0 & XY & Hin & _ & _ & E0), Hgood as (_ & U1 & XY' & Hin' & _ & _ & E1).
          specialize (U0 _ Hin'). specialize (U1 _ Hin). lia.
        - exists e0. split; [by rewrite lookup_insert_ne|done]. }
      destruct Hkeep as (e0' & He0' & Hm0').
      case_bool_decide as Hd.
      + destruct (accumulate_cases g1 count best.2 (Some R0) (Some R)) as (g' & x & -> & Hx); [lia|].
        eexists _, _, _, _, _. split; [reflexivity|]. split; [done|]. split; [intros E; by destruct pre|]. split; [|done].
        intros _. destruct Hx as [-> |[-> _]].
        * exists R, best. split_and!; [done|apply elem_of_app; right; left|apply lookup_insert|done].
        * exists R0, e0'. split_and!; [done|apply elem_of_app; by left|done|done].
      + eexists _, _, _, _, _. split; [reflexivity|]. split; [done|]. split; [intros E; by destruct pre|]. split; [|done].
        intros _. exists R0, e0'. split_and!; [done|apply elem_of_app; by left|done|done].
  Qed.
  Lemma native_fold_ok P width g : exists cwr maxscore count key g',
    foldM (native_step rnd P) (rectangles P width) (∅, None, 0, None, g) = Ok (cwr, maxscore, count, key, g') /\
    table P width cwr (rectangles P width) /\ best_of P cwr (rectangles P width) maxscore key.
  Proof.
    assert (H : forall post pre s, rectangles P width = pre ++ post ->
      (let '(cwr, maxscore, _, key, _) := s in table P width cwr pre /\ best_of P cwr pre maxscore key) ->
      exists s', foldM (native_step rnd P) post s = Ok s' /\
        let '(cwr, maxscore, _, key, _) := s' in table P width cwr (rectangles P width) /\ best_of P cwr (rectangles P width) maxscore key).
    { induction post as [|R post IH]; intros pre s Heq Hs.
      - rewrite app_nil_r in Heq. rewrite Heq. exists s. done.
      - destruct s as [[[[cwr maxscore] count] key] g0]. destruct Hs as [Ht Hb]. cbn [foldM].
        destruct (native_step_ok P width pre R post cwr maxscore count key g0 Heq Ht Hb) as (cwr' & maxscore' & count' & key' & g' & -> & Ht' & Hb').
        cbn [rbind]. apply (IH (pre ++ [R])); [by rewrite <- app_assoc|done]. }
    destruct (H (rectangles P width) [] (∅, None, 0, None, g) eq_refl) as (s' & -> & Hs').
    { split.
      - split; [|intros R e; by rewrite lookup_empty]. intros R. rewrite lookup_empty. split; [intros HR; by apply elem_of_nil in HR|by intros [? [=]]].
      - split; [done|]. split; [done|]. intros R e HR. by apply elem_of_nil in HR. }
    destruct s' as [[[[cwr maxscore] count] key] g']. destruct Hs'. eauto 10.
  Qed.
End dp.
