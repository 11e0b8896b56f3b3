(** Outcomes that a correct run may have: a result satisfying the postcondition or one of the
    exceptions in [ov]; never undefined behaviour, never exhausted fuel. *)
From stdpp Require Import base list numbers.
From Verif Require Import Base.

Definition wpo (ov : err -> Prop) {A} (r : res A) (P : A -> Prop) : Prop :=
  match r with Ok x => P x | Err UB => False | Err OOF => False | Err x => ov x end.

Lemma wpr_ok {ov : err -> Prop} {A} (x : A) (P : A -> Prop) : P x -> wpo ov (Ok x) P.
Proof. done. Qed.
Lemma wpr_bind {ov : err -> Prop} {A B} (r : res A) (f : A -> res B) P : wpo ov r (fun x => wpo ov (f x) P) -> wpo ov (rbind r f) P.
Proof. destruct r as [|[]]; done. Qed.
Lemma wpr_mono {ov : err -> Prop} {A} (r : res A) (P Q : A -> Prop) : wpo ov r P -> (forall x, P x -> Q x) -> wpo ov r Q.
Proof. destruct r as [|[]]; simpl; auto. Qed.
Lemma wpr_step {ov : err -> Prop} {A B} (r : res A) (f : A -> res B) (P : A -> Prop) Q :
  wpo ov r P -> (forall x, P x -> wpo ov (f x) Q) -> wpo ov (rbind r f) Q.
Proof. intros H G. apply wpr_bind. eapply wpr_mono; eauto. Qed.
Lemma wpr_ex {ov : err -> Prop} {A} (r : res A) (P : A -> Prop) : (exists x, r = Ok x /\ P x) -> wpo ov r P.
Proof. by intros (x & -> & H). Qed.
Lemma wpr_vget {ov : err -> Prop} {A B} (l : list A) i x (f : A -> res B) P : l !! i = Some x -> wpo ov (f x) P -> wpo ov (rbind (vget l i) f) P.
Proof. intros H G. by rewrite (vget_ok _ _ _ H). Qed.
Lemma wpr_vset {ov : err -> Prop} {A B} (l : list A) i x (f : list A -> res B) P : i < length l -> wpo ov (f (<[i:=x]> l)) P ->
  wpo ov (rbind (vset l i x) f) P.
Proof. intros H G. by rewrite (vset_ok _ _ _ H). Qed.
Lemma wpr_inv {ov : err -> Prop} {A} (r : res A) (P : A -> Prop) x : wpo ov r P -> r = Ok x -> P x.
Proof. intros H ->. done. Qed.

Lemma wpr_foldM {ov : err -> Prop} {A S} (f : S -> A -> res S) (I : list A -> S -> Prop) l s :
  I [] s ->
  (forall done x rest s, l = done ++ x :: rest -> I done s -> wpo ov (f s x) (I (done ++ [x]))) ->
  wpo ov (foldM f l s) (I l).
Proof.
  intros H0 Hs.
  enough (G : forall rest done s, l = done ++ rest -> I done s -> wpo ov (foldM f rest s) (I l)) by (apply (G l []); auto).
  induction rest as [|x rest IH]; intros dn s' El HI.
  - simpl. by rewrite El, app_nil_r.
  - simpl. eapply wpr_step; [by eapply Hs|]. intros s'' HI'. apply (IH (dn ++ [x])); [|done].
    by rewrite <- app_assoc.
Qed.

Lemma wpr_weak {ov ov' : err -> Prop} {A} (r : res A) P : wpo ov r P -> (forall x, ov x -> ov' x) -> wpo ov' r P.
Proof. destruct r as [|[]]; simpl; auto. Qed.

(** what a run may raise besides [BadInit]: an interrupt when not interactive, and overflow
    unless the input is safe ([sf]) *)
Definition runerr (sf interactive : bool) (x : err) : Prop :=
  (x = Overflow /\ sf = false) \/ (x = Cancelled /\ interactive = false).
