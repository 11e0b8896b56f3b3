(** Common base of the model: outcomes, the error monad, bounds-checked vectors. *)
From stdpp Require Import base list numbers gmap.

(** What a modelled C++ function can do besides returning normally.
    [UB]      undefined behaviour (index out of range, dereferencing [end()], ...)
    [OOF]     a loop ran out of the fuel given to it by the model
    [BadInit] BadInitializationException   (include/find_embedding/util.hpp)
    [Corrupt] CorruptParametersException   (include/find_embedding/util.hpp)
    [TooSmall] MinorMinerException "problem has too few nodes or edges"
    [Cancelled] ProblemCancelledException propagated to the caller
    [Overflow] a signed 64-bit addition of distances overflowed (undefined behaviour in C++,
               kept apart from [UB] because it depends on the weight table, see C29) *)
Inductive err := UB | OOF | BadInit | Corrupt | TooSmall | Cancelled | Overflow.

Inductive res (A : Type) := Ok (a : A) | Err (e : err).
Arguments Ok {_} _.
Arguments Err {_} _.

Definition rbind {A B} (x : res A) (f : A -> res B) : res B :=
  match x with Ok a => f a | Err e => Err e end.

Declare Scope res_scope.
Delimit Scope res_scope with res.
Notation "'let!' x := e 'in' k" := (rbind e (fun x => k))
  (at level 200, x pattern, e at level 100, k at level 200, right associativity) : res_scope.
Open Scope res_scope.

(** [v[i]] on a vector: out of range is undefined behaviour. *)
Definition vget {A} (l : list A) (i : nat) : res A :=
  match l !! i with Some x => Ok x | None => Err UB end.

(** [v[i] = x]: out of range is undefined behaviour. *)
Definition vset {A} (l : list A) (i : nat) (x : A) : res (list A) :=
  match l !! i with Some _ => Ok (<[i := x]> l) | None => Err UB end.

(** [v[i] += d] *)
Definition vadd (l : list Z) (i : nat) (d : Z) : res (list Z) :=
  match l !! i with Some x => Ok (<[i := (x + d)%Z]> l) | None => Err UB end.

(** a [for] loop over a range, with early exit only by error *)
Fixpoint foldM {A S} (f : S -> A -> res S) (l : list A) (s : S) : res S :=
  match l with
  | [] => Ok s
  | x :: l => let! s' := f s x in foldM f l s'
  end.

Lemma foldM_app {A S} (f : S -> A -> res S) l1 l2 s :
  foldM f (l1 ++ l2) s = (let! s' := foldM f l1 s in foldM f l2 s').
Proof.
  revert s; induction l1 as [|x l1 IH]; intros s; simpl; [done|].
  destruct (f s x); simpl; auto.
Qed.

(** invariant rule for [foldM]: the index list processed so far is tracked *)
Lemma foldM_inv {A S} (f : S -> A -> res S) (I : list A -> S -> Prop) l s :
  I [] s ->
  (forall done x rest s, l = done ++ x :: rest -> I done s -> exists s', f s x = Ok s' /\ I (done ++ [x]) s') ->
  exists s', foldM f l s = Ok s' /\ I l s'.
Proof.
  intros H0 Hs.
  enough (G : forall rest done s, l = done ++ rest -> I done s ->
     exists s', foldM f rest s = Ok s' /\ I l s') by (apply (G l []); auto).
  induction rest as [|x rest IH]; intros dn s' -> HI.
  - exists s'. split; [done|]. by rewrite app_nil_r.
  - destruct (Hs dn x rest s') as (s'' & E & HI'); [done..|].
    simpl. rewrite E. simpl. apply (IH (dn ++ [x]) s''); [|done].
    by rewrite <- app_assoc.
Qed.

(** partial-correctness version: whatever [foldM] returns, the invariant holds *)
Lemma foldM_inv_ok {A S} (f : S -> A -> res S) (I : list A -> S -> Prop) l s s1 :
  I [] s ->
  (forall done x rest s s', l = done ++ x :: rest -> I done s -> f s x = Ok s' -> I (done ++ [x]) s') ->
  foldM f l s = Ok s1 -> I l s1.
Proof.
  intros H0 Hs.
  enough (G : forall rest done s, l = done ++ rest -> I done s ->
     foldM f rest s = Ok s1 -> I l s1) by (apply (G l []); auto).
  induction rest as [|x rest IH]; intros dn s' -> HI; simpl.
  - intros [= <-]. by rewrite app_nil_r.
  - destruct (f s' x) as [s''|] eqn:E; simpl; [|done].
    intros HF. eapply (IH (dn ++ [x])); [by rewrite <- app_assoc| |done].
    eapply Hs; eauto.
Qed.

Lemma vget_ok {A} (l : list A) i x : l !! i = Some x -> vget l i = Ok x.
Proof. unfold vget. by intros ->. Qed.
Lemma vget_inv {A} (l : list A) i x : vget l i = Ok x -> l !! i = Some x.
Proof. unfold vget. destruct (l !! i); congruence. Qed.
Lemma vset_ok {A} (l : list A) i x : i < length l -> vset l i x = Ok (<[i:=x]> l).
Proof.
  intros H. unfold vset. destruct (lookup_lt_is_Some_2 l i H) as [? ->]. done.
Qed.
Lemma vset_inv {A} (l l' : list A) i x :
  vset l i x = Ok l' -> i < length l /\ l' = <[i:=x]> l.
Proof.
  unfold vset. destruct (l !! i) eqn:E; [|done]. intros [= <-].
  split; [|done]. by eapply lookup_lt_Some.
Qed.

(** value of a weight vector, 0 outside its range *)
Definition wt (w : list Z) (q : nat) : Z := default 0%Z (w !! q).

Lemma vadd_ok w q d : q < length w ->
  exists w', vadd w q d = Ok w' /\ length w' = length w /\
    forall x, wt w' x = (wt w x + if decide (x = q) then d else 0)%Z.
Proof.
  intros H. unfold vadd. destruct (lookup_lt_is_Some_2 w q H) as [y E]. rewrite E.
  eexists; split; [done|]. split; [by rewrite insert_length|].
  intros x. unfold wt. destruct (decide (x = q)) as [->|N].
  - rewrite list_lookup_insert, E by done. done.
  - rewrite list_lookup_insert_ne by done. lia.
Qed.
