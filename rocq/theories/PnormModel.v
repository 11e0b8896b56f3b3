(** Model of the objective function that p_norm of minorminer/layout/layout.py minimises, for p = 1 and p = infinity, and of
    the distances it compares with.  Coordinates are rational numbers instead of floating point numbers.  Arrays are
    functions of their indices.  The minimisation itself (scipy's L-BFGS-B) is not modelled. *)
From Coq Require Import QArith Qabs.
From stdpp Require Import base list numbers.
From Verif Require Import Base.

(** a sum over the indices below [n] *)
Fixpoint qsum (n : nat) (f : nat -> Q) : Q := match n with 0 => 0%Q | S n => (qsum n f + f n)%Q end.

(** layout.py 139-169 [_graph_distance_matrix].  [lengths]: what networkx computes, for every node in the order of
    the graph its distances to the nodes it reaches; [given]: the distances passed by the caller, which
    are looked at only to see whether there are any. *)
Definition distance_matrix (lengths : list (nat * list (nat * Q))) (given : option (list (nat * list (nat * Q)))) (disconnected : option Q) : list (list Q) :=
  let all_pairs := match given with Some g => g | None => lengths end in
  let far := match disconnected with Some x => x | None => inject_Z (Z.of_nat (length lengths)) end in
  (fun V : nat * list (nat * Q) => (fun v => match list_find (fun e => e.1 = v) V.2 with Some (_, e) => e.2 | None => far end) <$> lengths.*1) <$> lengths.

Section objective.
  (** 172-238 [_p_norm_objective] with [p = 1]; [v] is the vector of all coordinates, [G] the matrix of distances *)
  Context (n dim : nat) (v : nat -> Q) (G : nat -> nat -> Q).
  (** [layout_vector.reshape(n, dim)] *)
  Definition pos (i k : nat) : Q := v (i * dim + k).
  Definition diff (i j k : nat) : Q := (pos i k - pos j k)%Q.
  Definition dist1 (i j : nat) : Q := qsum dim (fun k => Qabs (diff i j k)).
  (** [np.sum((G_distances - dist)**2)] *)
  Definition objective1 : Q := qsum n (fun i => qsum n (fun j => (G i j - dist1 i j) * (G i j - dist1 i j)))%Q.
  (** the gradient at index [i * dim + k].  Where [diff] is 0, [np.nan_to_num(1/np.abs(diff))] is the greatest
      number of floating point; it is multiplied by 0, and so is [Qinv 0 = 0]. *)
  Definition gradient1 (i k : nat) : Q := qsum n (fun j => 2 * diff i j k * (dist1 i j - G i j) * / Qabs (diff i j k))%Q.
End objective.

Section infinity.
  (** 172-238 with [p = float("inf")] *)
  Context (n dim : nat) (v : nat -> Q) (G : nat -> nat -> Q).
  Fixpoint qmax (m : nat) (f : nat -> Q) : Q := match m with 0 => 0%Q | S m => let x := qmax m f in if Qle_bool x (f m) then f m else x end.
  (** [np.linalg.norm(diff, ord=inf)]: the greatest absolute value *)
  Definition distinf (i j : nat) : Q := qmax dim (fun k => Qabs (diff dim v i j k)).
  Definition objectiveinf : Q := qsum n (fun i => qsum n (fun j => (G i j - distinf i j) * (G i j - distinf i j)))%Q.
  (** [x_bigger] *)
  Definition x_bigger (i j : nat) : bool := negb (Qle_bool (Qabs (diff dim v i j 0)) (Qabs (diff dim v i j 1))).
  (** [np.dstack((x_bigger, np.logical_not(x_bigger)))] has two layers: with one dimension there is no index 1, and with more
      than two the shapes do not match; both are exceptions *)
  Definition gradientinf (i k : nat) : res Q :=
    if negb (dim =? 2) then Err BadInit else
    Ok (qsum n (fun j => 2 * diff dim v i j k * (distinf i j - G i j) * / Qabs (diff dim v i j k) * (if (if k =? 0 then x_bigger i j else negb (x_bigger i j)) then 1 else 0)))%Q.
End infinity.
