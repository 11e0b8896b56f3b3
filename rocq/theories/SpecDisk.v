(** What is claimed of the file cache, in terms of files, processes and executions. *)
From stdpp Require Import base list list_numbers numbers gmap option.
From Verif Require Import DiskModel.

(** the file [n] exists and holds [b] *)
Definition holds (s : dstate) (n : nat) (b : list nat) : Prop :=
  exists i, ds_dir s !! (n, false) = Some i /\ ds_data s !! i = Some b.
(** [b] is the complete contents of one dump into the file [n] *)
Definition whole (s : dstate) (n : nat) (b : list nat) : Prop :=
  exists d, b = pickle d /\ (n, d) ∈ ds_dumps s.

(** the crashes that tear nothing: not in the middle of a dump *)
Definition clean (s : dstate) (a : action) : Prop :=
  match a with
  | Crash p => match ds_procs s !! p with Some (Write _ _ _ _ _) => False | _ => True end
  | _ => True
  end.

(** an execution in which no process dies in the middle of a dump *)
Fixpoint run_clean (cap : nat) (s : dstate) (l : list action) : Prop :=
  match l with
  | [] => True
  | a :: l => clean s a /\ match act cap s a with Some s' => run_clean cap s' l | None => True end
  end.

(** the thread an action belongs to *)
Definition actor (a : action) : nat :=
  match a with Call p _ | Acquire p | Hit p | Miss p _ | Put p _ | Go p | Crash p => p end.
Definition finished (q : pstate) : bool :=
  match q with Done | Raised | Crashed => true | _ => false end.
(** nobody is inside a call *)
Definition at_rest (s : dstate) : Prop := forall p q, ds_procs s !! p = Some q -> finished q = true.
(** an execution without crashes in which calls do not overlap *)
Fixpoint one_at_a_time (cap : nat) (s : dstate) (l : list action) : Prop :=
  match l with
  | [] => True
  | a :: l =>
      (forall p, a <> Crash p)
      /\ (forall p q, ds_procs s !! p = Some q -> p <> actor a -> finished q = true)
      /\ match act cap s a with Some s' => one_at_a_time cap s' l | None => True end
  end.
(** an execution without crashes *)
Definition no_crash (l : list action) : Prop := forall p, Crash p ∉ l.
