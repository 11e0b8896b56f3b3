(** What it means that threads end in a given memory under every schedule. *)
From stdpp Require Import base list numbers gmap.
From Verif Require Import Base ChainModel EmbModel SpecEmb QueueModel PathModel ConcModel.

(** executions, with the list of what each thread did *)
Inductive runs (s : cst) : list (nat * act) -> cst -> Prop :=
| runs_nil : runs s [] s
| runs_snoc tr s1 e s2 : runs s tr s1 -> cstep e s1 s2 -> runs s (tr ++ [e]) s2.

Definition start (ts : list prog) (m : mem) : cst := mkC ts m None.

(** two threads about to access the same word, one of them to write it *)
Definition race (s : cst) : Prop := exists i j c x k, i <> j /\ c_thr s !! i = Some (Put c x k) /\
  ((exists y k', c_thr s !! j = Some (Put c y k')) \/ exists k', c_thr s !! j = Some (Get c k')).

(** Every schedule: all executions are finite, none reaches a data race, and none gets stuck
    before all threads have returned; then the memory is [m'] and the mutex is free *)
Record ends (ts : list prog) (m m' : mem) : Prop := {
  en_finite : exists n, forall tr s, runs (start ts m) tr s -> length tr <= n;
  en_no_race : forall tr s, runs (start ts m) tr s -> ~ race s;
  en_result : forall tr s, runs (start ts m) tr s -> (exists e s', cstep e s s') \/ s = mkC (replicate (length ts) Ret) m' None
}.

(** pathfinder.hpp:829: the maximum of thread_weight *)
Definition max_list (l : list Z) : res Z := match l with [] => Err UB | x :: l => Ok (foldl Z.max x l) end.

(** the main thread of pathfinder.hpp:826-857 with [nt] worker threads: every schedule of each
    parallel section ends in the memory from which the next one starts *)
Inductive threaded (e : env) (nt : nat) (nbrs : list nat) (wbd : Z) (em : emb) (u : nat) (m0 : mem) (b' : search) : Prop :=
| threaded_intro m1 mw m2 m3 b4 m4 :
    ends (map (max_P em) (chunks (nq (pb e)) nt)) m0 m1 ->
    max_list (m_tw m1) = Ok mw ->
    ends (map (weights_P e mw em u) (chunks (nq (pb e)) nt)) m1 m2 ->
    ends (replicate nt (worker_P (S (length nbrs)) (pb e) em wbd (perm (m_sr m2)) nbrs u)) (mkMem (m_sr m2) (m_tw m2) 0 0) m3 ->
    foldM (fun b v => accumulate_at_chain (pb e) em wbd v b) nbrs (m_sr m3) = Ok b4 ->
    ends (map (totals_P (pb e) em wbd nbrs) (chunks (nq (pb e)) nt)) (set_m m3 b4) m4 ->
    m_sr m4 = b' ->
    threaded e nt nbrs wbd em u m0 b'.

(** an entry of a row of [v] *)
Definition on_row (v : nat) (c : cell) : Prop :=
  match c with CVis v' _ | CDist v' _ | CPar v' _ => v' = v | _ => False end.
Global Instance on_row_dec v c : Decision (on_row v c).
Proof. destruct c; simpl; apply _. Defined.
(** the cell an action accesses *)
Definition acts_on (v : nat) (e : nat * act) : Prop :=
  match e.2 with AGet c | APut c _ => on_row v c | _ => False end.
Global Instance acts_on_dec v e : Decision (acts_on v e).
Proof. destruct e as [i []]; unfold acts_on; simpl; apply _. Defined.
