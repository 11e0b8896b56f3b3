(** Model of the worker threads of pathfinder_parallel (pathfinder.hpp:748-858): programs whose
    single accesses to shared memory interleave arbitrarily. *)
From stdpp Require Import base list numbers gmap.
From Verif Require Import Base ChainModel EmbModel QueueModel PathModel.
Local Open Scope Z_scope.

(** Shared words: entries of visited_list, distances, parents (pathfinder.hpp:86-100),
    total_distance, qubit_weight, thread_weight, nbr_i and neighbors_embedded (pathfinder.hpp:757-762).
    The embedding, the problem and qubit_permutations are not written while threads run. *)
Inductive cell :=
  | CVis (v q : nat) | CDist (v q : nat) | CPar (v q : nat)
  | CTot (q : nat) | CQw (q : nat) | CTw (i : nat) | CNext | CCount.
Global Instance cell_eq : EqDecision cell.
Proof. solve_decision. Defined.

Record mem := mkMem { m_sr : search; m_tw : list Z; m_next : Z; m_count : Z }.

Definition vget2 {A} (l : list (list A)) (i j : nat) : res A := let! r := vget l i in vget r j.
Definition vset2 {A} (l : list (list A)) (i j : nat) (x : A) : res (list (list A)) :=
  let! r := vget l i in let! r := vset r j x in vset l i r.

(** a parent as the [int] stored by the code *)
Definition zpar (o : option nat) : Z := match o with Some n => Z.of_nat n | None => -1 end.
Definition parz (x : Z) : option nat := if decide (x < 0) then None else Some (Z.to_nat x).

Definition mget (m : mem) (c : cell) : res Z :=
  match c with
  | CVis v q => vget2 (vis (m_sr m)) v q
  | CDist v q => vget2 (dist (m_sr m)) v q
  | CPar v q => let! o := vget2 (par (m_sr m)) v q in Ok (zpar o)
  | CTot q => vget (total (m_sr m)) q
  | CQw q => vget (qw (m_sr m)) q
  | CTw i => vget (m_tw m) i
  | CNext => Ok (m_next m)
  | CCount => Ok (m_count m)
  end.

Definition set_m (m : mem) (b : search) : mem := mkMem b (m_tw m) (m_next m) (m_count m).
Definition mput (m : mem) (c : cell) (x : Z) : res mem :=
  let b := m_sr m in
  match c with
  | CVis v q => let! l := vset2 (vis b) v q x in Ok (set_m m (mkSr (par b) l (dist b) (total b) (qw b) (perm b)))
  | CDist v q => let! l := vset2 (dist b) v q x in Ok (set_m m (mkSr (par b) (vis b) l (total b) (qw b) (perm b)))
  | CPar v q =>
      if decide (x < -1) then Err UB else
      let! l := vset2 (par b) v q (parz x) in Ok (set_m m (mkSr l (vis b) (dist b) (total b) (qw b) (perm b)))
  | CTot q => let! l := vset (total b) q x in Ok (set_m m (mkSr (par b) (vis b) (dist b) l (qw b) (perm b)))
  | CQw q => let! l := vset (qw b) q x in Ok (set_m m (mkSr (par b) (vis b) (dist b) (total b) l (perm b)))
  | CTw i => let! l := vset (m_tw m) i x in Ok (mkMem b l (m_next m) (m_count m))
  | CNext => Ok (mkMem b (m_tw m) x (m_count m))
  | CCount => Ok (mkMem b (m_tw m) (m_next m) x)
  end.

(** A thread: what it does next to shared memory or to the mutex, and how it goes on *)
Inductive prog :=
  | Ret
  | Fail (x : err)
  | Get (c : cell) (k : Z -> prog)
  | Put (c : cell) (x : Z) (k : prog)
  | Lock (k : prog)
  | Unlock (k : prog).

(** what a step does *)
Inductive act := AGet (c : cell) | APut (c : cell) (x : Z) | ALock | AUnlock.

(** threads, memory, and the thread that holds the mutex [get_job].  A thread at an access that
    fails, at [Fail], or unlocking a mutex it does not hold has no step. *)
Record cst := mkC { c_thr : list prog; c_mem : mem; c_lock : option nat }.
Inductive cstep : nat * act -> cst -> cst -> Prop :=
| cs_get ts m l i c k x : ts !! i = Some (Get c k) -> mget m c = Ok x ->
    cstep (i, AGet c) (mkC ts m l) (mkC (<[i := k x]> ts) m l)
| cs_put ts m l i c x k m' : ts !! i = Some (Put c x k) -> mput m c x = Ok m' ->
    cstep (i, APut c x) (mkC ts m l) (mkC (<[i := k]> ts) m' l)
| cs_lock ts m i k : ts !! i = Some (Lock k) ->
    cstep (i, ALock) (mkC ts m None) (mkC (<[i := k]> ts) m (Some i))
| cs_unlock ts m i k : ts !! i = Some (Unlock k) ->
    cstep (i, AUnlock) (mkC ts m (Some i)) (mkC (<[i := k]> ts) m None).

(** ** programs, in continuation-passing style *)
Definition liftP {A} (r : res A) (K : A -> prog) : prog := match r with Ok a => K a | Err x => Fail x end.
Fixpoint foldP {A S} (f : S -> A -> (S -> prog) -> prog) (l : list A) (s : S) (K : S -> prog) : prog :=
  match l with [] => K s | x :: l => f s x (fun s' => foldP f l s' K) end.

(** embedding_problem.hpp:48-50 and 89-96, one entry; visited_list rows have [nq] entries
    (pathfinder.hpp:119) *)
Definition vis_init (pb : problem) (u v q : nat) : res Z :=
  match masks pb with
  | None => Ok 0
  | Some m => let! x := vget2 m u q in let! y := vget2 m v q in Ok (Z.land x y)
  end.
Definition prep_vis_P (pb : problem) (u v : nat) (K : prog) : prog :=
  foldP (fun (_ : unit) q K => liftP (vis_init pb u v q) (fun x => Put (CVis v q) x (K tt))) (seq 0 (nq pb)) tt (fun _ => K).

(** pathfinder.hpp:463-474 for default_tag; the queue is local to the thread *)
Definition init_fixed_P (pm : list nat) (v q : nat) (pq : pqueue) (p : nat) (K : pqueue -> prog) : prog :=
  Get (CVis v p) (fun s => if decide (s <> 0) then K pq else
  Get (CQw p) (fun d =>
  liftP (vget pm p) (fun t =>
  liftP (q_emplace pq (mkNode p t d)) (fun pq =>
  Put (CPar v p) (Z.of_nat q) (Put (CVis v p) 1 (K pq)))))).
(** pathfinder.hpp:449-483 *)
Definition init_P (pb : problem) (em : emb) (pm : list nat) (v : nat) (pq : pqueue) (K : pqueue -> prog) : prog :=
  liftP (vget (chains em) v) (fun c =>
  if fixedb pb v then
    foldP (fun pq q K => Put (CPar v q) (-1) (liftP (vget (qnb pb) q) (fun nb => foldP (init_fixed_P pm v q) nb pq K)))
          (cqubits c) pq K
  else
    foldP (fun pq q K => liftP (vget pm q) (fun t => liftP (q_emplace pq (mkNode q t 0)) (fun pq =>
             Put (CPar v q) (-1) (Put (CVis v q) 1 (K pq))))) (cqubits c) pq K).
(** pathfinder.hpp:503-511 *)
Definition relax_P (em : emb) (wbd : Z) (pm : list nat) (v : nat) (z : pnode) (pq : pqueue) (p : nat) (K : pqueue -> prog) : prog :=
  Get (CVis v p) (fun s => if decide (s <> 0) then K pq else
  Put (CVis v p) 1 (
  liftP (vget (eweight em) p) (fun w =>
  if decide (wbd <= w) then Put (CDist v p) max_distance (K pq) else
  Put (CPar v p) (Z.of_nat (pnode_id z)) (
  liftP (vget pm p) (fun t =>
  Get (CQw p) (fun c =>
  liftP (dadd (pdist z) c) (fun nd =>
  liftP (q_emplace pq (mkNode p t nd)) K))))))).
(** pathfinder.hpp:498-513 *)
Fixpoint dijkstra_P (fuel : nat) (pb : problem) (em : emb) (wbd : Z) (pm : list nat) (v : nat) (pq : pqueue) (K : prog) : prog :=
  if q_empty pq then K else
  match fuel with
  | 0%nat => Fail OOF
  | S fuel =>
      liftP (q_top pq) (fun z =>
      liftP (q_pop pq) (fun pq =>
      Put (CDist v (pnode_id z)) (pdist z) (
      liftP (vget (qnb pb) (pnode_id z)) (fun nb =>
      foldP (relax_P em wbd pm v z) nb pq (fun pq => dijkstra_P fuel pb em wbd pm v pq K)))))
  end.
(** pathfinder.hpp:781-783 with 489-514: one neighbour *)
Definition job_P (pb : problem) (em : emb) (wbd : Z) (pms : list (list nat)) (u v : nat) (K : prog) : prog :=
  prep_vis_P pb u v (
  liftP (vget pms v) (fun pm =>
  init_P pb em pm v (q_new (nq pb)) (fun pq => dijkstra_P (S (nq pb)) pb em wbd pm v pq K))).

(** pathfinder.hpp:769-776 *)
Fixpoint scan_P (fuel : nat) (em : emb) (nbrs : list nat) (K : option nat -> prog) : prog :=
  match fuel with
  | 0%nat => Fail OOF
  | S fuel =>
      Get CNext (fun i => if decide (Z.of_nat (length nbrs) <= i) then K None else
      Get CNext (fun i =>
      liftP (vget nbrs (Z.to_nat i)) (fun v =>
      Put CNext (i + 1) (
      liftP (chainsize em v) (fun sz =>
      if decide (sz = 0%nat) then scan_P fuel em nbrs K else
      Get CCount (fun n => Put CCount (n + 1) (K (Some v))))))))
  end.
(** pathfinder.hpp:764-787; the fuel bounds the number of neighbours one thread can take *)
Fixpoint worker_P (fuel : nat) (pb : problem) (em : emb) (wbd : Z) (pms : list (list nat)) (nbrs : list nat) (u : nat) : prog :=
  match fuel with
  | 0%nat => Fail OOF
  | S fuel =>
      Lock (scan_P (S (length nbrs)) em nbrs (fun o => Unlock (
        match o with
        | None => Ret
        | Some v => job_P pb em wbd pms u v (worker_P fuel pb em wbd pms nbrs u)
        end)))
  end.

(** pathfinder.hpp:791-798 and 805-812: (thread, start, stop) of each chunk *)
Fixpoint chunk_loop (i a grain grainmod : nat) : list (nat * nat * nat) :=
  match i with
  | 0%nat => []
  | S i => let b := (a + grain + (if decide (0 < grainmod)%nat then 1 else 0))%nat in
           (i, a, b) :: chunk_loop i b grain (grainmod - 1)
  end.
Definition chunks (n threads : nat) : list (nat * nat * nat) := chunk_loop threads 0 (n / threads) (n mod threads).

(** embedding.hpp:138-140; an empty range is UB *)
Definition max_weight_in (em : emb) (a b : nat) : res Z :=
  match take (b - a) (drop a (eweight em)) with [] => Err UB | x :: l => Ok (foldl Z.max x l) end.
(** pathfinder.hpp:827 *)
Definition max_P (em : emb) (c : nat * nat * nat) : prog :=
  let '(i, a, b) := c in liftP (max_weight_in em a b) (fun w => Put (CTw i) w Ret).
(** embedding_problem.hpp:56-59 and 107-115, one entry *)
Definition dist_init (pb : problem) (u q : nat) : res Z :=
  match masks pb with None => Ok 0 | Some m => let! x := vget2 m u q in Ok (- x * max_distance) end.
(** pathfinder.hpp:832-835 with 527-529 *)
Definition weights_P (e : env) (mw : Z) (em : emb) (u : nat) (c : nat * nat * nat) : prog :=
  let '(_, a, b) := c in
  foldP (fun (_ : unit) q K => liftP (vget (eweight em) q) (fun w => Put (CQw q) (weight_of e mw w) (K tt))) (seq a (b - a)) tt (fun _ =>
  foldP (fun (_ : unit) q K => liftP (dist_init (pb e) u q) (fun x => Put (CTot q) x (K tt))) (seq a (b - a)) tt (fun _ => Ret)).
(** pathfinder.hpp:322-333 on a range *)
Definition accum_P (pb : problem) (em : emb) (wbd : Z) (v a b : nat) (K : prog) : prog :=
  foldP (fun (_ : unit) q K =>
    Get (CVis v q) (fun s =>
    Get (CTot q) (fun t =>
    Get (CDist v q) (fun d =>
    liftP (vget (eweight em) q) (fun ew =>
    if decide (s = 1 /\ t <> max_distance /\ reservedb pb q = false /\ d <> max_distance /\ ew < wbd)
    then liftP (dadd t d) (fun x => Put (CTot q) x (K tt))
    else Put (CTot q) max_distance (K tt)))))) (seq a (b - a)) tt (fun _ => K).
(** pathfinder.hpp:846-855 *)
Definition totals_P (pb : problem) (em : emb) (wbd : Z) (nbrs : list nat) (c : nat * nat * nat) : prog :=
  let '(_, a, b) := c in
  foldP (fun (_ : unit) v K => liftP (chainsize em v) (fun sz => if decide (sz = 0%nat) then K tt else accum_P pb em wbd v a b (K tt)))
    nbrs tt (fun _ =>
  Get CCount (fun n => if decide (n = 0) then
    foldP (fun (_ : unit) q K => liftP (vget (eweight em) q) (fun w => if decide (wbd <= w) then Put (CTot q) max_distance (K tt) else K tt))
      (seq a (b - a)) tt (fun _ => Ret)
    else Ret)).
