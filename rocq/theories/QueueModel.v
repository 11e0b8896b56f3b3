(** Model of include/find_embedding/pairing_queue.hpp at the level of trees, and of the
    [std::priority_queue] used by the variable orderings.  The pointer-level representation
    is in QueueMem.v and refines this one. *)
From stdpp Require Import base list numbers.
From Verif Require Import Base.

(** pairing_queue.hpp:22-30 *)
Record pnode := mkNode { pnode_id : nat; pdirt : nat; pdist : Z }.

(** pairing_queue.hpp:31-36 for [min_heap_tag]: [a < b] means that [a] has the larger key *)
Definition node_lt (a b : pnode) : bool :=
  Z.ltb (pdist b) (pdist a) || (Z.eqb (pdist a) (pdist b) && Nat.ltb (pdirt b) (pdirt a)).

(** pairing_queue.hpp:39-43: a node with its list of descendants ([desc], linked by [next]) *)
Inductive ptree := PNode (x : pnode) (desc : list ptree).
Definition proot (t : ptree) : pnode := match t with PNode x _ => x end.
Definition pdesc (t : ptree) : list ptree := match t with PNode _ d => d end.

(** pairing_queue.hpp:72-94 *)
Definition merge_roots (this other : ptree) : ptree :=
  if node_lt (proot other) (proot this)
  then PNode (proot this) (other :: pdesc this)
  else PNode (proot other) (this :: pdesc other).

(** pairing_queue.hpp:109-122: the [while] loop of [merge_pairs] *)
Fixpoint merge_loop (l : list ptree) (r : ptree) : ptree :=
  match l with
  | [] => r
  | [a] => merge_roots a r
  | a :: b :: c => merge_loop c (merge_roots (merge_roots a b) r)
  end.
(** pairing_queue.hpp:97-124 applied to the first of a nonempty list of siblings *)
Definition merge_pairs (a : ptree) (l : list ptree) : ptree :=
  match l with
  | [] => a
  | r :: c => merge_loop c (merge_roots a r)
  end.

(** pairing_queue.hpp:128-133 *)
Record pqueue := mkQ { qcount : nat; qsize : nat; qroot : option ptree }.
(** pairing_queue.hpp:136 *)
Definition q_new (n : nat) : pqueue := mkQ 0 n None.
(** pairing_queue.hpp:151 *)
Definition q_empty (q : pqueue) : bool := match qroot q with None => true | Some _ => false end.
(** pairing_queue.hpp:153-158; writing past the array [mem] is UB *)
Definition q_emplace (q : pqueue) (x : pnode) : res pqueue :=
  if decide (qcount q < qsize q) then
    Ok (mkQ (S (qcount q)) (qsize q)
        (Some (match qroot q with None => PNode x [] | Some r => merge_roots (PNode x []) r end)))
  else Err UB.
(** pairing_queue.hpp:160 *)
Definition q_top (q : pqueue) : res pnode :=
  match qroot q with Some t => Ok (proot t) | None => Err UB end.
(** pairing_queue.hpp:162-166 *)
Definition q_pop (q : pqueue) : res pqueue :=
  match qroot q with
  | None => Err UB
  | Some t => Ok (mkQ (qcount q) (qsize q)
                  (match pdesc t with [] => None | a :: l => Some (merge_pairs a l) end))
  end.

(** [std::priority_queue] with [operator<] above ([better a b]: [a] is popped before [b]):
    a list from which the best element is removed.  Elements that compare equal are
    resolved by position; see DESIGN.md. *)
Fixpoint best_index (better : pnode -> pnode -> bool) (i : nat) (b : pnode) (j : nat) (l : list pnode) : nat :=
  match l with
  | [] => i
  | x :: l => if better x b then best_index better j x (S j) l else best_index better i b (S j) l
  end.
Definition spq_pop (better : pnode -> pnode -> bool) (l : list pnode) : option (pnode * list pnode) :=
  match l with
  | [] => None
  | x :: r =>
      let i := best_index better 0 x 1 r in
      match l !! i with Some y => Some (y, delete i l) | None => None end
  end.
(** util.hpp:56 [min_queue] *)
Definition min_better (a b : pnode) : bool := node_lt b a.
(** util.hpp:58 [max_queue], with pairing_queue.hpp:34-35 *)
Definition max_better (a b : pnode) : bool :=
  Z.ltb (pdist b) (pdist a) || (Z.eqb (pdist a) (pdist b) && Nat.ltb (pdirt b) (pdirt a)).
