(** Model of include/find_embedding/pairing_queue.hpp at the level of memory cells. *)
From stdpp Require Import base list numbers.
From Verif Require Import Base QueueModel.

(** pairing_queue.hpp:38-41: a node with its two pointers; a pointer is an index in [mem] *)
Record mnode := mkM { m_val : pnode; m_next : option nat; m_desc : option nat }.
(** pairing_queue.hpp:133: the array [mem]; a cell that was never refreshed is uninitialised (None) *)
Notation mmem := (list (option mnode)).

(** reading through a pointer: outside the array or an uninitialised cell is UB *)
Definition mread (m : mmem) (p : nat) : res mnode :=
  let! c := vget m p in match c with Some x => Ok x | None => Err UB end.
(** pairing_queue.hpp:84: [p->next = x] *)
Definition set_next (m : mmem) (p : nat) (x : option nat) : res mmem :=
  let! n := mread m p in vset m p (Some (mkM (m_val n) x (m_desc n))).
(** pairing_queue.hpp:85: [p->desc = x] *)
Definition set_desc (m : mmem) (p : nat) (x : option nat) : res mmem :=
  let! n := mread m p in vset m p (Some (mkM (m_val n) (m_next n) x)).

(** pairing_queue.hpp:80-93 *)
Definition mm_unchecked (m : mmem) (this other : nat) : res (mmem * nat) :=
  let! t := mread m this in
  let! m := set_next m other (m_desc t) in
  let! m := set_desc m this (Some other) in
  Ok (m, this).
(** pairing_queue.hpp:70-75 *)
Definition mm_unsafe (m : mmem) (this other : nat) : res (mmem * nat) :=
  let! o := mread m other in
  let! t := mread m this in
  if node_lt (m_val o) (m_val t) then mm_unchecked m this other else mm_unchecked m other this.
(** pairing_queue.hpp:50-57 *)
Definition mm_roots (m : mmem) (this : nat) (other : option nat) : res (mmem * nat) :=
  match other with
  | None => Ok (m, this)
  | Some o =>
      let! (m, r) := mm_unsafe m this o in
      let! m := set_next m r None in
      Ok (m, r)
  end.

(** pairing_queue.hpp:110-123 *)
Fixpoint mm_loop (fuel : nat) (m : mmem) (a : option nat) (r : nat) : res (mmem * nat) :=
  match a with
  | None => Ok (m, r)
  | Some a =>
      match fuel with
      | 0 => Err OOF
      | S fuel =>
          let! na := mread m a in
          match m_next na with
          | None => mm_unsafe m a r
          | Some b =>
              let! nb := mread m b in
              let! (m, b') := mm_unsafe m a b in
              let! m := set_next m b' None in
              let! (m, r) := mm_unsafe m b' r in
              mm_loop fuel m (m_next nb) r
          end
      end
  end.
(** pairing_queue.hpp:97-124 *)
Definition mm_pairs (fuel : nat) (m : mmem) (this : nat) : res (mmem * nat) :=
  let! n := mread m this in
  match m_next n with
  | None => Ok (m, this)
  | Some r =>
      let! nr := mread m r in
      let! m := set_next m r None in
      let! (m, r) := mm_unsafe m this r in
      let! m := set_next m r None in
      mm_loop fuel m (m_next nr) r
  end.

(** pairing_queue.hpp:128-133 *)
Record mqueue := mkMQ { mq_count : nat; mq_size : nat; mq_root : option nat; mq_mem : mmem }.
(** pairing_queue.hpp:136 *)
Definition mq_new (n : nat) : mqueue := mkMQ 0 n None (replicate n None).
(** pairing_queue.hpp:146-149 *)
Definition mq_reset (q : mqueue) : mqueue := mkMQ 0 (mq_size q) None (mq_mem q).
(** pairing_queue.hpp:151 *)
Definition mq_empty (q : mqueue) : bool := match mq_root q with None => true | Some _ => false end.
(** pairing_queue.hpp:153-158 *)
Definition mq_emplace (q : mqueue) (x : pnode) : res mqueue :=
  let! m := vset (mq_mem q) (mq_count q) (Some (mkM x None None)) in
  let! (m, r) := mm_roots m (mq_count q) (mq_root q) in
  Ok (mkMQ (S (mq_count q)) (mq_size q) (Some r) m).
(** pairing_queue.hpp:160 *)
Definition mq_top (q : mqueue) : res pnode :=
  match mq_root q with None => Err UB | Some r => let! n := mread (mq_mem q) r in Ok (m_val n) end.
(** pairing_queue.hpp:162-166 *)
Definition mq_pop (q : mqueue) : res mqueue :=
  match mq_root q with
  | None => Err UB
  | Some r =>
      let! n := mread (mq_mem q) r in
      match m_desc n with
      | None => Ok (mkMQ (mq_count q) (mq_size q) None (mq_mem q))
      | Some d =>
          let! (m, r) := mm_pairs (mq_count q) (mq_mem q) d in
          Ok (mkMQ (mq_count q) (mq_size q) (Some r) m)
      end
  end.

(** a client: a sequence of insertions and removals, collecting what [top] showed at each removal *)
Inductive qop := QPush (x : pnode) | QPop.
Definition mq_step (st : mqueue * list pnode) (o : qop) : res (mqueue * list pnode) :=
  let '(q, out) := st in
  match o with
  | QPush x => let! q := mq_emplace q x in Ok (q, out)
  | QPop => let! z := mq_top q in let! q := mq_pop q in Ok (q, out ++ [z])
  end.
Definition mq_run (n : nat) (ops : list qop) : res (mqueue * list pnode) := foldM mq_step ops (mq_new n, []).
