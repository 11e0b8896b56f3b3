(** Model of the generic small clique finders.
    Source: include/busclique/small_cliques.hpp, include/busclique/find_clique.hpp 178-226.
    [bool f(…, emb)] appends to [emb] and returns a flag: [Some emb'] is [true] with the new
    [emb], [None] is [false] (in that case [emb] is not changed). *)
From stdpp Require Import base list numbers gmap.
From Verif Require Import Base.

(** small_cliques.hpp 21-27 [find_generic_1] *)
Definition find_generic_1 (nodes : list nat) (emb : list (list nat)) : option (list (list nat)) :=
  match nodes with [] => None | v :: _ => Some (emb ++ [[v]]) end.

(** small_cliques.hpp 30-37 [find_generic_2] *)
Definition find_generic_2 (edges : list (nat * nat)) (emb : list (list nat)) : option (list (list nat)) :=
  match edges with [] => None | (a, b) :: _ => Some (emb ++ [[a]; [b]]) end.

(** [std::set<size_t>::emplace]: ascending, without repetition *)
Fixpoint set_add (x : nat) (l : list nat) : list nat :=
  match l with
  | [] => [x]
  | y :: l' => if x <? y then x :: l else if x =? y then l else y :: set_add x l'
  end.
(** [std::map<size_t, std::set<size_t>>]; a missing key reads as the empty set, as the code adds
    it when it is first looked up (46-49) *)
Notation adjmap := (gmap nat (list nat)).
Definition adj_at (adj : adjmap) (v : nat) : list nat := default [] (adj !! v).
(** small_cliques.hpp 60-61, 98-99: [B.emplace(e.first); A.emplace(e.second)] *)
Definition adj_edge (adj : adjmap) (a b : nat) : adjmap :=
  let adj := <[b := set_add a (adj_at adj b)]> adj in
  <[a := set_add b (adj_at adj a)]> adj.

(** small_cliques.hpp 52-59: the first [p] of [A] that is in [B] *)
Definition third (A B : list nat) : option nat := head (filter (fun p => p ∈ B) A).
(** small_cliques.hpp 40-64 [find_generic_3] *)
Fixpoint find_3 (adj : adjmap) (edges : list (nat * nat)) (emb : list (list nat)) : option (list (list nat)) :=
  match edges with
  | [] => None
  | (a, b) :: edges =>
    match third (adj_at adj a) (adj_at adj b) with
    | Some p => Some (emb ++ [[a]; [b]; [p]])
    | None => find_3 (adj_edge adj a b) edges emb
    end
  end.
Definition find_generic_3 (edges : list (nat * nat)) (emb : list (list nat)) : option (list (list nat)) := find_3 ∅ edges emb.

(** small_cliques.hpp 80-97: the first [p], then the first [q], both in [A] and [B], with
    not [p < q] and [p] in the set of [q] *)
Definition fourth (adj : adjmap) (A B : list nat) : option (nat * nat) :=
  head (p ← filter (fun p => p ∈ B) A;
        q ← filter (fun q => ~ p < q /\ q ∈ B) A;
        if decide (p ∈ adj_at adj q) then [(p, q)] else []).
(** small_cliques.hpp 67-102 [find_generic_4] *)
Fixpoint find_4 (adj : adjmap) (edges : list (nat * nat)) (emb : list (list nat)) : option (list (list nat)) :=
  match edges with
  | [] => None
  | (a, b) :: edges =>
    match fourth adj (adj_at adj a) (adj_at adj b) with
    | Some (p, q) => Some (emb ++ [[a]; [b]; [p]; [q]])
    | None => find_4 (adj_edge adj a b) edges emb
    end
  end.
Definition find_generic_4 (edges : list (nat * nat)) (emb : list (list nat)) : option (list (list nat)) := find_4 ∅ edges emb.

(** find_clique.hpp 215-226 [short_clique]; [n] is [clique_number] (2 for Chimera, 4 for Pegasus
    and Zephyr, util.hpp) *)
Definition short_clique (n : nat) (nodes : list nat) (edges : list (nat * nat)) (emb : list (list nat)) : list (list nat) :=
  match (if 4 <=? n then find_generic_4 edges emb else None) with
  | Some e => e
  | None =>
    match (if 3 <=? n then find_generic_3 edges emb else None) with
    | Some e => e
    | None =>
      match find_generic_2 edges emb with
      | Some e => e
      | None => match find_generic_1 nodes emb with Some e => e | None => emb end
      end
    end
  end.
