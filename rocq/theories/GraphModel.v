(** Model of include/find_embedding/graph.hpp. *)
From stdpp Require Import base list numbers.
From Verif Require Import Base.

(** graph.hpp:71-78: the number of nodes and the edges (two vectors of equal length, asserted
    at graph.hpp:104, as one list of pairs).  Node numbers are natural numbers here. *)
Record graph := mkGraph { gn : nat; ge : list (nat * nat) }.

(** graph.hpp:126-130 *)
Definition gpush (g : graph) (a b : nat) : graph := mkGraph (Nat.max (gn g) (Nat.max a b + 1)) (ge g ++ [(a, b)]).

(** [std::set<int>::insert] on a set kept as an increasing list *)
Fixpoint sinsert (x : nat) (l : list nat) : list nat :=
  match l with
  | [] => [x]
  | y :: l' => if decide (x < y) then x :: l else if decide (x = y) then l else y :: sinsert x l'
  end.

Definition nb_add (nb : list (list nat)) (x y : nat) : res (list (list nat)) :=
  let! l := vget nb x in vset nb x (sinsert y l).

(** graph.hpp:138-151 and 85-93.  The [unaryint] arguments (graph.hpp:25-63) are functions that
    may fail on an index out of range; the loop runs over the edges from the last to the first. *)
Definition get_neighbors (g : graph) (sources sinks mask : nat -> res bool) (relabel : nat -> res nat) : res (list (list nat)) :=
  let! nb := foldM (fun nb '(a, b) =>
      let! m := mask a in
      if (m : bool) then
        let! ra := relabel a in
        let! rb := relabel b in
        let! sb := sources b in
        let! ka := sinks a in
        let! nb := (if negb sb && negb ka then nb_add nb ra rb else Ok nb) in
        let! sa := sources a in
        let! kb := sinks b in
        if negb sa && negb kb then nb_add nb rb ra else Ok nb
      else Ok nb) (rev (ge g)) (replicate (gn g) []) in
  Ok (imap (fun i l => filter (fun x => x <> i) l) nb).

(** ** components (graph.hpp:200-348) *)

(** graph.hpp:307-312: find with path compression; the recursion takes fuel *)
Fixpoint uf_find (fuel : nat) (par : list nat) (x : nat) : res (nat * list nat) :=
  match fuel with
  | 0 => Err OOF
  | S fuel =>
      let! p := vget par x in
      if decide (p = x) then Ok (x, par) else
      let! (r, par) := uf_find fuel par p in
      let! par := vset par x r in Ok (r, par)
  end.

(** graph.hpp:314-330; [n] is the fuel *)
Definition uf_union (n : nat) (par rank : list nat) (x y : nat) : res (list nat * list nat) :=
  let! (xr, par) := uf_find n par x in
  let! (yr, par) := uf_find n par y in
  if decide (xr = yr) then Ok (par, rank) else
  let! rx := vget rank xr in
  let! ry := vget rank yr in
  if decide (rx < ry) then let! par := vset par xr yr in Ok (par, rank)
  else if decide (ry < rx) then let! par := vset par yr xr in Ok (par, rank)
  else let! par := vset par yr xr in let! rank := vset rank xr (rx + 1) in Ok (par, rank).

(** graph.hpp:211-221: union over all edges, then the members of each root; [i--] loops run
    from the last element to the first *)
Definition uf_all (g : graph) : res (list nat * list nat) :=
  foldM (fun '(par, rank) '(a, b) => uf_union (S (gn g)) par rank a b) (rev (ge g)) (seq 0 (gn g), replicate (gn g) 0).
Definition collect_comps (n : nat) (par : list nat) : res (list (list nat)) :=
  let! (comps, _) := foldM (fun '(comps, par) x =>
      let! (r, par) := uf_find (S n) par x in
      let! c := vget comps r in
      let! comps := vset comps r (c ++ [x]) in
      Ok (comps, par)) (rev (seq 0 n)) (replicate n [], par) in
  Ok comps.

Definition swapv (l : list nat) (i j : nat) : res (list nat) :=
  let! x := vget l i in let! y := vget l j in
  let! l := vset l i y in vset l j x.

(** graph.hpp:235-238: [while (front < back && reserve( *front)) iter_swap(front, --back)] inside
    the loop over [front]; returns the reordered component and [back] *)
Fixpoint part_reserved (fuel : nat) (reserve : nat -> res bool) (l : list nat) (front back : nat) : res (list nat * nat) :=
  if decide (front < back) then
    match fuel with
    | 0 => Err OOF
    | S fuel =>
        let! x := vget l front in
        let! r := reserve x in
        if (r : bool) then let! l := swapv l front (back - 1) in part_reserved fuel reserve l front (back - 1)
        else part_reserved fuel reserve l (front + 1) back
    end
  else Ok (l, back).

Record comps := mkComps {
  cindex : list nat;   (** index of the component of a node *)
  clabel : list nat;   (** label of a node in its component *)
  creserved : list nat;
  cnodes : list (list nat);
  cgraphs : list graph
}.

(** graph.hpp:232-250: relabel the components in order up to the first empty one *)
Fixpoint comp_loop (reserve : nat -> res bool) (cs : list (list nat)) (c : nat) (idx lab : list nat) :
    res (list nat * list nat * list nat * list (list nat)) :=
  match cs with
  | [] => Ok (idx, lab, [], [])
  | comp :: cs =>
      if decide (length comp = 0) then Ok (idx, lab, [], []) else
      let! (comp, back) := part_reserved (length comp) reserve comp 0 (length comp) in
      let! (idx, lab) := foldM (fun '(idx, lab) '(j, x) =>
          let! lab := vset lab x j in
          let! idx := vset idx x c in Ok (idx, lab)) (rev (imap pair comp)) (idx, lab) in
      let! (idx, lab, rs, out) := comp_loop reserve cs (S c) idx lab in
      Ok (idx, lab, (length comp - back) :: rs, comp :: out)
  end.

(** graph.hpp:251-255 *)
Definition distribute (g : graph) (idx lab : list nat) (k : nat) : res (list graph) :=
  foldM (fun gs '(a, b) =>
      let! c := vget idx a in
      let! la := vget lab a in
      let! lb := vget lab b in
      let! gc := vget gs c in
      vset gs c (gpush gc la lb)) (rev (ge g)) (replicate k (mkGraph 0 [])).

(** graph.hpp:203-256.  [srt] is [std::sort] with the size comparison of graph.hpp:223-224: the
    order of components of equal size is unspecified, so it is a parameter. *)
Definition components (srt : list (list nat) -> list (list nat)) (g : graph) (reserve : nat -> res bool) : res comps :=
  let! (par, rank) := uf_all g in
  let! cs := collect_comps (gn g) par in
  let! (idx, lab, rs, out) := comp_loop reserve (srt cs) 0 par rank in
  let! gs := distribute g idx lab (length out) in
  Ok (mkComps idx lab rs out gs).

(** graph.hpp:273-276 *)
Definition comp_size (cp : comps) (c : nat) : res nat := let! g := vget (cgraphs cp) c in Ok (gn g).
(** graph.hpp:270 *)
Definition comp_reserved (cp : comps) (c : nat) : res nat := vget (creserved cp) c.

(** graph.hpp:279-281.  [size - num_reserved] is a signed difference; sources are the labels from
    it on, so a negative difference makes every label a source, like 0 *)
Definition component_neighbors (cp : comps) (c : nat) : res (list (list nat)) :=
  let! n := comp_size cp c in
  let! r := comp_reserved cp c in
  let! g := vget (cgraphs cp) c in
  get_neighbors g (fun i => Ok (bool_decide (n - r <= i))) (fun _ => Ok false) (fun _ => Ok true) (fun i => Ok i).

(** graph.hpp:284-296: [None] is [false] *)
Definition into_component (cp : comps) (c : nat) (nodes : list nat) : res (option (list nat)) :=
  foldM (fun acc x => match acc with
      | None => Ok None
      | Some out =>
          match cindex cp !! x with
          | None => Ok None
          | Some i => if decide (i = c) then let! l := vget (clabel cp) x in Ok (Some (out ++ [l])) else Ok None
          end
      end) nodes (Some []).

(** graph.hpp:299-305 *)
Definition from_component (cp : comps) (c : nat) (nodes : list nat) : res (list nat) :=
  let! comp := vget (cnodes cp) c in
  foldM (fun out x => let! y := vget comp x in Ok (out ++ [y])) nodes [].
