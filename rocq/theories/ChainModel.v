(** Model of include/find_embedding/chain.hpp.

    A chain shares the usage-count vector [qubit_weight] with its embedding, so every
    operation takes and returns that vector.  The constant [label] (chain.hpp:79) is an
    argument.  [unordered_map] iteration order is the order of [map_to_list]. *)
From stdpp Require Import base list numbers gmap.
From Verif Require Import Base.

(** chain.hpp:69-79: [data : qubit -> (parent, refs)], [links : variable -> qubit] *)
Record chain := mkChain {
  cdata : gmap nat (nat * Z);
  clinks : gmap nat nat
}.

(** chain.hpp:83 *)
Definition empty_chain : chain := mkChain ∅ ∅.

(** chain.hpp:113 *)
Definition csize (c : chain) : nat := size (cdata c).
(** chain.hpp:116 *)
Definition ccount (c : chain) (q : nat) : bool :=
  match cdata c !! q with Some _ => true | None => false end.
(** chain.hpp:120-126; -1 is [None] *)
Definition get_link (c : chain) (x : nat) : option nat := clinks c !! x.
(** chain.hpp:357-372: iteration over the keys of [data] *)
Definition cqubits (c : chain) : list nat := (map_to_list (cdata c)).*1.

(** chain.hpp:419 [retrieve(q).second += d]; dereferencing a missing key is UB *)
Definition add_ref (c : chain) (q : nat) (d : Z) : res chain :=
  match cdata c !! q with
  | Some (p, r) => Ok (mkChain (<[q := (p, (r + d)%Z)]> (cdata c)) (clinks c))
  | None => Err UB
  end.

(** chain.hpp:130-137.  The assertions at 131-132 are compiled out in release builds. *)
Definition set_link (c : chain) (x q : nat) : res chain :=
  add_ref (mkChain (cdata c) (<[x := q]> (clinks c))) q 1.

(** chain.hpp:140-151; returns the dropped qubit, -1 is [None] *)
Definition drop_link (c : chain) (x : nat) : res (option nat * chain) :=
  match clinks c !! x with
  | None => Ok (None, c)
  | Some q => let! c' := add_ref c q (-1) in
              Ok (Some q, mkChain (cdata c') (delete x (clinks c')))
  end.

(** [unordered_map::emplace]: keeps an existing entry *)
Definition emplace {V} (k : nat) (v : V) (m : gmap nat V) : gmap nat V :=
  match m !! k with Some _ => m | None => <[k := v]> m end.

(** chain.hpp:155-162 *)
Definition set_root (label : nat) (c : chain) (w : list Z) (q : nat) : res (chain * list Z) :=
  let! w' := vadd w q 1 in
  Ok (mkChain (emplace q (q, 2%Z) (cdata c)) (emplace label q (clinks c)), w').

(** adds [d] to the usage count of each listed qubit *)
Definition wadd_all (d : Z) (l : list nat) (w : list Z) : res (list Z) :=
  foldM (fun w q => vadd w q d) l w.

(** chain.hpp:165-170 *)
Definition clear (c : chain) (w : list Z) : res (chain * list Z) :=
  let! w' := wadd_all (-1) (cqubits c) w in Ok (empty_chain, w').

(** chain.hpp:91-100: assignment from a vector of qubits *)
Definition assign_vec (c : chain) (w : list Z) (l : list nat) : res (chain * list Z) :=
  let! (_, w) := clear c w in
  let! w := wadd_all 1 l w in
  Ok (mkChain (foldl (fun m q => emplace q (q, 1%Z) m) ∅ l) ∅, w).

(** chain.hpp:103-110: assignment from another chain *)
Definition assign_chain (c : chain) (w : list Z) (src : chain) : res (chain * list Z) :=
  let! (_, w) := clear c w in
  let! w := wadd_all 1 (cqubits src) w in
  Ok (mkChain (cdata src) (clinks src), w).

(** chain.hpp:173-180 *)
Definition add_leaf (c : chain) (w : list Z) (q parent : nat) : res (chain * list Z) :=
  let! w' := vadd w q 1 in
  let! c' := add_ref (mkChain (emplace q (parent, 0%Z) (cdata c)) (clinks c)) parent 1 in
  Ok (c', w').

(** chain.hpp:199-211 *)
Definition trim_leaf (c : chain) (w : list Z) (q : nat) : res (nat * chain * list Z) :=
  match cdata c !! q with
  | None => Err UB
  | Some (p, r) =>
      if decide (r = 0%Z) then
        let! w' := vadd w q (-1) in
        let! c' := add_ref c p (-1) in
        Ok (p, mkChain (delete q (cdata c')) (clinks c'), w')
      else Ok (q, c, w)
  end.

(** chain.hpp:185-195; the [while] loop takes fuel *)
Fixpoint trim_branch (fuel : nat) (c : chain) (w : list Z) (q : nat) : res (nat * chain * list Z) :=
  match fuel with
  | 0 => Err OOF
  | S fuel =>
      let! (p, c', w') := trim_leaf c w q in
      if decide (p = q) then Ok (q, c', w') else trim_branch fuel c' w' p
  end.

(** chain.hpp:215-218 *)
Definition cparent (c : chain) (q : nat) : res nat :=
  match cdata c !! q with Some (p, _) => Ok p | None => Err UB end.

(** chain.hpp:222-234 (Q is decremented before P is incremented; they differ or coincide
    as in the code because both are references into [data]) *)
Definition adopt (c : chain) (p q : nat) : res chain :=
  match cdata c !! p, cdata c !! q with
  | Some _, Some (_, r) =>
      add_ref (mkChain (<[q := (p, (r - 1)%Z)]> (cdata c)) (clinks c)) p 1
  | _, _ => Err UB
  end.

(** chain.hpp:239-242 *)
Definition refcount (c : chain) (q : nat) : res Z :=
  match cdata c !! q with Some (_, r) => Ok r | None => Err UB end.

(** chain.hpp:60-67.  In the C++ the links of this chain (key [v]) and the links from
    other chains to this one (key [-v-1]) share one map; here they are two maps. *)
Record frozen_chain := mkFrozen {
  fdata : gmap nat (nat * Z);
  flinks : gmap nat nat;
  fback : gmap nat (option nat)   (** None is the value -1 *)
}.
Definition empty_frozen : frozen_chain := mkFrozen ∅ ∅ ∅.

(** chain.hpp:246-263.  [chains] is the whole vector; [label] indexes this chain. *)
Definition freeze (chains : list chain) (w : list Z) (label : nat)
  : res (nat * frozen_chain * list chain * list Z) :=
  let! c := vget chains label in
  let! (chains, back) :=
    foldM (fun '(chains, back) '(v, _) =>
             if decide (v = label) then Ok (chains, back)
             else let! o := vget chains v in
                  let! (q, o') := drop_link o label in
                  let! chains' := vset chains v o' in
                  Ok (chains', emplace v q back))
          (map_to_list (clinks c)) (chains, ∅) in
  let! w := wadd_all (-1) (cqubits c) w in
  let! chains := vset chains label empty_chain in
  Ok (csize c, mkFrozen (cdata c) (clinks c) back, chains, w).

(** chain.hpp:267-282; [others[v].set_link(label, -1)] would dereference a missing key *)
Definition thaw (chains : list chain) (w : list Z) (label : nat) (keep : frozen_chain)
  : res (list chain * list Z) :=
  let! c := vget chains label in
  let! w := wadd_all 1 ((map_to_list (fdata keep)).*1) w in
  let! chains := vset chains label
     (mkChain (fdata keep) (foldl (fun m '(v, q) => emplace v q m) (clinks c) (map_to_list (flinks keep)))) in
  let! chains :=
    foldM (fun chains '(v, oq) =>
             match oq with
             | None => Err UB
             | Some q =>
                 let! o := vget chains v in
                 let! o' := set_link o label q in
                 vset chains v o'
             end)
          (map_to_list (fback keep)) chains in
  Ok (chains, w).

(** chain.hpp:296-317: the loop of [steal]. [accepts] is [ep.accepts_qubit(label, .)],
    [limit] is [chainsize]. Returns the final [q] and [p]. *)
Fixpoint steal_loop (fuel : nat) (accepts : nat -> res bool) (limit : nat)
    (this other : chain) (w : list Z) (q p : nat) : res (nat * nat * chain * chain * list Z) :=
  match fuel with
  | 0 => Err OOF
  | S fuel' =>
      if decide (limit = 0 \/ csize this < limit) then
        let! ok := accepts p in
        if negb ok then Ok (q, p, this, other, w) else
        let! (r, other', w) := trim_leaf other w p in
        if decide (r = p) then Ok (q, p, this, other', w) else
        match cdata this !! p with
        | None =>
            let! (this', w) := add_leaf this w p q in
            steal_loop fuel' accepts limit this' other' w p r
        | Some _ =>
            if decide (p = q) then steal_loop fuel' accepts limit this other' w p r
            else
              let! this1 := add_ref this p 1 in
              let! (_, this2, w) := trim_branch (S (csize this)) this1 w q in
              let! this3 := add_ref this2 p (-1) in
              steal_loop fuel' accepts limit this3 other' w p r
        end
      else Ok (q, p, this, other, w)
  end.

(** chain.hpp:289-325; [lt]/[lo] are the labels of [this] and [other].  A missing link makes
    [q] or [p] equal to -1, which is then used as a key: UB. *)
Definition steal (accepts : nat -> res bool) (limit : nat) (lt lo : nat)
    (this other : chain) (w : list Z) : res (chain * chain * list Z) :=
  let! (q, this) := drop_link this lo in
  let! (p, other) := drop_link other lt in
  match q, p with
  | Some q, Some p =>
      let! (q, p, this, other, w) := steal_loop (S (csize other)) accepts limit this other w q p in
      let! this := set_link this lo q in
      let! other := set_link other lt p in
      Ok (this, other, w)
  | _, _ => Err UB
  end.

(** chain.hpp:341-348: the loop of [link_path] *)
Fixpoint link_path_loop (fuel : nat) (this other : chain) (w : list Z)
    (parents : list (option nat)) (q p : nat) : res (nat * nat * chain * list Z) :=
  if ccount other p then Ok (q, p, this, w) else
  match fuel with
  | 0 => Err OOF
  | S fuel =>
      let! (this', w') :=
        if ccount this p
        then let! (_, c, w) := trim_branch (S (csize this)) this w q in Ok (c, w)
        else add_leaf this w p q in
      let! np := vget parents p in
      match np with
      | None => Err UB     (* p = -1: other.count(-1) = 0, then parents[-1] *)
      | Some p' => link_path_loop fuel this' other w' parents p p'
      end
  end.

(** chain.hpp:333-355; [parents] entries: -1 is [None] *)
Definition link_path (lt lo : nat) (this other : chain) (w : list Z)
    (q : nat) (parents : list (option nat)) : res (chain * chain * list Z) :=
  let! np := vget parents q in
  let! (q, p, this, w) :=
    match np with
    | None => Ok (q, q, this, w)
    | Some p => link_path_loop (length parents) this other w parents q p
    end in
  let! this := set_link this lo q in
  let! other := set_link other lt p in
  Ok (this, other, w).

(** chain.hpp:394-412: counts of each qubit as a parent or a link *)
Definition ref_counts (c : chain) : gmap nat Z :=
  let bump (m : gmap nat Z) q := <[q := (default 0 (m !! q) + 1)%Z]> m in
  foldl bump (foldl bump ∅ ((map_to_list (clinks c)).*2))
        ((map_to_list (cdata c)).*2.*1).

Definition run_diagnostic (c : chain) : Z :=
  foldl (fun e '(p, r) =>
     match cdata c !! p with
     | None => Z.lor e 1
     | Some (_, r') => if decide (r = r') then e else Z.lor e 2
     end) 0%Z (map_to_list (ref_counts c)).
