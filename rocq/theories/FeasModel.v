(** Model of minorminer/utils/feasibility.py: [embedding_feasibility_filter] (29-110) and
    [lattice_size_lower_bound] (113-221).  Graphs as in NxModel.  numpy arrays of degrees are lists of
    [nat]; [np.ceil] of a quotient of two integers is the exact ceiling (exact in binary64 while the
    integers are below 2^53). *)
From stdpp Require Import base list numbers sorting.
From Verif Require Import Base NxModel.

Section feas.
Context {A : Type} `{!EqDecision A}.

(** [g.degree[n]]: a self-loop counts twice *)
Definition nx_degree (g : nxgraph A) (n : A) : nat :=
  length (filter (fun e => e.1 = n) (nx_edges g)) + length (filter (fun e => e.2 = n) (nx_edges g)).
(** 65-66: [np.sort([g.degree[n] for n in g.nodes()])] *)
Definition degrees_sorted (g : nxgraph A) : list nat := merge_sort Nat.le (nx_degree g <$> nx_nodes g).
End feas.

(** [Counter]: a dict of counts; a missing key counts 0 *)
Definition cget (c : list (nat * Z)) (k : nat) : Z := default 0%Z (dlookup c k).
(** [c[k] += d] *)
Definition cadd (c : list (nat * Z)) (k : nat) (d : Z) : list (nat * Z) := dstore c k (cget c k + d)%Z.
(** 79-80: [Counter(T_degree)], then [subtract(Counter(S_degree))]: element by element *)
Definition residual (T_degree S_degree : list nat) : list (nat * Z) :=
  foldl (fun c k => cadd c k (-1)) (foldl (fun c k => cadd c k 1) [] T_degree) S_degree.
(** 84-87: one round of the loop over [range(3)] *)
Definition carry (c : list (nat * Z)) (k : nat) : list (nat * Z) :=
  let c := if (cget c k <? 0)%Z then cadd c (S k) (cget c k) else c in
  dstore c k 0%Z.
(** [np.ceil(a / b)], [b > 0] *)
Definition ceil_div (a b : Z) : Z := (- ((- a) / b))%Z.
(** 99: [np.max] of the keys with a positive count; of nothing: [ValueError] ([UB]) *)
Definition max_positive (c : list (nat * Z)) : res nat :=
  match omap (fun kv => if (0 <? kv.2)%Z then Some kv.1 else None) c with
  | [] => Err UB
  | k :: ks => Ok (foldl Nat.max k ks)
  end.
Definition zsum (l : list Z) : Z := foldr Z.add 0%Z l.
(** 68-110: the tests on the two sorted degree lists *)
Definition degree_filter (T_degree S_degree : list nat) (one_to_one : bool) : res bool :=
  if bool_decide (Exists (fun p => p.1 < p.2)
       (zip (drop (length T_degree - length S_degree) T_degree) S_degree)) then
    if one_to_one || (default 0 (last T_degree) <=? 2) then Ok false
    else
      let r := foldl carry (residual T_degree S_degree) [0; 1; 2] in
      if forallb (fun kv => (0 <? kv.2)%Z) r then Ok true
      else
        let nT_auxiliary := zsum (r.*2) in
        if (nT_auxiliary <? 0)%Z then Ok false
        else
          let! kTmax := max_positive r in
          let need := zsum ((fun kv : nat * Z => if (kv.2 <? 0)%Z
             then (- kv.2 * ceil_div (Z.of_nat kv.1 - Z.of_nat kTmax) (Z.of_nat kTmax - 2))%Z else 0%Z) <$> r) in
          Ok (need <=? nT_auxiliary)%Z
  else Ok true.
(** 29-110 [embedding_feasibility_filter]; [same]: whether [T] and [S] are the same object ([T == S]) *)
Definition feasibility_filter {A : Type} `{!EqDecision A} (S T : nxgraph A) (same one_to_one : bool) : res bool :=
  if same then Ok true
  else if (length (nx_nodes T) <? length (nx_nodes S)) || (length (nx_edges T) <? length (nx_edges S)) then Ok false
  else if length (nx_nodes S) =? 0 then Ok true
  else if length (nx_nodes T) =? 0 then Ok false
  else degree_filter (degrees_sorted T) (degrees_sorted S) one_to_one.

(** * [lattice_size_lower_bound] *)
Inductive family := Chimera | Pegasus | Zephyr.
(** 171: [max_degrees] *)
Definition max_degree_of (fam : family) (t : nat) : nat :=
  match fam with Chimera => 2 + 2 * t | Pegasus => 15 | Zephyr => 4 + 4 * t end.
(** 192, 200, 208: whether the size [m] is at least the bound from the number [N] of variables that is
    computed with square roots there: [m >= sqrt(N/4/t)], [m >= (8 + sqrt(6N + 16))/12],
    [m >= (sqrt(2N/t + 1) - 1)/4], written without roots and without rounding *)
Definition size_enough (fam : family) (t N m : nat) : bool :=
  match fam with
  | Chimera => N <=? 4 * t * (m * m)
  | Pegasus => (1 <=? m) && (N + 32 * m <=? 24 * (m * m) + 8)
  | Zephyr => N <=? t * (8 * (m * m) + 4 * m)
  end.
(** the least size from [m] on that is enough *)
Fixpoint least_size (fuel : nat) (fam : family) (t N m : nat) : nat :=
  match fuel with
  | 0 => m
  | S fuel => if size_enough fam t N m then m else least_size fuel fam t N (S m)
  end.
Definition first_size (fam : family) (t N : nat) : nat := least_size (N + 2) fam t N 0.

Section lattice.
Context {A : Type} `{!EqDecision A}.
(** the lattice graphs of dwave.graphs, by family, [t] and size; and [greedy_color] of networkx *)
Context (generator : family -> nat -> nat -> nxgraph A) (greedy_color : nxgraph A -> A -> nat).

(** 216-221: the loop over sizes.  A new graph is made for every size, so it is never the object [S] *)
Fixpoint grow_lattice (fuel : nat) (S : nxgraph A) (fam : family) (t : nat) (one_to_one : bool) (m : nat) : res nat :=
  match fuel with
  | 0 => Err OOF
  | Datatypes.S fuel =>
      let! b := feasibility_filter S (generator fam t m) false one_to_one in
      if (b : bool) then Ok m else grow_lattice fuel S fam t one_to_one (Datatypes.S m)
  end.
(** 113-221.  [T]: the graph with its family and tile parameter.  [Err Corrupt]: a [ValueError] that the
    documentation announces; [Err UB]: another exception; [Ok None]: [None] is returned *)
Definition lattice_size_lower_bound (fuel : nat) (S : nxgraph A) (T : option (nxgraph A * family * nat))
    (topology : option family) (t : option nat) (one_to_one : bool) : res (option nat) :=
  let! args :=
    match T with
    | Some (g, fam, tile) =>
        let! b := feasibility_filter S g false one_to_one in
        if negb b then Ok None
        else match topology with
        | None => Ok (Some (fam, default tile t))
        | Some f =>
            match f, fam with
            | Chimera, Chimera | Pegasus, Pegasus | Zephyr, Zephyr => Ok (Some (f, default tile t))
            | _, _ => Err Corrupt
            end
        end
    | None =>
        match topology with
        | None => Err Corrupt
        | Some f =>
            let t := default 4 t in
            match nx_degree S <$> nx_nodes S with
            | [] => Err UB
            | d :: ds => if max_degree_of f t <? foldl Nat.max d ds then Ok None else Ok (Some (f, t))
            end
        end
    end in
  match args with
  | None => Ok None
  | Some (f, t) =>
      let coloured := match f with Chimera => existsb (fun x => 2 <? greedy_color S x) (nx_nodes S) | _ => false end in
      if coloured then Ok None
      else
        let! m := grow_lattice fuel S f t one_to_one (first_size f t (length (nx_nodes S))) in
        Ok (Some m)
  end.
End lattice.
