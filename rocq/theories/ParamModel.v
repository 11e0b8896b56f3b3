(** Model of include/find_embedding/find_embedding.hpp: parameter processing and the entry point. *)
From stdpp Require Import base list numbers gmap.
From Verif Require Import Base ChainModel EmbModel QueueModel PathModel GraphModel.

(** A [std::map<int, vector<int>>]: the list of its entries, in increasing order of keys *)
Notation cmap := (list (nat * list nat)).

(** util.hpp:126-145, the fields a caller sets.  Beta limits act only through the weight table. *)
Record params := mkParams {
  p_max_no_improvement : nat;
  p_tries : nat;
  p_verbose : nat;
  p_interactive : bool;
  p_inner_rounds : nat;
  p_max_fill : Z;
  p_return_overlap : bool;
  p_chainlength_patience : nat;
  p_threads : nat;
  p_skip_init : bool;
  p_fixed : cmap;
  p_initial : cmap;
  p_restrict : cmap
}.

(** What a run does not control: random draws, clock and interrupts, the floating-point weight
    table (embedding_problem.hpp:286-297) for a given margin, the order std::sort gives to components of equal
    size, and the fuel of the chain-length loop. *)
Record oracle := mkOracle {
  o_rnd : nat -> nat;
  o_stops : nat -> stop;
  o_wtab : Z -> Z -> Z -> Z;
  o_sort : list (list nat) -> list (list nat);
  o_fuel : nat
}.

(** find_embedding.hpp:72-84: marks fixed variables and reserved qubits.  The keys and qubits
    are used as indices before they are validated. *)
Definition reserved_of (nvars nqubits : nat) (fixed : cmap) : res (list bool * list bool * nat) :=
  foldM (fun '(qr, vf, r) '(v, C) =>
      let! vf := vset vf v true in
      let! (qr, r) := foldM (fun '(qr, r) q =>
          let! b := vget qr q in
          if negb b then let! qr := vset qr q true in Ok (qr, r + 1) else Ok (qr, r)) C (qr, r) in
      Ok (qr, vf, r)) fixed (replicate nqubits false, replicate nvars false, 0).

(** find_embedding.hpp:86-98; [num_vars - num_fixed] is unsigned, a negative value is used as
    an index out of range *)
Definition filter_fixed (nvars nfixed : nat) (vf : list bool) : res (list nat) :=
  if decide (nvars < nfixed) then Err UB else
  let! (un, _, _) := foldM (fun '(un, front, back) i =>
      let! f := vget vf i in
      if (f : bool) then let! un := vset un back i in Ok (un, front, S back)
      else let! un := vset un front i in Ok (un, S front, back)) (seq 0 nvars) (replicate nvars 0, 0, nvars - nfixed) in
  Ok un.

(** find_embedding.hpp:100-107; [.at] throws when out of range, which does not happen here *)
Definition inverse_perm (f : list nat) : res (list nat) :=
  foldM (fun r '(i, x) => vset r x i) (rev (imap pair f)) (replicate (length f) 0).

(** [map::emplace(k, {})] followed by appending to the entry; entries stay ordered by key *)
Fixpoint map_append (k : nat) (l : list nat) (m : cmap) : cmap :=
  match m with
  | [] => [(k, l)]
  | (k', l') :: m' => if decide (k < k') then (k, l) :: m else if decide (k = k') then (k', l' ++ l) :: m' else (k', l') :: map_append k l m'
  end.

(** find_embedding.hpp:110-120 *)
Definition input_chains (nvars : nat) (cp : comps) (screw : list nat) (m : cmap) : res cmap :=
  foldM (fun n '(v, C) =>
      if decide (nvars <= v) then Err Corrupt else
      let! u := vget screw v in
      let! o := into_component cp 0 C in
      match o with None => Err Corrupt | Some D => Ok (map_append u D n) end) m [].

(** find_embedding.hpp:122-129.  The original label is pushed, not the relabelled one. *)
Definition input_vars (nvars : nat) (vf : list bool) (V : list nat) : res (list nat) :=
  foldM (fun U v =>
      if decide (nvars <= v) then Err Corrupt else
      let! f := vget vf v in
      if negb f then Ok (U ++ [v]) else Ok U) V [].

Record processed := mkProc {
  pp_nvars : nat;
  pp_vfixed : list bool;
  pp_comps : comps;
  pp_qubits : nat;
  pp_reserved : nat;
  pp_nfixed : nat;
  pp_unscrew : list nat;
  pp_screw : list nat;
  pp_fixed : cmap;
  pp_initial : cmap;
  pp_restrict : cmap;
  pp_vnbrs : list (list nat);
  pp_qnbrs : list (list nat)
}.

(** find_embedding.hpp:49-69, with the verbosity check of util.hpp:170-176 *)
Definition process (vg qg : graph) (p : params) (srt : list (list nat) -> list (list nat)) : res processed :=
  let! (qr, vf, _) := reserved_of (gn vg) (gn qg) (p_fixed p) in
  let! cp := components srt qg (fun q => vget qr q) in
  let! pq := comp_size cp 0 in
  let! pr := comp_reserved cp 0 in
  let nfixed := length (p_fixed p) in
  let! un := filter_fixed (gn vg) nfixed vf in
  let! sc := inverse_perm un in
  let! fc := input_chains (gn vg) cp sc (p_fixed p) in
  let! ic := input_chains (gn vg) cp sc (p_initial p) in
  let! rc := input_chains (gn vg) cp sc (p_restrict p) in
  if decide (4 <= p_verbose p) then Err Corrupt else
  let! vn := get_neighbors vg (fun _ => Ok false) (fun v => vget vf v) (fun _ => Ok true) (fun v => vget sc v) in
  let! qn := component_neighbors cp 0 in
  Ok (mkProc (gn vg) vf cp pq pr nfixed un sc fc ic rc vn qn).

(** embedding_problem.hpp:271-283; [max_element] of an empty range is UB *)
Definition compute_margin (nq : nat) (vn : list (list nat)) : res Z :=
  if decide (nq = 0) then Ok 0%Z else
  match vn with
  | [] => Err UB
  | l :: ls =>
      let d := foldr (fun l m => Nat.max (length l) m) (length l) ls in
      Ok (if decide (d = 0) then Z.of_nat nq else (Z.of_nat d * Z.of_nat nq)%Z)
  end.

(** embedding_problem.hpp:232-263: [exponent_margin] is a 32-bit unsigned integer; the initial
    weight bound is floor(63 - log2 margin) or [max_fill] if that is smaller *)
Definition margin_bound (m max_fill : Z) : res (Z * Z) :=
  let m := (m mod 4294967296)%Z in
  if decide (m <= 0)%Z then Err TooSmall else
  Ok (m, Z.min (63 - Z.log2_up m) max_fill)%Z.

(** embedding_problem.hpp:72-87: the masks; a qubit out of range is UB *)
Definition mask_of (n : nat) (C : list nat) : res (list Z) :=
  foldM (fun r q => vset r q 0%Z) C (replicate n (-1)%Z).
Definition masks_of (k n : nat) (restrict : cmap) : res (list (list Z)) :=
  foldM (fun ms v => let! r := (match (list_to_map restrict : gmap nat (list nat)) !! v with
      | Some C => mask_of n C | None => Ok (replicate n 0%Z) end) in Ok (ms ++ [r])) (seq 0 k) [].

(** find_embedding.hpp:144-153 and 170-210: the pathfinder for processed parameters.
    [problem_qubits - problem_reserved] is unsigned; a negative value makes the allocation
    of the embedding fail. *)
Definition make_env (pp : processed) (p : params) (o : oracle) : res env :=
  if decide (pp_qubits pp < pp_reserved pp) then Err UB else
  let nq := pp_qubits pp - pp_reserved pp in
  let nv := pp_nvars pp - pp_nfixed pp in
  let! m := compute_margin nq (pp_vnbrs pp) in
  let! (m, wb0) := margin_bound m (p_max_fill p) in
  let! ms := (if decide (length (pp_restrict pp) = 0) then Ok None
              else let! ms := masks_of (pp_nvars pp) (nq + pp_reserved pp) (pp_restrict pp) in Ok (Some ms)) in
  Ok (mkEnv (mkProblem nv (pp_nfixed pp) nq (pp_reserved pp) (pp_qnbrs pp) ms)
        (o_rnd o) (o_stops o) (o_wtab o m) (p_max_no_improvement p) (p_tries p) (p_inner_rounds p)
        (p_chainlength_patience p) wb0 (p_skip_init p)
        (negb (bool_decide (length (pp_restrict pp) = 0))) (p_interactive p) (bool_decide (1 < p_threads p)) (o_fuel o)).

(** pathfinder.hpp:76-78: the chain of a variable in the best embedding; find_embedding.hpp:157-159 *)
Definition get_chain (pp : processed) (best : emb) (u : nat) : res (list nat) :=
  let! v := vget (pp_screw pp) u in
  let! c := vget (chains best) v in
  from_component (pp_comps pp) 0 (cqubits c).

(** find_embedding.hpp:232-247 and pathfinder.hpp:105-132.  Returns the success flag and the
    chains ([None] when they are cleared). *)
Definition find_embedding (vg qg : graph) (p : params) (o : oracle) : res (bool * option (list (list nat))) :=
  let! pp := process vg qg p (o_sort o) in
  let! e := make_env pp p o in
  let! init := emb_init (pb e) (pp_vnbrs pp) (pp_fixed pp) (pp_initial pp) in
  let! (ok, s, _, _) := heuristic_embedding e init (pathfinder_new e (pp_vnbrs pp)) (emb_new (pb e)) (emb_new (pb e)) in
  if p_return_overlap p || ok then
    let! cs := foldM (fun out u => let! c := get_chain pp (best s) u in Ok (out ++ [c])) (seq 0 (gn vg)) [] in
    Ok (ok, Some cs)
  else Ok (ok, None).
