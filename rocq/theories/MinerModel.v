(** Model of the miner class (minorminer/_minorminer.pyx:446-640) over
    include/find_embedding/find_embedding.hpp:144-173: a pathfinder kept between calls. *)
From stdpp Require Import base list numbers gmap.
From Verif Require Import Base ChainModel EmbModel QueueModel PathModel GraphModel ParamModel.

(** pathfinder.hpp:75-103 with _minorminer.pyx:459-461: the processed parameters, the problem,
    the member embeddings, the rest of the state, and whether [quickpass] was called before *)
Record miner := mkMiner {
  mi_pp : processed;
  mi_env : env;
  mi_init : emb;
  mi_st : st;
  mi_curr : emb;
  mi_last : emb;
  mi_quick : bool
}.

(** The public methods.  Variables are the indices _minorminer.pyx gives to labels.
    [find_embeddings] and [improve_embeddings] (_minorminer.pyx:555-625) are sequences of these.
    A quick pass carries the weight table for its [round_beta] (embedding_problem.hpp:286-297). *)
Inductive call :=
  | CFind
  | CInit (m : cmap)
  | CQuick (order : list nat) (clb : nat) (overlap : Z) (local_search clear_first : bool) (wt : Z -> Z -> Z)
  | CStrategy (o : varorder) (clb : nat) (overlap : Z) (local_search clear_first : bool) (wt : Z -> Z -> Z).

Inductive answer :=
  | ADone
  | AFound (success : bool) (cs : option (list (list nat)))
  | APass (cs : list (list nat)).

(** _minorminer.pyx:462-468, find_embedding.hpp:149-153, pathfinder.hpp:105-132 *)
Definition miner_new (vg qg : graph) (p : params) (o : oracle) : res miner :=
  let! pp := process vg qg p (o_sort o) in
  let! e := make_env pp p o in
  let! init := emb_init (pb e) (pp_vnbrs pp) (pp_fixed pp) (pp_initial pp) in
  Ok (mkMiner pp e init (pathfinder_new e (pp_vnbrs pp)) (emb_new (pb e)) (emb_new (pb e)) false).

(** find_embedding.hpp:157-159 for every variable.  The Python methods leave out the pins of
    suspended chains and, in [quickpass], empty chains. *)
Definition miner_chains (m : miner) : res (list (list nat)) :=
  foldM (fun out u => let! c := get_chain (mi_pp m) (best (mi_st m)) u in Ok (out ++ [c]))
        (seq 0 (pp_nvars (mi_pp m))) [].

(** the problem with another weight table *)
Definition with_wtab (e : env) (wt : Z -> Z -> Z) : env :=
  mkEnv (pb e) (rnd e) (stops e) wt (max_no_improvement e) (tries e) (inner_rounds e) (chainlength_patience e)
    (wbound0 e) (skip_init e) (has_restrict e) (interactive e) (parallel e) (chain_fuel e).

Definition with_st (m : miner) (s : st) (quick : bool) : miner :=
  mkMiner (mi_pp m) (mi_env m) (mi_init m) s (mi_curr m) (mi_last m) quick.

(** One call.  An exception leaves the object in a state that is not modelled: a history ends
    with the first one.
    - [CFind]: _minorminer.pyx:474-498, find_embedding.hpp:161
    - [CInit]: _minorminer.pyx:590-602, find_embedding.hpp:165, pathfinder.hpp:135-137
    - [CQuick], [CStrategy]: _minorminer.pyx:500-553, find_embedding.hpp:166-173; the first call
      always clears *)
Definition mstep (p : params) (m : miner) (c : call) : res (miner * answer) :=
  match c with
  | CFind =>
      let! (ok, s, curr, last) := heuristic_embedding (mi_env m) (mi_init m) (mi_st m) (mi_curr m) (mi_last m) in
      let m := mkMiner (mi_pp m) (mi_env m) (mi_init m) s curr last (mi_quick m) in
      if p_return_overlap p || ok then let! cs := miner_chains m in Ok (m, AFound ok (Some cs))
      else Ok (m, AFound ok None)
  | CInit ch =>
      let! ic := input_chains (pp_nvars (mi_pp m)) (pp_comps (mi_pp m)) (pp_screw (mi_pp m)) ch in
      let! em := emb_init (pb (mi_env m)) (vn (mi_st m)) (pp_fixed (mi_pp m)) ic in
      let! init := emb_assign (mi_init m) em in
      Ok (mkMiner (mi_pp m) (mi_env m) init (mi_st m) (mi_curr m) (mi_last m) (mi_quick m), ADone)
  | CQuick vs clb ov ls clear wt =>
      let! order := input_vars (pp_nvars (mi_pp m)) (pp_vfixed (mi_pp m)) vs in
      let! s := quick_pass (with_wtab (mi_env m) wt) (mi_init m) order clb ov ls (clear || negb (mi_quick m)) (mi_st m) in
      let m := with_st m s true in
      let! cs := miner_chains m in Ok (m, APass cs)
  | CStrategy o clb ov ls clear wt =>
      let! s := quick_pass_order (with_wtab (mi_env m) wt) (mi_init m) o clb ov ls (clear || negb (mi_quick m)) (mi_st m) in
      let m := with_st m s true in
      let! cs := miner_chains m in Ok (m, APass cs)
  end.

(** A history: the calls with their answers *)
Fixpoint mrun (p : params) (m : miner) (cs : list call) : res (miner * list answer) :=
  match cs with
  | [] => Ok (m, [])
  | c :: cs => let! (m, a) := mstep p m c in let! (m, l) := mrun p m cs in Ok (m, a :: l)
  end.
