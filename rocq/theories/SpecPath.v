(** Vocabulary of the statements about distances between chains and qubits. *)
From stdpp Require Import base list numbers gmap.
From Verif Require Import Base ChainModel EmbModel SpecEmb QueueModel PathModel.
Local Open Scope Z_scope.

(** Cost of reaching a qubit along a path: a path starts at some [q] with cost [c] such that
    [src q c], follows [nb], enters only qubits in [adm], and pays [w p] for every qubit entered *)
Inductive path_cost (src : nat -> Z -> Prop) (nb : nat -> nat -> Prop) (adm : nat -> Prop) (w : nat -> Z) : nat -> Z -> Prop :=
| pc_src q c : src q c -> path_cost src nb adm w q c
| pc_step q p c : path_cost src nb adm w q c -> nb q p -> adm p -> path_cost src nb adm w p (c + w p).

(** The search from the chain of [v] for a chain of [u] is confined to the qubits one of the two
    may use. *)
Definition search_area (pb : problem) (u v q : nat) : Prop := may_use pb u q \/ may_use pb v q.

(** The searches for a chain of [u], one from each of its neighbours, all have the same area.  So it
    is when no two adjacent variables are both restricted, or when all variables are restricted alike. *)
Definition even_areas (pb : problem) (E : nat -> nat -> Prop) : Prop :=
  forall u v v' x, (x < nq pb)%nat -> E u v -> E u v' -> search_area pb u v x -> search_area pb u v' x.

(** Where the paths from a chain start.  A free variable's chain is a starting point at no cost.
    A fixed variable's chain lies on reserved qubits, which are no part of any path: paths start
    at the free qubits next to it, which are paid for. *)
Definition chain_start (pb : problem) (em : emb) (u v : nat) (w : nat -> Z) (q : nat) (c : Z) : Prop :=
  if decide (v < nv pb)%nat then in_chain em v q /\ c = 0
  else (exists p, in_chain em v p /\ nbq pb p q) /\ search_area pb u v q /\ c = w q.

(** cost of a path from the chain of [v] to [q] entering only qubits in the area and filled below
    [bound] *)
Definition reach_cost (pb : problem) (em : emb) (bound : Z) (w : nat -> Z) (u v q : nat) (c : Z) : Prop :=
  path_cost (chain_start pb em u v w) (nbq pb) (fun p => wt (eweight em) p < bound /\ search_area pb u v p) w q c.
(** cost of a cheapest path *)
Definition shortest (pb : problem) (em : emb) (bound : Z) (w : nat -> Z) (u v q : nat) (c : Z) : Prop :=
  reach_cost pb em bound w u v q c /\ forall c', reach_cost pb em bound w u v q c' -> c <= c'.

(** following the recorded parents from [q] walks along target edges to the chain of [v], and the
    qubits passed cost [c] in total *)
Inductive walk_home (pb : problem) (em : emb) (v : nat) (w : nat -> Z) (parents : list (option nat)) : nat -> Z -> Prop :=
| wh_chain q : (v < nv pb)%nat -> in_chain em v q -> parents !! q = Some None -> walk_home pb em v w parents q 0
| wh_fixed q p : (nv pb <= v)%nat -> ~ in_chain em v q -> parents !! q = Some (Some p) -> nbq pb p q -> in_chain em v p ->
    walk_home pb em v w parents q (w q)
| wh_step q p c : ~ in_chain em v q -> parents !! q = Some (Some p) -> nbq pb p q -> walk_home pb em v w parents p c ->
    walk_home pb em v w parents q (c + w q).

(** what the rows of [v] hold after a search for [u]: [vis] marks, distances, parents *)
Record search_exact (pb : problem) (em : emb) (bound : Z) (w : nat -> Z) (u v : nat)
    (marks dists : list Z) (parents : list (option nat)) : Prop := {
  se_reached : forall q c, (q < nq pb)%nat -> reach_cost pb em bound w u v q c ->
     exists d, marks !! q = Some 1 /\ dists !! q = Some d /\ shortest pb em bound w u v q d /\ walk_home pb em v w parents q d;
  se_blocked : forall q, (q < nq pb)%nat -> search_area pb u v q -> (forall c, ~ reach_cost pb em bound w u v q c) ->
     (exists p c, reach_cost pb em bound w u v p c /\ nbq pb p q) ->
     marks !! q = Some 1 /\ dists !! q = Some max_distance /\ bound <= wt (eweight em) q;
  se_away : forall q, (q < nq pb)%nat -> search_area pb u v q -> (forall c, ~ reach_cost pb em bound w u v q c) ->
     (forall p c, reach_cost pb em bound w u v p c -> ~ nbq pb p q) -> marks !! q = Some 0;
  se_forbidden : forall q, (q < nq pb)%nat -> ~ search_area pb u v q -> (forall c, ~ reach_cost pb em bound w u v q c) ->
     marks !! q = Some (-1)
}.

(** what neighbour [v] adds to the total at [q]: [q] must be filled below the bound and reachable;
    the cheapest path, and once more the weight of [q] if [q] lies in the chain of a free [v] *)
Definition share (pb : problem) (em : emb) (bound : Z) (w : nat -> Z) (u q v : nat) (a : Z) : Prop :=
  wt (eweight em) q < bound /\ exists c, shortest pb em bound w u v q c /\ c <> max_distance /\
    ((v < nv pb)%nat /\ in_chain em v q /\ 0 < w q /\ w q <> max_distance /\ a = w q + c \/
     ~ ((v < nv pb)%nat /\ in_chain em v q) /\ a = c).
(** a sum of one share per element of a list *)
Inductive sum_over (R : nat -> Z -> Prop) : list nat -> Z -> Prop :=
| so_nil : sum_over R [] 0
| so_cons v l a s : R v a -> sum_over R l s -> sum_over R (v :: l) (a + s).

(** the neighbours that have a chain *)
Definition embedded_of (em : emb) (l : list nat) : list nat := base.filter (fun v => chain_size em v <> 0%nat) l.

(** the totals for a chain of [u] are exact: infinity ([max_distance]) if [u] may not use the qubit
    or some embedded neighbour cannot reach it, else the sum of the shares (or infinity if the sum
    is larger) *)
Definition totals_exact (pb : problem) (em : emb) (bound : Z) (w : nat -> Z) (u : nat) (l : list nat) (tot : list Z) : Prop :=
  forall q, (q < nq pb)%nat -> exists t, tot !! q = Some t /\
    (forall s, may_use pb u q -> sum_over (share pb em bound w u q) (embedded_of em l) s -> t = Z.min s max_distance) /\
    (~ may_use pb u q \/ (forall s, ~ sum_over (share pb em bound w u q) (embedded_of em l) s) -> t = max_distance).

(** Sizes of the search buffers of a pathfinder *)
Record buffers_ok (pb : problem) (b : search) : Prop := {
  bo_par : length (par b) = (nv pb + nf pb)%nat;
  bo_vis : length (vis b) = (nv pb + nf pb)%nat;
  bo_dist : length (dist b) = (nv pb + nf pb)%nat;
  bo_perm : (nv pb + nf pb <= length (perm b))%nat;
  bo_parr : forall v r, par b !! v = Some r -> length r = (nq pb + nr pb)%nat;
  bo_visr : forall v r, vis b !! v = Some r -> length r = nq pb;
  bo_distr : forall v r, dist b !! v = Some r -> length r = (nq pb + nr pb)%nat /\ forall d, d ∈ r -> d <= max_distance;
  bo_permr : forall v r, perm b !! v = Some r -> length r = nq pb;
  bo_total : length (total b) = nq pb;
  bo_qw : length (qw b) = nq pb
}.
(** chains of free variables on free qubits, chains of fixed variables on reserved qubits *)
Record placed_ok (pb : problem) (em : emb) : Prop := {
  po_ew : length (eweight em) = (nq pb + nr pb)%nat;
  po_len : length (chains em) = (nv pb + nf pb)%nat;
  po_free : forall v q, (v < nv pb)%nat -> in_chain em v q -> (q < nq pb)%nat;
  po_fixed : forall v q, (nv pb <= v)%nat -> in_chain em v q -> (nq pb <= q < nq pb + nr pb)%nat
}.
(** a vector of costs between 0 and infinity *)
Definition costs_ok (pb : problem) (w : list Z) : Prop :=
  length w = nq pb /\ forall q, (q < nq pb)%nat -> 0 <= wt w q <= max_distance.

(** the cost of a qubit: the tabulated weight of its fill, given the maximal fill [m]; fills
    outside the table cost infinity *)
Definition tabulated (e : env) (em : emb) (w : nat -> Z) : Prop := exists m,
  (forall q, (q < nq (pb e))%nat -> wt (eweight em) q <= m) /\ (exists q, (q < nq (pb e))%nat /\ wt (eweight em) q = m) /\
  forall q, (q < nq (pb e))%nat -> w q = let f := wt (eweight em) q in if decide (0 <= f < 64) then wtab e m f else max_distance.
(** the entries of the weight table are costs *)
Definition table_ok (e : env) : Prop := forall m c, 0 <= c < 64 -> 0 <= wtab e m c <= max_distance.
(** no sum of distances to the chains of [l] can exceed infinity *)
Definition sums_fit (e : env) (em : emb) (l : list nat) : Prop := exists M, 0 <= M /\
  (forall w, tabulated e em w -> forall q, (q < nq (pb e))%nat -> w q <= M) /\
  (Z.of_nat (length l) + 1) * (Z.of_nat (nq (pb e)) * M) <= max_distance.
(** the root of the chain of [u] *)
Definition root_of (em : emb) (u r : nat) : Prop := exists c, chains em !! u = Some c /\ clinks c !! u = Some r.
(** the same environment with another random sequence, or with threads switched on or off *)
Definition with_rnd (e : env) (f : nat -> nat) : env :=
  mkEnv (pb e) f (stops e) (wtab e) (max_no_improvement e) (tries e) (inner_rounds e) (chainlength_patience e) (wbound0 e)
    (skip_init e) (has_restrict e) (interactive e) (parallel e) (chain_fuel e).
Definition with_parallel (e : env) (b : bool) : env :=
  mkEnv (pb e) (rnd e) (stops e) (wtab e) (max_no_improvement e) (tries e) (inner_rounds e) (chainlength_patience e) (wbound0 e)
    (skip_init e) (has_restrict e) (interactive e) b (chain_fuel e).
