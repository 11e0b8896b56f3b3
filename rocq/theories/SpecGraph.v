(** Vocabulary of the statements about graphs and components. *)
From stdpp Require Import base list numbers relations sorting.
From Verif Require Import Base GraphModel.

(** every edge joins two nodes of the graph *)
Definition graph_wf (g : graph) : Prop := forall a b, (a, b) ∈ ge g -> a < gn g /\ b < gn g.
(** an edge of the undirected graph *)
Definition edge (g : graph) (x y : nat) : Prop := (x, y) ∈ ge g \/ (y, x) ∈ ge g.

(** a sort by nonincreasing length, leaving the order of ties open *)
Definition sorts_by_size (srt : list (list nat) -> list (list nat)) : Prop :=
  forall l, srt l ≡ₚ l /\ StronglySorted (fun a b => length b <= length a) (srt l).

(** strictly increasing lists, as kept by [std::set] *)
Definition increasing (l : list nat) : Prop := StronglySorted lt l.

(** node [x] is the [j]-th node of component [c] *)
Definition located (cp : comps) (x c j : nat) : Prop := exists l, cnodes cp !! c = Some l /\ l !! j = Some x.

(** [cp] is the decomposition of [g], [R] telling which nodes are reserved *)
Record decomposition (g : graph) (R : nat -> bool) (cp : comps) : Prop := {
  dc_partition : forall x, x < gn g -> exists c j, located cp x c j;
  dc_located : forall x c j, located cp x c j ->
     x < gn g /\ cindex cp !! x = Some c /\ clabel cp !! x = Some j;
  dc_len : length (cindex cp) = gn g /\ length (clabel cp) = gn g /\
     length (creserved cp) = length (cnodes cp) /\ length (cgraphs cp) = length (cnodes cp);
  dc_paths : forall x y c j d k, located cp x c j -> located cp y d k -> c = d <-> rtc (edge g) x y;
  dc_nonempty : forall c l, cnodes cp !! c = Some l -> l <> [];
  dc_sorted : forall c d l m, c < d -> cnodes cp !! c = Some l -> cnodes cp !! d = Some m -> length m <= length l;
  dc_reserved : forall c l r, cnodes cp !! c = Some l -> creserved cp !! c = Some r -> r <= length l /\
     forall x j, l !! j = Some x -> R x = true <-> length l - r <= j;
  dc_edges : forall c gc i j, cgraphs cp !! c = Some gc ->
     edge gc i j <-> exists x y, located cp x c i /\ located cp y c j /\ edge g x y;
  dc_size : forall c gc l, cgraphs cp !! c = Some gc -> cnodes cp !! c = Some l ->
     graph_wf gc /\ gn gc <= length l /\ (2 <= length l -> gn gc = length l) /\ (gn gc = 0 <-> ge gc = [])
}.
