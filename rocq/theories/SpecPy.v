(** What is claimed of the Python front end, in terms of the caller's labels. *)
From stdpp Require Import base list numbers relations.
From Verif Require Import PyModel ParamModel.

Section spec.
Context {A : Type}.

(** the edges of a graph given by the caller, and the labels that occur in it *)
Definition ladj (G : pygraph A) (a b : A) : Prop := (a, b) ∈ pg_edges G \/ (b, a) ∈ pg_edges G.
Definition endpoints (G : pygraph A) : list A := concat ((fun e => [fst e; snd e]) <$> pg_edges G).
Definition stream (G : pygraph A) : list A := endpoints G ++ match pg_nodes G with Some ns => ns | None => [] end.
Definition occurs (G : pygraph A) (a : A) : Prop := a ∈ stream G.

(** [L] lists the members of [l] without repeats, in the order in which they are first seen *)
Definition first_seen (l L : list A) : Prop :=
  NoDup L /\ (forall a, a ∈ L <-> a ∈ l) /\
  (forall i j a b, i < j -> L !! i = Some a -> L !! j = Some b ->
     exists pre post, l = pre ++ post /\ a ∈ pre /\ b ∉ pre).

(** [q] is in the chain of [v] in the dict [d] *)
Definition in_dict (d : list (A * list A)) (v q : A) : Prop := exists C, (v, C) ∈ d /\ q ∈ C.
(** the caller gave [v] a nonempty chain *)
Definition given (m : list (A * list A)) (v : A) : Prop := exists C, (v, C) ∈ m /\ C <> [].
Definition lconnected (adj : A -> A -> Prop) (P : A -> Prop) : Prop :=
  forall x y, P x -> P y -> rtc (fun a b => adj a b /\ P a /\ P b) x y.

(** the keys of the dict are the labels of the source graph, each once, and the chains consist of
    labels of the target graph *)
Definition complete_dict (S T : pygraph A) (d : list (A * list A)) : Prop :=
  NoDup d.*1 /\ (forall v, v ∈ d.*1 <-> occurs S v) /\ (forall v q, in_dict d v q -> occurs T q).

(** the dict is a minor embedding of [S] in [T] *)
Record label_embedding (S T : pygraph A) (d : list (A * list A)) : Prop := {
  le_dict : complete_dict S T d;
  le_nonempty : forall v, occurs S v -> exists q, in_dict d v q;
  le_connected : forall v, occurs S v -> lconnected (ladj T) (in_dict d v);
  le_disjoint : forall u v q, in_dict d u q -> in_dict d v q -> u = v;
  le_edges : forall u v, ladj S u v -> u <> v -> exists a b, in_dict d u a /\ in_dict d v b /\ ladj T a b }.

(** the same with fixed chains [F]: these are returned as given, and what they have to satisfy
    among themselves is the caller's business *)
Record label_embedding_fixed (S T : pygraph A) (F d : list (A * list A)) : Prop := {
  lf_dict : complete_dict S T d;
  lf_fixed : forall v C, (v, C) ∈ F -> C <> [] -> forall q, in_dict d v q <-> q ∈ C;
  lf_nonempty : forall v, occurs S v -> exists q, in_dict d v q;
  lf_connected : forall v, occurs S v -> ~ given F v -> lconnected (ladj T) (in_dict d v);
  lf_disjoint : forall u v q, in_dict d u q -> in_dict d v q -> u = v;
  lf_edges : forall u v, ladj S u v -> u <> v -> ~ (given F u /\ given F v) ->
     exists a b, in_dict d u a /\ in_dict d v b /\ ladj T a b }.

(** the chain of a suspended variable contains a qubit of each of its nonempty blobs *)
Definition hits (X : list (A * list (list A))) (d : list (A * list A)) (v : A) : Prop :=
  forall blobs blob, (v, blobs) ∈ X -> blob ∈ blobs -> blob <> [] -> exists q, q ∈ blob /\ in_dict d v q.

(** chain maps as a caller gives them: dicts of chains without repeats; fixed chains are disjoint,
    and initial chains are for other variables and on other qubits *)
Record good_maps (F I : list (A * list A)) : Prop := {
  gm_f : NoDup F.*1;
  gm_i : NoDup I.*1;
  gm_nd : forall v C, (v, C) ∈ F ++ I -> NoDup C;
  gm_disj : forall v C v' C' q, (v, C) ∈ F -> (v', C') ∈ F -> q ∈ C -> q ∈ C' -> v = v';
  gm_init : forall v C, (v, C) ∈ I -> ~ given F v /\ forall q v' C', q ∈ C -> (v', C') ∈ F -> q ∉ C' }.

(** the dict in what the function returns, and whether it reports success: without [return_overlap]
    a nonempty dict means success *)
End spec.

(** the function reports success with the dict [d]: the flag is set, or the flag is not returned
    and the dict is not empty *)
Definition reports {A : Type} (r : @pyresult A) (d : list (A * list A)) : Prop :=
  r = PyPair d true \/ (r = PyDict d /\ d <> []).

(** bounds of the int indices and of the model: see [good_input] *)
From Verif Require Import Base SpecGraph SpecTop QueueModel PathModel EmbModel.
Definition fits (n m : nat) (p : params) (o : oracle) : Prop :=
  (Z.of_nat m < 2147483648)%Z /\ sorts_by_size (o_sort o)
  /\ (forall margin m c, (0 <= c < 64)%Z -> (0 <= o_wtab o margin m c <= max_distance)%Z)
  /\ (Z.of_nat (p_chainlength_patience p) * ((Z.of_nat n + 1) ^ Z.of_nat (S m) + 1) <= Z.of_nat (o_fuel o))%Z.
(** an upper bound for the number of blobs *)
Definition blobs_of {A : Type} (p : pyparams A) : nat := length (concat (snd <$> py_suspend p)).
Definition py_fits {A : Type} (S T : pygraph A) (p : pyparams A) (o : oracle) : Prop :=
  forall VS VT, first_seen (stream S) VS -> first_seen (stream T) VT ->
  forall n m, n <= length VS + blobs_of p -> m <= length VT + blobs_of p -> fits n m (py_opts p) o.
