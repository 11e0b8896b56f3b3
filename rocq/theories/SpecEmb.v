(** Vocabulary of the statements about embeddings: well-formed problems, the sets of qubits
    of an embedding, histograms.  Only the data types of the model are used. *)
From stdpp Require Import base list numbers gmap.
From Verif Require Import Base ChainModel EmbModel.

(** [y] is listed as a neighbour of [x]; target edges *)
Definition nbq (pb : problem) (x y : nat) : Prop := exists l, qnb pb !! x = Some l /\ y ∈ l.
Definition adjq (pb : problem) (x y : nat) : Prop := nbq pb x y \/ nbq pb y x.

(** neighbour relation of a neighbour list *)
Definition nbr (vn : list (list nat)) (u v : nat) : Prop := exists l, vn !! u = Some l /\ v ∈ l.

(** Neighbour lists of the qubits as the code builds them: reserved qubits (numbered from [nq]
    on) list their free neighbours but are listed by nobody *)
Record pb_wf (pb : problem) : Prop := {
  pbw_len : length (qnb pb) = (nq pb + nr pb);
  pbw_range : forall x y, nbq pb x y -> (y < nq pb);
  pbw_loop : forall x y, nbq pb x y -> y <> x;
  pbw_sym : forall x y, (x < nq pb) -> nbq pb x y -> nbq pb y x;
  pbw_masks : forall m, masks pb = Some m -> length m = (nv pb + nf pb) /\
     forall u r, m !! u = Some r -> length r = (nq pb + nr pb) /\ forall x, x ∈ r -> x = 0%Z \/ x = (-1)%Z
}.

(** variable [u] may use qubit [q]: a mask entry is 0 for allowed, -1 for forbidden *)
Definition may_use (pb : problem) (u q : nat) : Prop :=
  match masks pb with None => True | Some m => exists r, m !! u = Some r /\ r !! q = Some 0%Z end.

(** Neighbour lists of the variables: fixed variables (numbered from [nv] on) have empty lists *)
Record vn_wf (pb : problem) (vn : list (list nat)) : Prop := {
  vnw_len : length vn = (nv pb + nf pb);
  vnw_range : forall u v, nbr vn u v -> (v < nv pb + nf pb);
  vnw_src : forall u v, nbr vn u v -> (u < nv pb);
  vnw_loop : forall u v, nbr vn u v -> v <> u;
  vnw_sym : forall u v, nbr vn u v -> (v < nv pb) -> nbr vn v u;
  vnw_nodup : forall u l, vn !! u = Some l -> NoDup l
}.

(** The chains handed to the constructor: keys without repeats, qubits in range, fixed
    variables numbered from [nv] on; a chain does not list a qubit twice.
    (parameter processing produces such maps, see C17.) *)
Record chain_input (pb : problem) (fixed initial : list (nat * list nat)) : Prop := {
  ci_fnd : NoDup fixed.*1;
  ci_ind : NoDup initial.*1;
  ci_fkeys : forall v C, (v, C) ∈ fixed -> nv pb <= v < nv pb + nf pb /\
     (forall q, q ∈ C -> q < nq pb + nr pb) /\ NoDup C;
  ci_fall : forall v, nv pb <= v < nv pb + nf pb -> v ∈ fixed.*1;
  ci_ikeys : forall v C, (v, C) ∈ initial -> v < nv pb /\ C <> [] /\ (forall q, q ∈ C -> q < nq pb) /\ NoDup C
}.

(** [q] belongs to the chain of [v] *)
Definition in_chain (e : emb) (v q : nat) : Prop := exists c, chains e !! v = Some c /\ is_Some (cdata c !! q).
(** [u] holds a link towards [v] *)
Definition has_link (e : emb) (u v : nat) : Prop := exists c, chains e !! u = Some c /\ is_Some (clinks c !! v).

(** number of chains containing [q] *)
Definition users (e : emb) (q : nat) : nat :=
  length (List.filter (fun c => bool_decide (is_Some (cdata c !! q))) (chains e)).
(** number of qubits of the chain of [v] *)
Definition chain_size (e : emb) (v : nat) : nat := match chains e !! v with Some c => size (cdata c) | None => 0 end.

(** [h] counts, for each [i], how many of the [xs] have [f x = i], up to the maximum *)
Definition histogram {A} (f : A -> nat) (xs : list A) (h : list Z) : Prop :=
  (forall i x, h !! i = Some x -> x = Z.of_nat (length (List.filter (fun a => Nat.eqb (f a) i) xs))) /\
  (forall a, a ∈ xs -> (f a < length h)) /\
  ((1 < length h) -> exists a, a ∈ xs /\ f a = (length h - 1)).

(** a histogram is smaller: shorter, or smaller at the last place where they differ *)
Definition hist_lt (new old : list Z) : Prop :=
  length new < length old \/
  (length new = length old /\ exists i x y, new !! i = Some x /\ old !! i = Some y /\ (x < y)%Z /\
     forall j, i < j -> new !! j = old !! j).
