(** Vocabulary of the statements about the improvement check. *)
From stdpp Require Import base list numbers gmap.
From Verif Require Import Base ChainModel EmbModel SpecEmb EmbOps QueueModel PathModel.

(** no free qubit is in two chains *)
Definition no_overlap (pb : problem) (em : emb) : Prop := forall q, q < nq pb -> users em q <= 1.
(** the chain lengths of [a] give a smaller histogram than those of [b] *)
Definition shorter (pb : problem) (a b : emb) : Prop := exists h h',
  h <> [] /\ h' <> [] /\
  histogram (chain_size a) (seq 0 (nv pb)) h /\ histogram (chain_size b) (seq 0 (nv pb)) h' /\ hist_lt h h'.

(** States reached by offering candidate embeddings to the improvement check, in any order;
    between offers anything may change but the recorded best embedding and its statistics, and
    a new try may clear the statistics as long as no embedding was found. *)
Inductive offered (e : env) (E : nat -> nat -> Prop) : st -> Prop :=
| of_start s : best s = emb_new (pb e) -> stats s = [] -> embedded (md s) = false -> offered e E s
| of_offer s em b s' : offered e E s -> reach (pb e) E em -> check_improvement e s em = Ok (b, s') -> offered e E s'
| of_other s s' : offered e E s -> best s' = best s -> stats s' = stats s ->
    embedded (md s') = embedded (md s) -> offered e E s'
| of_retry s s' : offered e E s -> embedded (md s) = false -> best s' = best s -> stats s' = [] ->
    embedded (md s') = false -> offered e E s'.

(** [s'] comes after [s] in such a sequence *)
Inductive later (e : env) (E : nat -> nat -> Prop) (s : st) : st -> Prop :=
| la_now : later e E s s
| la_offer s1 em b s2 : later e E s s1 -> reach (pb e) E em -> check_improvement e s1 em = Ok (b, s2) -> later e E s s2
| la_other s1 s2 : later e E s s1 -> best s2 = best s1 -> stats s2 = stats s1 ->
    embedded (md s2) = embedded (md s1) -> later e E s s2.
