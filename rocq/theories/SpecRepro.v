(** What it means that re-running a query is reproducible (C74). *)
From Verif Require Import Base MixtureKeyModel UtilsModel ChunkGenModel SpecChunk.
Open Scope Z_scope.

(** A key is written in one way only: keys with the same properties and values are the same. *)
Definition one_spelling (ks : list mkey) : Prop := forall k k', In k ks -> In k' ks -> canon k = canon k' -> k = k'.
(** The keys of all mixtures and of the index. *)
Definition spelled (h : heap) (idx : index) : Prop := forall r, one_spelling (map fst (m_rows (h r)) ++ map fst idx).

(** The same dict entries, in any order. *)
Definition reordered {V} (a b : list (mkey * V)) : Prop := NoDup (map fst a) /\ Permutation a b.
(** Mixtures that are equal as Python objects: the same counts for the same keys. *)
Definition same_mixture (m m' : mixobj) : Prop :=
  reordered (m_rows m) (m_rows m') /\ m_strict m = m_strict m' /\ m_csize m = m_csize m'.
(** Calls that differ only in the order in which mixtures list their keys. *)
Inductive same_call : qop -> qop -> Prop :=
| sc_next h h' : (forall r, same_mixture (h r) (h' r)) -> same_call (Next h) (Next h')
| sc_update h h' r : (forall r, same_mixture (h r) (h' r)) -> same_call (Update h r) (Update h' r).
(** The same chunk: the same rows under the same keys in the same order, key ids, mixture id and sizes. *)
Definition same_chunk (c c' : rchunk) : Prop :=
  rc_index c = rc_index c' /\ rc_csize c = rc_csize c' /\ rc_kid c = rc_kid c' /\ rc_mid c = rc_mid c' /\ rc_strict c = rc_strict c' /\
  match rc_mix c, rc_mix c' with Some m, Some m' => reordered m m' | None, None => True | _, _ => False end.
Inductive same_outcome : nout -> nout -> Prop :=
| so_chunk c c' : same_chunk c c' -> same_outcome (NChunk c) (NChunk c')
| so_none : same_outcome NNone NNone
| so_stop : same_outcome NStop NStop
| so_err e : same_outcome (NErr e) (NErr e).
