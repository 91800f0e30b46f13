(** What the query cache should serve. *)
From Verif Require Import Base MixtureKeyModel ChunkerModel SerialModel SpecSerial MdcModel CacheModel.
Open Scope Z_scope.

(** Running a query returns an index in the sense of SpecSerial (this is C32). *)
Definition returns_indexes {M query} (executes : view_t -> query -> M * pindex -> Prop) : Prop :=
  forall v q m idx, executes v q (m, idx) -> is_index idx /\ no_empty idx.
(** [p] lists nothing that [idx] does not list. *)
Definition part_of (p idx : pindex) : Prop := forall k d f iv, at_kdf p k d f = Some iv -> at_kdf idx k d f = Some iv.
(** The answer is what running a query with this text on the present catalogue would return. *)
Definition fresh_answer {M query} (text : query -> str) (executes : view_t -> query -> M * pindex -> Prop) (s : db) (t : str) (r : M * pindex) : Prop :=
  exists q idx, text q = t /\ executes (view s) q (fst r, idx) /\ akeys (snd r) = akeys idx /\ same_index (snd r) idx.
(** ... or a part of it. *)
Definition partial_answer {M query} (text : query -> str) (executes : view_t -> query -> M * pindex -> Prop) (s : db) (t : str) (r : M * pindex) : Prop :=
  exists q idx, text q = t /\ executes (view s) q (fst r, idx) /\ part_of (snd r) idx.
