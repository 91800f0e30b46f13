(** Specification vocabulary for iterating over an arbitrary mixture with an even number of keys (C05). *)
From Verif Require Import Base MixtureKeyModel UtilsModel ChunkGenModel SpecChunk.
Open Scope Z_scope.

(** The elements at positions 0, 2, 4, ... and at positions 1, 3, 5, ... of a list. *)
Fixpoint at_even {A} (l : list A) : list A :=
  match l with [] => [] | [x] => [x] | x :: _ :: r => x :: at_even r end.
Fixpoint at_odd {A} (l : list A) : list A :=
  match l with [] => [] | [x] => [] | _ :: y :: r => y :: at_odd r end.

(** How many chunks of at most [c] rows the rows of key [k] make. *)
Definition chunks_needed (c : Z) (idx : index) (k : mkey) : Z := (Z.of_nat (length (rows_under k idx)) + c - 1) / c.

(** All mixture objects are arbitrary mixtures of chunk size [c]. *)
Definition fixed_size (c : Z) (h : heap) : Prop := forall r, m_rows (h r) = [] /\ m_csize (h r) = c.

(** The round robin over keys in the given order gets through. *)
Definition balanced (c : Z) (idx : index) (order : list mkey) : Prop :=
  let odd := zsum (map (chunks_needed c idx) (at_odd order)) in
  let even := zsum (map (chunks_needed c idx) (at_even order)) in
  odd = even \/ odd = even + 1.
