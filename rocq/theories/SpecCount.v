(** Vocabulary of C92: how much data a query has for a mixture. *)
From Verif Require Import Base MixtureKeyModel UtilsModel ChunkGenModel SpecChunk.
Open Scope Z_scope.

(** The rows of a query result that a mixture may take for its key [k]: those of every property combination equal to [k]. *)
Definition available (idx : index) (k : mkey) : list row :=
  flat_map (fun kp => if key_eq k (fst kp) then rows_of (snd kp) else []) idx.

(** The rows it may take for any of the keys [ks], each listed once. *)
Definition available_any (idx : index) (ks : list mkey) : list row :=
  flat_map (fun kp => if existsb (fun k => key_eq k (fst kp)) ks then rows_of (snd kp) else []) idx.

(** No property combination of the query result is equal to two keys of the mixture. *)
Definition keys_apart (idx : index) (rows : list (mkey * Z)) : Prop :=
  forall ck k k', In ck (map fst idx) -> In k (map fst rows) -> In k' (map fst rows) -> key_eq k ck = true -> key_eq k' ck = true -> k = k'.

(** A call of [next()] gave a chunk. *)
Definition delivered (o : nout) : Prop := exists c, o = NChunk c.
