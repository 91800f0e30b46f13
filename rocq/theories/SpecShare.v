(** Vocabulary of C93: when a chunk follows a mixture. *)
From Verif Require Import Base MixtureKeyModel UtilsModel ChunkGenModel SpecChunk.
Open Scope Z_scope.

(** The chunk lists, for every key, exactly as many rows as the mixture asks. *)
Definition follows (c : rchunk) (m : mixobj) : Prop := forall k, Z.of_nat (length (rows_under k (rc_index c))) = asked (m_rows m) k.

(** The rows that the calls with the results [os] delivered. *)
Definition delivered_rows (os : list nout) : list row := flat_map (fun c => all_rows (rc_index c)) (chunks os).

(** Call number [j] gave a chunk. *)
Definition gave_chunk (os : list nout) (j : nat) : Prop := exists c, nth_error os j = Some (NChunk c).
