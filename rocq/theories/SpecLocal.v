(** Vocabulary of C82, in terms of what the streams of the workers delivered. *)
From Verif Require Import Base MixtureKeyModel UtilsModel ChunkGenModel LocalModel.
From Verif Require Export SpecSubseq.
Open Scope Z_scope.

(** The chunks all streams delivered, in the order of delivery. *)
Definition delivered (res : list (nat * lout)) : list rchunk :=
  flat_map (fun x => match snd x with LChunk c => [c] | _ => [] end) res.

(** The chunks the stream of process [p] delivered. *)
Definition delivered_to (p : nat) (res : list (nat * lout)) : list rchunk :=
  delivered (filter (fun x => Nat.eqb p (fst x)) res).

(** The stream of some process has ended. *)
Definition some_stream_ended (res : list (nat * lout)) : Prop := exists p, In (p, LEnd) res.

(** No stream is in the middle of fetching a chunk. *)
Definition idle (w : lworld) : Prop := forall p, l_pend (lw_procs w p) = None.
