(** Model of what a trainer sees: mixtera_client.py 266-292 stream_results over the chunks handed to it (C16), each
    configured (result_chunk.py 140-254) and iterated (259-274, 623-634) on the trainer's own machine.

    Simplifications: the mixture id mark (C44) is left out; a chunk that raises ends the stream with the exception. *)
From Verif Require Import Base MixtureKeyModel UtilsModel ChunkGenModel MixtureModel TokenModel ResultChunkModel.
From Coq Require Import QArith.
Open Scope Z_scope.

Section Group.
  Context {A : Type}.
  Variable fl : Q -> Q.
  Variable read : Z -> Z -> list range -> stream A.
  Variable is_end is_none : A -> bool.
  Variable sh : shuffles.
  Variable cpu : Z.                (** mp.cpu_count() of the machine, result_chunk.py 336-339 *)
  Variable fuel : nat.
  Variable a : rargs A.

  (** mixtera_client.py 283-287: configure the chunk and [yield from] it. *)
  Definition chunk_results (c : rc) : list (nat * Z * sample A) * nxt unit :=
    match configure fl c a with
    | Err e => ([], Raise e)
    | Ok cf => iterate fl read is_end is_none sh cpu fuel c cf
    end.

  (** mixtera_client.py 277-287: chunk after chunk, until one raises. *)
  Fixpoint stream_results (cs : list rc) : list (nat * Z * sample A) * nxt unit :=
    match cs with
    | [] => ([], StopIter)
    | c :: cs' =>
        match chunk_results c with
        | (out, StopIter) => let '(out', e) := stream_results cs' in (out ++ out', e)
        | (out, e) => (out, e)
        end
    end.
End Group.
