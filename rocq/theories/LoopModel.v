(** Model of the time the server takes to answer (mixtera/network/server/server.py 61-502): one event loop handles the requests
    of all clients; a handler that computes or sleeps without awaiting holds up everybody, one that hands its computation
    to a thread (asyncio.to_thread, 95, 199-201, 399) does not.
    Simplifications: requests are handled in the order given, one after the other (between awaits the loop may switch between
    handlers, which only matters for the order of short steps); the threads of background tasks cost the loop nothing
    (they share the interpreter lock and the job table's lock in reality); time in milliseconds. *)
From Coq Require Import ZArith List Bool.
Import ListNotations.
From Verif Require Import LocalWaitModel.
Open Scope Z_scope.

(** mixtera/network/server_task.py 4-21, server.py 455-491. *)
Inductive kind :=
| RegisterQuery | QueryStatus | ReadFile | MetaResult | NextChunk | RegisterDataset | DatasetStatus | RegisterParser
| DatasetExists | ListDatasets | RemoveDataset | AddProperty | Checkpoint | CheckpointCompleted | Restore | Feedback.

(** server.py 89-90, 185-188, 393-394: the computation is started as a task of its own and runs in a thread. *)
Definition background (k : kind) : bool :=
  match k with RegisterQuery | RegisterDataset | Restore => true | _ => false end.

(** server.py 137, 156, 371, 383 with local_stub.py 133-146, 174-192: the handler first waits for the job's entry. *)
Definition needs_job (k : kind) : bool :=
  match k with MetaResult | NextChunk | Checkpoint | CheckpointCompleted => true | _ => false end.

(** How long the client's method waits for the answer: server_connection.py 245, 638, 660, 706, 719; otherwise the default of
    network_utils.py 10, 84, 113, 147. *)
Definition patience (k : kind) : Z :=
  match k with
  | NextChunk => 10 * 60 * 1000
  | Checkpoint => 60 * 60 * 1000
  | CheckpointCompleted => (60 * 60 + 5 * 60) * 1000
  | Feedback | QueryStatus => 5 * 60 * 1000
  | _ => 10 * 1000
  end.

(** A request (server.py 438-502): when it is there to be read, its kind, its job if it has one, how long its reading and
    answering take, how long its computation takes, and the durations of the steps of its wait for the job. *)
Record request := Req {
  rq_at : Z; rq_kind : kind; rq_job : Z; rq_io : nat; rq_work : nat; rq_lag : nat; rq_ds : list delays; rq_late : nat
}.

Section Loop.
  Context {V : Type}.
  (** local_stub.py 161-169, 209-213: the assignments to the job table, made by background threads at their own times. *)
  Variable h : history V.

  (** server.py 61-436: when a handler that begins at [t] is done.  With "Unknown job" the handler ends with an exception
      (496-498). *)
  Definition handled (r : request) (t : Z) : option Z :=
    let io := Z.of_nat (rq_io r) in
    let work := Z.of_nat (rq_work r) in
    if background (rq_kind r) then Some (t + io)
    else if needs_job (rq_kind r) then
      match get_job h (rq_job r) t (rq_lag r) (rq_ds r) (rq_late r) with
      | Some (Got _, e) => Some (e + work + io)
      | Some (_, e) => Some (e + io)
      | None => None
      end
    else Some (t + work + io).

  (** server.py 511-517: the loop is free at [now]; the times at which the requests' connections are answered (or closed). *)
  Fixpoint answered (now : Z) (rs : list request) : option (list Z) :=
    match rs with
    | [] => Some []
    | r :: rs' =>
        match handled r (Z.max now (rq_at r)) with
        | None => None
        | Some e => match answered e rs' with Some es => Some (e :: es) | None => None end
        end
    end.
End Loop.

(** network_utils.py 24-34: the client still waits when the answer comes. *)
Definition in_time (r : request) (e : Z) : bool := e <? rq_at r + patience (rq_kind r).
