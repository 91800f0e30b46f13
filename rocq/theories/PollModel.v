(** Model of the waiting loops of a client (core/client/server/server_stub.py 138-154 wait_for_execution,
    network/connection/server_connection.py 349-363 in _register_dataset) and of the connection handling around every
    request (server_connection.py 91-139 _connect_to_server, an async generator run by contextlib's asynccontextmanager).

    Simplifications.  Time is the number of polls (one each second).  The waits between connection attempts are not
    modelled.  Exceptions are not distinguished beyond who raises them. *)
From Verif Require Import Base MixtureKeyModel UtilsModel ChunkGenModel.
Open Scope Z_scope.

(** ** Polling *)
(** server_connection.py 711-720, 350-363: what one poll gives the client: a status; no answer (the connection was closed: read_int returns None); no connection
    (query status only: [return False], and False == 0); an exception. *)
Inductive polled := Status (v : Z) | Closed | NoServer | Broken.
(** server_stub.py 149-154, server_connection.py 360-363: told the outcome, an exception, or still waiting. *)
Inductive waiting := Told (b : bool) | Raises | Waits.

(** server_stub.py 138-154: the first poll, then at most [left] more; [Waits] if the polls given are used up. *)
Fixpoint wait_from (left : nat) (l : list polled) {struct l} : waiting :=
  match l with
  | [] => Waits
  | p :: l' =>
      let again := match left with O => Told false | S left' => wait_from left' l' end in       (* 144-147, 149-151 *)
      match p with
      | Status v => if v =? 0 then again else Told (v =? 1)
      | NoServer => again
      | Closed => Told false
      | Broken => Raises
      end
  end.
(** server_stub.py 142-147: curr_time runs from 0 to 30 * 60, inclusive *)
Definition wait_for_execution (l : list polled) : waiting := wait_from 1801 l.

(** server_connection.py 349-363: no time limit; without a connection, writing raises *)
Fixpoint wait_for_dataset (l : list polled) : waiting :=
  match l with
  | [] => Waits
  | Status v :: l' => if v =? 0 then wait_for_dataset l' else Told (v =? 1)
  | Closed :: _ => Told false
  | (NoServer | Broken) :: _ => Raises
  end.

(** ** One request *)
(** Where the generator is suspended: at the yield of a connection, in attempt [k] (counted from 0), or at the yield of
    (None, None) in the except branch. *)
Inductive gen := InTry (k : nat) | InExcept.
(** server_connection.py 91-139: what the generator does when it is moved on. *)
Inductive moved := Yields (connected : bool) (g : gen) | Stops | Throws (body : bool).       (** [body]: the body's own exception *)
(** server_connection.py 105-124: attempts [k], [k+1], ...; [opens i] says whether attempt [i] opens a connection; after [max_retries] = 10 attempts
    the last error is raised and caught in 126-129. *)
Fixpoint attempts (n k : nat) (opens : nat -> bool) : moved :=
  match n with
  | O => Yields false InExcept
  | S n' => if opens k then Yields true (InTry k) else attempts n' (S k) opens
  end.
(** server_connection.py 109-113: the attempts from the [k]-th on, [max_retries] = 10 in all (92). *)
Definition from (k : nat) (opens : nat -> bool) : moved := attempts (10 - k) k opens.
(** server_connection.py 124, 130-136: resuming normally: the attempt succeeds, the loop ends, the connection is closed (130-136). *)
Definition resume (g : gen) : moved := Stops.
(** Throwing the body's exception in: the attempt swallows it and the loop goes on (tenacity's AttemptManager.__exit__);
    in the except branch it propagates. *)
(** server_connection.py 114-129, at the place of the yield (123 or 128). *)
Definition throw (opens : nat -> bool) (g : gen) : moved :=
  match g with InTry k => from (S k) opens | InExcept => Throws true end.

(** contextlib._AsyncGeneratorContextManager around the body of a request.  [body c]: [c] says whether it has a connection;
    [inl]: returns, [inr]: raises.  The first component: how often the body was run, each time with or without connection. *)
(** What a request method (e.g. server_connection.py 708-720) does: returns, raises the body's exception, or RuntimeError. *)
Inductive outcome (A : Type) := Returns (a : A) | BodyError | RuntimeErr.
Arguments Returns {A}. Arguments BodyError {A}. Arguments RuntimeErr {A}.
(** server_connection.py 90-139 around the body of a request, e.g. 715-720. *)
Definition request {A} (opens : nat -> bool) (body : bool -> A + unit) : list bool * outcome A :=
  match from 0 opens with
  | Yields c g =>
      ([c], match body c with
            | inl a => match resume g with Stops => Returns a | Throws _ => BodyError | Yields _ _ => RuntimeErr end       (* "didn't stop" *)
            | inr _ => match throw opens g with
                       | Stops => RuntimeErr
                       | Throws _ => BodyError
                       | Yields _ _ => RuntimeErr                                    (* "generator didn't stop after athrow()" *)
                       end
            end)
  | Stops => ([], RuntimeErr)                                                        (* "generator didn't yield" *)
  | Throws _ => ([], BodyError)
  end.
(** The connections the request opens, each with the bytes written to it: the body writes [sent] to the first (all of the
    request, or a part of it if it raises); nothing is written to one that is opened by [throw]. *)
(** server_connection.py 116-123: one connection per attempt that gets that far. *)
Definition conns {A} (opens : nat -> bool) (body : bool -> A + unit) (sent : list Z) : list (list Z) :=
  match from 0 opens with
  | Yields true g =>
      sent :: match body true with
              | inl _ => []
              | inr _ => match throw opens g with Yields true _ => [[]] | _ => [] end
              end
  | _ => []
  end.
