(** Model of mixtera/network/server/server.py: the handlers and the background registration tasks.

    The LocalStub behind the server is a parameter: a state [St] and one function per method the server calls
    (LocalModel.v has a model of the local client).  The event loop interleaves at awaits: a handler's reads are
    followed by its effects, which contain no await before the answer is written (the two sections under
    _chunk_distributor_map_lock contain no await, so that lock is never contended), so one handler's effects are one
    step.  The background tasks of queries and restores run one at a time under _register_query_lock (asyncio.Lock is
    first come, first served): the thread's work is one step ([ERun]), what the task does with the result is another
    ([EFinish]).  Simplification: a stub method called in a thread takes effect in one step. *)
From Verif Require Import Base MixtureKeyModel NetModel ProtoModel.
Open Scope Z_scope.

(** Comparing keys of the dictionaries of server.py 55-59; a job id read from a closed connection is None. *)
Definition ostr_eqb (a b : option str) : bool :=
  match a, b with Some a, Some b => str_eqb a b | None, None => true | _, _ => false end.

Section Server.
  Context {Ob Ar St D : Type}.
  Variable dumps : Ob -> list Z.
  Variable loads : list Z -> option Ob.
  Variable save : Ar -> list Z.
  Variable load : list Z -> option Ar.
  Variable job_of : Ob -> str.                                        (* query.job_id *)

  (** The methods of LocalStub the server calls.  Exceptions are [inr]; [so_next] is
      ChunkDistributor.next_chunk_for(..., deserialize=False) with StopIteration as [inl None]. *)
  (** The methods of LocalStub that server.py 95-436 calls. *)
  Record stub := mkStub {
    so_execute : Ob -> option Ob -> option Z -> option Z -> option Z -> St -> St * (bool + nexn);
    so_restore : option str -> option str -> St -> St * (unit + nexn);
    so_distributor : option str -> St -> D + nexn;
    so_next : D -> option Z -> option Z -> option Z -> St -> St * (option (list Z) + nexn);
    so_meta : option str -> St -> Ob + nexn;
    so_register_dataset : option str -> option str -> Z -> option Ob -> option str -> St -> St * (bool + nexn);
    so_add_parser : option str -> option str -> St -> St * (bool + nexn);
    so_exists : option str -> St -> bool + nexn;
    so_list : St -> Ob + nexn;
    so_remove : option str -> St -> St * (bool + nexn);
    so_add_property : option str -> option Ob -> option Ob -> Z -> Z -> option Z -> option Z -> option Z -> option Z -> option Z -> option Z -> St -> St * (bool + nexn);
    so_checkpoint : option str -> option Z -> option Z -> list (option Z) -> St -> St * (str + nexn);
    so_completed : option str -> option str -> bool -> St -> St * (bool + nexn);
    so_feedback : option str -> option Z -> option Z -> option Ar -> option Ar -> St -> St * (bool + nexn);
    so_read_file : str -> str + nexn
  }.
  Variable ops : stub.

  (** server.py 92-102 and 396-408: the background tasks under _register_query_lock. *)
  Inductive qtask :=
  | TRegister (query : Ob) (mixture : option Ob) (dp nodes workers : option Z)
  | TRestore (job chk : option str).
  (** server.py 96, 102, 402, 408: the job id the outcome is stored under. *)
  Definition task_job (t : qtask) : option str := match t with TRegister q _ _ _ _ => Some (job_of q) | TRestore j _ => j end.
  (** server.py 189-205: a background dataset registration. *)
  Inductive dtask := TDataset (uuid : str) (ident loc : option str) (dtype : Z) (f : option Ob) (parser : option str).

  (** server.py 51-59: the state of a MixteraServer. *)
  Record server := mkServer {
    sv_stub : St;                                    (* self._local_stub *)
    sv_dmap : list (option str * D);                 (* self._chunk_distributor_map *)
    sv_qreg : list (option str * bool);              (* self._query_registration *)
    sv_dreg : list (option str * bool);              (* self._dataset_registration *)
    sv_queue : list qtask;                           (* tasks holding or waiting for _register_query_lock, in order *)
    sv_outcome : option bool;                        (* the head's thread has ended: success / failure or exception *)
    sv_dtasks : list dtask                           (* background dataset registrations *)
  }.
  (** Assignment to one field of the server (server.py 51-59). *)
  Definition set_stub (s : server) st := mkServer st (sv_dmap s) (sv_qreg s) (sv_dreg s) (sv_queue s) (sv_outcome s) (sv_dtasks s).
  (** Assignment to one field of the server (server.py 51-59). *)
  Definition set_dmap (s : server) m := mkServer (sv_stub s) m (sv_qreg s) (sv_dreg s) (sv_queue s) (sv_outcome s) (sv_dtasks s).
  (** Assignment to one field of the server (server.py 51-59). *)
  Definition set_qreg (s : server) m := mkServer (sv_stub s) (sv_dmap s) m (sv_dreg s) (sv_queue s) (sv_outcome s) (sv_dtasks s).
  (** Assignment to one field of the server (server.py 51-59). *)
  Definition set_dreg (s : server) m := mkServer (sv_stub s) (sv_dmap s) (sv_qreg s) m (sv_queue s) (sv_outcome s) (sv_dtasks s).
  (** Assignment to one field of the server (server.py 51-59). *)
  Definition set_queue (s : server) q o := mkServer (sv_stub s) (sv_dmap s) (sv_qreg s) (sv_dreg s) q o (sv_dtasks s).
  (** Assignment to one field of the server (server.py 51-59). *)
  Definition set_dtasks (s : server) t := mkServer (sv_stub s) (sv_dmap s) (sv_qreg s) (sv_dreg s) (sv_queue s) (sv_outcome s) t.

  (** server.py 417-422 and 210-216: 0 in progress (or unknown), 1 succeeded, 2 failed. *)
  Definition status_code (o : option bool) : Z := match o with Some true => 1 | Some false => 2 | None => 0 end.

  (** Calling a stub method that changes the stub, then answering. *)
  (** server.py 122-436: a handler that calls the stub once and answers with the result, or raises. *)
  Definition with_stub {A} (s : server) (x : St * (A + nexn)) (f : A -> answer Ob) : server * (answer Ob + nexn) :=
    match x with (st, inl a) => (set_stub s st, inl (f a)) | (st, inr e) => (set_stub s st, inr e) end.
  (** server.py 122-436: a handler that calls the stub once and answers with the result, or raises. *)
  Definition pure_stub {A} (s : server) (x : A + nexn) (f : A -> answer Ob) : server * (answer Ob + nexn) :=
    match x with inl a => (s, inl (f a)) | inr e => (s, inr e) end.

  (** The effects of each handler after its reads, and its answer.  [uuid] is what uuid.uuid4() returns. *)
  Definition handle (uuid : str) (q : sreq Ob Ar) (s : server) : server * (answer Ob + nexn) :=
    match q with
    (* server.py 89-90.  With query None the created task raises before and inside its except branch, and
       query.job_id raises here: no effect, no answer. *)
    | SRegisterQuery _ _ _ _ None => (s, inr OtherError)
    | SRegisterQuery mixture dp nodes workers (Some query) =>
        (set_queue s (sv_queue s ++ [TRegister query mixture dp nodes workers]) (sv_outcome s), inl (AStr IDN (job_of query)))
    (* 415-423 _check_query_registration *)
    | SQueryStatus job => (s, inl (AInt (status_code (aget ostr_eqb job (sv_qreg s)))))
    (* 114-120 _read_file *)
    | SReadFile path => match path with
                        | None | Some [] => (s, inl ANone)
                        | Some p => pure_stub s (so_read_file ops p) (fun d => AStr SZN d)
                        end
    (* 156-163 _return_result_metadata *)
    | SMeta job => pure_stub s (so_meta ops job (sv_stub s)) (fun o => AObj o)
    (* 135-145 _return_next_result_chunk *)
    | SNextChunk job dp node worker =>
        match (match aget ostr_eqb job (sv_dmap s) with
               | Some d => inl (d, s)
               | None => match so_distributor ops job (sv_stub s) with
                         | inl d => inl (d, set_dmap s (aset ostr_eqb job d (sv_dmap s)))
                         | inr e => inr e
                         end
               end) with
        | inr e => (s, inr e)
        | inl (d, s) => with_stub s (so_next ops d dp node worker (sv_stub s)) (fun c => ABytes c)
        end
    (* 183-187 _register_dataset *)
    | SRegisterDataset ident loc dtype f parser =>
        (set_dtasks s (sv_dtasks s ++ [TDataset uuid ident loc dtype f parser]), inl (AStr IDN uuid))
    (* 208-217 _check_dataset_registration *)
    | SDatasetStatus job => (s, inl (AInt (status_code (aget ostr_eqb job (sv_dreg s)))))
    (* 232-283 _register_metadata_parser (executing and storing the source is part of [so_add_parser]) *)
    | SRegisterParser ident source => with_stub s (so_add_parser ops ident source (sv_stub s)) (fun b => AInt (bool_int b))
    (* 294-295, 305-306, 317-318, 345-358 *)
    | SDatasetExists ident => pure_stub s (so_exists ops ident (sv_stub s)) (fun b => AInt (bool_int b))
    | SListDatasets => pure_stub s (so_list ops (sv_stub s)) (fun o => AObj o)
    | SRemoveDataset ident => with_stub s (so_remove ops ident (sv_stub s)) (fun b => AInt (bool_int b))
    | SAddProperty name setup calc mode ptype mn mx buckets batch dop primary =>
        with_stub s (so_add_property ops name setup calc mode ptype mn mx buckets batch dop primary (sv_stub s)) (fun b => AInt (bool_int b))
    (* 371-373 _checkpoint; 383-385 _checkpoint_completed *)
    | SCheckpoint job dp node status => with_stub s (so_checkpoint ops job dp node status (sv_stub s)) (fun c => AStr SZN c)
    | SCheckpointCompleted job chk on_disk => with_stub s (so_completed ops job chk on_disk (sv_stub s)) (fun b => AInt (bool_int b))
    (* 391-394 _restore_checkpoint: the status is dropped, the task created, then the answer written (which raises if
       job_id is None) *)
    | SRestore job chk =>
        let s' := set_queue (set_qreg s (adel ostr_eqb job (sv_qreg s))) (sv_queue s ++ [TRestore job chk]) (sv_outcome s) in
        (s', match job with Some j => inl (AStr IDN j) | None => inr OtherError end)
    (* 433-436 _process_feedback: the stub's answer is ignored *)
    | SFeedback job steps mid losses counts => with_stub s (so_feedback ops job steps mid losses counts (sv_stub s)) (fun _ => AInt 1)
    end.

  (** server.py 438-502 _dispatch_client: one connection.  Whatever raises is logged; the connection is closed after
      the answer, if any. *)
  Definition serve (uuid : str) (r : reader) (s : server) : server * list Z :=
    match snd (read_request loads load r) with
    | inl (Some q) =>
        match handle uuid q s with
        | (s', inl a) => (s', match write_answer dumps a with inl b => b | inr _ => [] end)
        | (s', inr _) => (s', [])
        end
    | _ => (s, [])
    end.

  (** The thread of the task that holds the lock: server.py 95, 399. *)
  Definition run_head (s : server) : server :=
    match sv_queue s, sv_outcome s with
    | TRegister query mixture dp nodes workers :: _, None =>
        match so_execute ops query mixture dp nodes workers (sv_stub s) with
        | (st, inl b) => set_queue (set_stub s st) (sv_queue s) (Some b)
        | (st, inr _) => set_queue (set_stub s st) (sv_queue s) (Some false)
        end
    | TRestore job chk :: _, None =>
        match so_restore ops job chk (sv_stub s) with
        | (st, inl _) => set_queue (set_stub s st) (sv_queue s) (Some true)
        | (st, inr _) => set_queue (set_stub s st) (sv_queue s) (Some false)
        end
    | _, _ => s
    end.
  (** What the task does after its thread: server.py 96-102, 400-408.  The second component: which job ended, how. *)
  Definition finish_head (s : server) : server * option (option str * bool) :=
    match sv_queue s, sv_outcome s with
    | t :: rest, Some b =>
        match t with
        | TRegister query _ _ _ _ =>
            (set_queue (set_qreg s (aset ostr_eqb (Some (job_of query)) b (sv_qreg s))) rest None, Some (Some (job_of query), b))
        | TRestore job _ =>
            let '(s', b') := if b then match so_distributor ops job (sv_stub s) with
                                       | inl d => (set_dmap s (aset ostr_eqb job d (sv_dmap s)), true)
                                       | inr _ => (s, false)
                                       end
                             else (s, false) in
            (set_queue (set_qreg s' (aset ostr_eqb job b' (sv_qreg s'))) rest None, Some (job, b'))
        end
    | _, _ => (s, None)
    end.
  (** server.py 189-205 _background_register_dataset: the [n]-th pending one runs to its end. *)
  Definition run_dataset (n : nat) (s : server) : server * option (str * bool) :=
    match nth_error (sv_dtasks s) n with
    | Some (TDataset uuid ident loc dtype f parser) =>
        let '(st, res) := so_register_dataset ops ident loc dtype f parser (sv_stub s) in
        let b := match res with inl b => b | inr _ => false end in
        (set_dreg (set_dtasks (set_stub s st) (firstn n (sv_dtasks s) ++ skipn (S n) (sv_dtasks s))) (aset ostr_eqb (Some uuid) b (sv_dreg s)), Some (uuid, b))
    | None => (s, None)
    end.

  (** ** Histories *)
  (** What can happen next: a connection is served (server.py 438-502), a background task runs or ends (92-102, 396-408), a dataset registration runs (189-205). *)
  Inductive event := EServe (uuid : str) (r : reader) | ERun | EFinish | EDataset (n : nat).
  (** What can be observed: a registration or restore was accepted for a job, its thread ran (on which stub state),
      it ended with a result, or its status was answered. *)
  (** What an event of server.py 61-502 shows to the outside. *)
  Inductive label :=
  | LStart (job : option str) (restore : bool) | LRun (t : qtask) (st : St) | LEnd (job : option str) (ok : bool) | LPoll (job : option str) (status : Z)
  | LDStart (uuid : str) | LDEnd (uuid : str) (ok : bool) | LDPoll (uuid : option str) (status : Z) | LOther.
  (** What an event of server.py 61-502 shows to the outside. *)
  Definition request_label (uuid : str) (q : sreq Ob Ar) (a : answer Ob + nexn) : label :=
    match q, a with
    | SRegisterQuery _ _ _ _ (Some query), _ => LStart (Some (job_of query)) false
    | SRestore job _, _ => LStart job true
    | SQueryStatus job, inl (AInt v) => LPoll job v
    | SRegisterDataset _ _ _ _ _, _ => LDStart uuid
    | SDatasetStatus job, inl (AInt v) => LDPoll job v
    | _, _ => LOther
    end.
  (** server.py 438-525: one event, a history of events. *)
  Definition step (e : event) (s : server) : server * label :=
    match e with
    | EServe uuid r => (fst (serve uuid r s),
                        match snd (read_request loads load r) with
                        | inl (Some q) => request_label uuid q (snd (handle uuid q s))
                        | _ => LOther
                        end)
    | ERun => (run_head s, match sv_queue s, sv_outcome s with t :: _, None => LRun t (sv_stub s) | _, _ => LOther end)
    | EFinish => let '(s', o) := finish_head s in (s', match o with Some (j, b) => LEnd j b | None => LOther end)
    | EDataset n => let '(s', o) := run_dataset n s in (s', match o with Some (u, b) => LDEnd u b | None => LOther end)
    end.
  (** server.py 438-525: one event, a history of events. *)
  Fixpoint history (evs : list event) (s : server) : server * list label :=
    match evs with
    | [] => (s, [])
    | e :: evs' => let '(s', l) := step e s in let '(s'', ls) := history evs' s' in (s'', l :: ls)
    end.
  (** server.py 51-59 __init__. *)
  Definition init (st : St) : server := mkServer st [] [] [] [] None [].
End Server.
Arguments stub : clear implicits.
Arguments server : clear implicits.
Arguments label : clear implicits.
Arguments qtask : clear implicits.
