(** Model of the start of a distributed training job: the constructors of MixteraTorchDataset
    (torch/mixtera_torch_dataset.py 44-107) in all processes of the job, on a server of ServerModel.v, through the client
    of core/client/server/server_stub.py and network/connection/server_connection.py.

    Simplifications.  The shared memory of 126-167 is not part of this file (ShmModel.v).  Which of the awaits of a
    request lost its connection is not distinguished: a request is answered, or handled without an answer reaching the
    client, or does not reach the server (a request cut half way is C41).  The file mixtera.id (95-97) holds [pr_ckpt]. *)
From Verif Require Import Base MixtureKeyModel NetModel ProtoModel ServerModel PollModel.
Open Scope Z_scope.

Section Start.
  Context {Ob Ar St D : Type}.
  Variable dumps : Ob -> list Z.
  Variable loads : list Z -> option Ob.
  Variable save : Ar -> list Z.
  Variable load : list Z -> option Ar.
  Variable job_of : Ob -> str.
  Variable ops : stub Ob Ar St D.

  (** mixtera_torch_dataset.py 45-68: the arguments of one process's constructor. *)
  Record proc := mkProc {
    pr_group : Z; pr_node : Z;                        (* result_streaming_args.dp_group_id, node_id (181-187) *)
    pr_groups : Z; pr_nodes : Z; pr_workers : Z;      (* query_execution_args.dp_groups, nodes_per_group, num_workers *)
    pr_mixture : Ob; pr_query : Ob;
    pr_ckpt : option str;                             (* checkpoint_path: the id in mixtera.id *)
    pr_exec : bool                                    (* execute_query *)
  }.
  (** mixtera_torch_dataset.py 70-71: the assertions. *)
  Definition placed (p : proc) : bool := (pr_group p <? pr_groups p) && (pr_node p <? pr_nodes p).
  (** mixtera_torch_dataset.py 81: is this the process that starts the query? *)
  Definition primary (p : proc) : bool := (pr_node p =? 0) && (pr_group p =? 0) && pr_exec p.
  (** mixtera_torch_dataset.py 82-103: the request that process sends. *)
  Definition start_request (p : proc) : creq Ob Ar :=
    match pr_ckpt p with
    | None => CRegisterQuery (pr_mixture p) (pr_groups p) (pr_nodes p) (pr_workers p) (pr_query p)
    | Some c => CRestore (job_of (pr_query p)) c
    end.

  (** mixtera_torch_dataset.py 54-107: how far a constructor is: not called; waiting, with the answers to its polls so far;
      returned; raised, with the last answer if it had polled. *)
  Inductive phase := PNew | PWait (got : list polled) | PUp | PFail (last : option polled).
  (** server_connection.py 90-139, for one request: answered; handled, but the client does not get the answer (it reads a
      closed connection, or with [raises] an exception); not sent. *)
  Inductive delivery := Answered (uuid : str) (fr fr' : list (option nat)) | Unanswered (uuid : str) (fr : list (option nat)) (raises : bool) | Unreached.

  (** server_stub.py 69-76, 135-136 with server_connection.py 152-175 and 667-683: does the constructor go on after its request?
      execute_query must return True; restore_checkpoint returns None in any case. *)
  Definition goes_on (p : proc) (r : cres Ob + nexn) : bool :=
    match pr_ckpt p, r with
    | None, inl (RBool b) => b
    | None, _ => false
    | Some _, inl _ => true
    | Some _, inr _ => false
    end.
  (** server_connection.py 708-720 (check_query_exec_status): what a poll that was answered gives. *)
  Definition poll_answer (r : cres Ob + nexn) : polled :=
    match r with inl (RInt (Some v)) => Status v | inl _ => Closed | inr _ => Broken end.
  (** mixtera_torch_dataset.py 105-107 with server_stub.py 138-154: after one more poll. *)
  Definition polled_next (got : list polled) (x : polled) : phase :=
    match wait_for_execution (got ++ [x]) with
    | Told true => PUp
    | Told false | Raises => PFail (Some x)
    | Waits => PWait (got ++ [x])
    end.

  (** ** All processes and the server *)
  Variable procs : nat -> proc.
  (** server.py 61-502 and the processes: a process calls its constructor; polls; something else happens on the server. *)
  Inductive jevent := JStart (i : nat) (d : delivery) | JPoll (i : nat) (d : delivery) | JServer (e : event).
  (** The server and how far each process is (server.py 51-59, mixtera_torch_dataset.py 54-107). *)
  Definition jstate : Type := (server Ob St D * (nat -> phase))%type.
  (** One process moves (mixtera_torch_dataset.py 54-107). *)
  Definition put (i : nat) (x : phase) (ph : nat -> phase) : nat -> phase := fun k => if Nat.eqb k i then x else ph k.

  (** server_connection.py 140-175, 666-683, 708-720: one request of a client: what the server does and what the client's method returns.  [None]: it does not
      reach the server, or cannot be written. *)
  Definition ask (q : creq Ob Ar) (d : delivery) (s : server Ob St D) : server Ob St D * list (label Ob St) * option (cres Ob + nexn) :=
    match client_write dumps save q with
    | inr e => (s, [], Some (inr e))
    | inl b =>
        match d with
        | Answered uuid fr fr' =>
            let '(s', l) := step dumps loads load job_of ops (EServe uuid (mkReader b true fr)) s in
            (s', [l], Some (snd (client_read loads job_of q (mkReader (snd (serve dumps loads load job_of ops uuid (mkReader b true fr) s)) false fr'))))
        | Unanswered uuid fr raises =>
            let '(s', l) := step dumps loads load job_of ops (EServe uuid (mkReader b true fr)) s in
            (s', [l], Some (if raises then inr OtherError else snd (client_read loads job_of q (mkReader [] false []))))
        | Unreached => (s, [], None)
        end
    end.
  (** mixtera_torch_dataset.py 70-103 in one process.  Without a connection execute_query returns False
      (server_connection.py 153-154) and restore_checkpoint None (668-669). *)
  Definition start (i : nat) (d : delivery) (js : jstate) : jstate * list (label Ob St) :=
    let '(s, ph) := js in
    let p := procs i in
    match ph i with
    | PNew =>
        if negb (placed p) then ((s, put i (PFail None) ph), []) else
        if primary p then
          let '(s', ls, r) := ask (start_request p) d s in
          let ok := match r with Some r => goes_on p r | None => match pr_ckpt p with Some _ => true | None => false end end in
          ((s', put i (if ok then PWait [] else PFail None) ph), ls)
        else ((s, put i (PWait []) ph), [])
    | _ => (js, [])
    end.
  (** server_connection.py 708-720 in one process that waits; without a connection the status is False (713-714), which equals 0. *)
  Definition poll_once (i : nat) (d : delivery) (js : jstate) : jstate * list (label Ob St) :=
    let '(s, ph) := js in
    match ph i with
    | PWait got =>
        let '(s', ls, r) := ask (CQueryStatus (job_of (pr_query (procs i)))) d s in
        ((s', put i (polled_next got (match r with Some r => poll_answer r | None => NoServer end)) ph), ls)
    | _ => (js, [])
    end.
  (** All processes and the server: one event (mixtera_torch_dataset.py 70-107, server.py 438-525). *)
  Definition jstep (e : jevent) (js : jstate) : jstate * list (label Ob St) :=
    match e with
    | JStart i d => start i d js
    | JPoll i d => poll_once i d js
    | JServer e => let '(s', l) := step dumps loads load job_of ops e (fst js) in ((s', snd js), [l])
    end.
  (** ... and a history (mixtera_torch_dataset.py 70-107, server.py 438-525): the state reached and what the server did. *)
  Fixpoint jrun (evs : list jevent) (js : jstate) : jstate * list (label Ob St) :=
    match evs with
    | [] => (js, [])
    | e :: evs' => let '(js', ls) := jstep e js in let '(js'', ls') := jrun evs' js' in (js'', ls ++ ls')
    end.
  (** No constructor has been called (mixtera_torch_dataset.py 45). *)
  Definition all_new : nat -> phase := fun _ => PNew.
End Start.
Arguments proc : clear implicits.
