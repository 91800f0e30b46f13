(** Model of the request protocol: what mixtera/network/connection/server_connection.py writes and reads, and what
    the handlers of mixtera/network/server/server.py read and write.

    A request with its arguments is a [creq] (client side).  What a handler has after its reads is an [sreq]: every
    field is an option because the read helpers return None when the connection was closed.  Python objects that are
    pickled are [Ob], numpy arrays are [Ar], strings are lists of code points, doubles are their 64 bits. *)
From Verif Require Import Base MixtureKeyModel NetModel.
Open Scope Z_scope.

(** mixtera/network/__init__.py *)
(** network/__init__.py 1 *)
Definition IDN : nat := 8.     (* NUM_BYTES_FOR_IDENTIFIERS *)
Definition SZN : nat := 16.    (* NUM_BYTES_FOR_SIZES *)

Section Proto.
  Context {Ob Ar : Type}.
  Variable dumps : Ob -> list Z.
  Variable loads : list Z -> option Ob.
  Variable save : Ar -> list Z.
  Variable load : list Z -> option Ar.

  (** The calls of the methods of server_connection.py 55-720 that talk to the server, with their arguments. *)
  Inductive creq :=
  | CRegisterQuery (mixture : Ob) (dp_groups nodes_per_group num_workers : Z) (query : Ob)
  | CQueryStatus (job : str)
  | CReadFile (path : str)
  | CMeta (job : str)
  | CNextChunk (job : str) (dp_group node worker : Z)
  | CRegisterDataset (ident loc : str) (dtype : Z) (parsing_func : Ob) (parser : str)
  | CDatasetStatus (job : str)
  | CRegisterParser (ident source : str)
  | CDatasetExists (ident : str)
  | CListDatasets
  | CRemoveDataset (ident : str)
  | CAddProperty (name : str) (setup calc : Ob) (mode ptype : Z) (min_val max_val : Z) (buckets batch dop : Z) (primary : bool)
  | CCheckpoint (job : str) (dp_group node : Z) (worker_status : list Z)
  | CCheckpointCompleted (job chk : str) (on_disk : bool)
  | CRestore (job chk : str)
  | CFeedback (job : str) (steps mixture_id : Z) (losses counts : option Ar).

  (** The arguments the handlers of server.py 61-436 have after their reads. *)
  Inductive sreq :=
  | SRegisterQuery (mixture : option Ob) (dp_groups nodes_per_group num_workers : option Z) (query : option Ob)
  | SQueryStatus (job : option str)
  | SReadFile (path : option str)
  | SMeta (job : option str)
  | SNextChunk (job : option str) (dp_group node worker : option Z)
  | SRegisterDataset (ident loc : option str) (dtype : Z) (parsing_func : option Ob) (parser : option str)
  | SDatasetStatus (job : option str)
  | SRegisterParser (ident source : option str)
  | SDatasetExists (ident : option str)
  | SListDatasets
  | SRemoveDataset (ident : option str)
  | SAddProperty (name : option str) (setup calc : option Ob) (mode ptype : Z) (min_val max_val : option Z) (buckets batch dop primary : option Z)
  | SCheckpoint (job : option str) (dp_group node : option Z) (worker_status : list (option Z))
  | SCheckpointCompleted (job chk : option str) (on_disk : bool)
  | SRestore (job chk : option str)
  | SFeedback (job : option str) (steps mixture_id : option Z) (losses counts : option Ar).

  (** server_task.py *)
  Definition task_no (q : creq) : Z :=
    match q with
    | CRegisterQuery _ _ _ _ _ => 0
    | CQueryStatus _ => 1
    | CReadFile _ => 2
    (* GET_QUERY_ID = 3 is never sent *)
    | CMeta _ => 4
    | CNextChunk _ _ _ _ => 5
    | CRegisterDataset _ _ _ _ _ => 6
    | CDatasetStatus _ => 7
    | CRegisterParser _ _ => 8
    | CDatasetExists _ => 9
    | CListDatasets => 10
    | CRemoveDataset _ => 11
    | CAddProperty _ _ _ _ _ _ _ _ _ _ _ => 12
    | CCheckpoint _ _ _ _ => 13
    | CCheckpointCompleted _ _ _ => 14
    | CRestore _ _ => 15
    | CFeedback _ _ _ _ _ => 16
    end.

  (** [int(b)] (e.g. server_connection.py 657). *)
  Definition bool_int (b : bool) : Z := if b then 1 else 0.
  (** server_connection.py 634-635: the loop over the worker status. *)
  Fixpoint write_ints (l : list Z) : list Z + nexn := match l with [] => inl [] | v :: l' => write_int v IDN +w+ write_ints l' end.

  (** server_connection.py: the writes of each method after connecting, in order.
      _fetch_file 66-69; _execute_query 155-171; _get_query_result_meta 205-209; _get_next_result 234-243;
      _register_dataset 342-347 and 353-354 (the poll); _register_metadata_parser 388-394; _check_dataset_exists 427-430;
      _list_datasets 456; _remove_dataset 488-491; _add_property 573-610; _checkpoint 623-635;
      _checkpoint_completed 650-657; _restore_checkpoint 672-676; _receive_feedback 696-704; _check_query_exec_status 716-717. *)
  Definition client_args (q : creq) : list Z + nexn :=
    match q with
    | CRegisterQuery mixture dp nodes workers query =>
        write_obj dumps mixture SZN +w+ write_int dp IDN +w+ write_int nodes IDN +w+ write_int workers IDN +w+ write_obj dumps query SZN
    | CQueryStatus job => write_utf8 job IDN
    | CReadFile path => write_utf8 path IDN
    | CMeta job => write_utf8 job IDN
    | CNextChunk job dp node worker => write_utf8 job IDN +w+ write_int dp IDN +w+ write_int node IDN +w+ write_int worker IDN
    | CRegisterDataset ident loc dtype f parser =>
        write_utf8 ident IDN +w+ write_utf8 loc IDN +w+ write_int dtype IDN +w+ write_obj dumps f SZN +w+ write_utf8 parser IDN
    | CDatasetStatus job => write_utf8 job IDN
    | CRegisterParser ident source => write_utf8 ident IDN +w+ write_utf8 source SZN
    | CDatasetExists ident => write_utf8 ident IDN
    | CListDatasets => inl []
    | CRemoveDataset ident => write_utf8 ident IDN
    | CAddProperty name setup calc mode ptype mn mx buckets batch dop primary =>
        write_utf8 name IDN +w+ write_obj dumps setup SZN +w+ write_obj dumps calc SZN +w+ write_int mode IDN +w+ write_int ptype IDN
        +w+ write_float mn +w+ write_float mx +w+ write_int buckets IDN +w+ write_int batch IDN +w+ write_int dop IDN +w+ write_int (bool_int primary) IDN
    | CCheckpoint job dp node status =>
        write_utf8 job IDN +w+ write_int dp IDN +w+ write_int node IDN +w+ write_int (Z.of_nat (length status)) IDN +w+ write_ints status
    | CCheckpointCompleted job chk on_disk => write_utf8 job IDN +w+ write_utf8 chk IDN +w+ write_int (bool_int on_disk) IDN
    | CRestore job chk => write_utf8 job IDN +w+ write_utf8 chk IDN
    | CFeedback job steps mid losses counts =>
        write_utf8 job IDN +w+ write_int steps IDN +w+ write_int mid IDN +w+ write_array save losses IDN SZN +w+ write_array save counts IDN SZN
    end.
  (** server_connection.py: the whole request, task number first (e.g. 716-717). *)
  Definition client_write (q : creq) : list Z + nexn := write_int (task_no q) IDN +w+ client_args q.

  (** Sequencing of reads. *)
  Notation "x <~ m ;; k" := (fun r => rbind (m r) (fun x => k)) (at level 61, m at next level, right associativity).
  (** A handler's code (server.py 61-436) as a function of what can be read: returns a value, or raises. *)
  Definition ret {A} (a : A) : reader -> reader * (A + nexn) := fun r => (r, inl a).
  (** A handler's code (server.py 61-436) as a function of what can be read: returns a value, or raises. *)
  Definition raise {A} (e : nexn) : reader -> reader * (A + nexn) := fun r => (r, inr e).

  (** dataset.py 14-47 Dataset.from_type_id: GENERIC = 0, JSONL = 1, WEB = 3, PARQUET = 4; CROISSANT = 2
      and anything else raises. *)
  Definition from_type_id (o : option Z) : Z + nexn :=
    match o with Some v => if (v =? 0) || (v =? 1) || (v =? 3) || (v =? 4) then inl v else inr OtherError | None => inr OtherError end.
  (** execution_mode.py, property_type.py: ExecutionMode(v), PropertyType(v) raise unless v is 1 or 2. *)
  Definition from_enum12 (o : option Z) : Z + nexn :=
    match o with Some v => if (v =? 1) || (v =? 2) then inl v else inr OtherError | None => inr OtherError end.
  (** server.py 61-436: a value computed while handling, or its exception. *)
  Definition lift {A} (x : A + nexn) : reader -> reader * (A + nexn) := fun r => (r, x).

  (** server.py 366-369: for _ in range(worker_status_length): read_int *)
  Fixpoint read_ints (n : nat) : reader -> reader * (list (option Z) + nexn) :=
    match n with
    | O => ret []
    | S n' => x <~ read_int IDN ;; l <~ read_ints n' ;; ret (x :: l)
    end.

  (** The reads of each handler, in order, up to its first effect.  server.py: _register_query 73-88;
      _check_query_registration 415; _read_file 112; _return_result_metadata 155; _return_next_result_chunk 130-133;
      _register_dataset 177-182; _check_dataset_registration 208; _register_metadata_parser 230-231;
      _check_dataset_exists 293; _list_datasets; _remove_dataset 316; _add_property 332-344; _checkpoint 361-369;
      _checkpoint_completed 377-381; _restore_checkpoint 388-389; _process_feedback 426-431. *)
  Definition read_args (task : Z) : reader -> reader * (sreq + nexn) :=
    match task with
    | 0 => mixture <~ read_obj loads SZN ;; dp <~ read_int IDN ;; nodes <~ read_int IDN ;; workers <~ read_int IDN ;;
           query <~ read_obj loads SZN ;; ret (SRegisterQuery mixture dp nodes workers query)
    | 1 => job <~ read_utf8 IDN ;; ret (SQueryStatus job)
    | 2 => path <~ read_utf8 IDN ;; ret (SReadFile path)
    | 4 => job <~ read_utf8 IDN ;; ret (SMeta job)
    | 5 => job <~ read_utf8 IDN ;; dp <~ read_int IDN ;; node <~ read_int IDN ;; worker <~ read_int IDN ;; ret (SNextChunk job dp node worker)
    | 6 => ident <~ read_utf8 IDN ;; loc <~ read_utf8 IDN ;; t <~ read_int IDN ;; dtype <~ lift (from_type_id t) ;;
           f <~ read_obj loads SZN ;; parser <~ read_utf8 IDN ;; ret (SRegisterDataset ident loc dtype f parser)
    | 7 => job <~ read_utf8 IDN ;; ret (SDatasetStatus job)
    | 8 => ident <~ read_utf8 IDN ;; source <~ read_utf8 SZN ;; ret (SRegisterParser ident source)
    | 9 => ident <~ read_utf8 IDN ;; ret (SDatasetExists ident)
    | 10 => ret SListDatasets
    | 11 => ident <~ read_utf8 IDN ;; ret (SRemoveDataset ident)
    | 12 => name <~ read_utf8 IDN ;; setup <~ read_obj loads SZN ;; calc <~ read_obj loads SZN ;;
            m <~ read_int IDN ;; mode <~ lift (from_enum12 m) ;; p <~ read_int IDN ;; ptype <~ lift (from_enum12 p) ;;
            mn <~ read_float ;; mx <~ read_float ;; buckets <~ read_int IDN ;; batch <~ read_int IDN ;; dop <~ read_int IDN ;;
            primary <~ read_int IDN ;; ret (SAddProperty name setup calc mode ptype mn mx buckets batch dop primary)
    | 13 => job <~ read_utf8 IDN ;; dp <~ read_int IDN ;; node <~ read_int IDN ;; len <~ read_int IDN ;;
            match len with
            | None => raise OtherError                                     (* range(None): TypeError *)
            | Some n => status <~ read_ints (Z.to_nat n) ;; ret (SCheckpoint job dp node status)
            end
    | 14 => job <~ read_utf8 IDN ;; chk <~ read_utf8 IDN ;; flag <~ read_int IDN ;;
            ret (SCheckpointCompleted job chk (match flag with Some v => negb (v =? 0) | None => false end))
    | 15 => job <~ read_utf8 IDN ;; chk <~ read_utf8 IDN ;; ret (SRestore job chk)
    | 16 => job <~ read_utf8 IDN ;; steps <~ read_int IDN ;; mid <~ read_int IDN ;; losses <~ read_array load IDN SZN ;;
            counts <~ read_array load IDN SZN ;; ret (SFeedback job steps mid losses counts)
    | _ => raise OtherError
    end.
  (** server.py 451-454, 455-489 _dispatch_client: the task number ([None]: unknown or unsupported, nothing is done). *)
  Definition known_task (t : Z) : bool := (0 <=? t) && (t <=? 16) && negb (t =? 3).
  (** server.py 451-489 _dispatch_client followed by the reads of the handler. *)
  Definition read_request (r : reader) : reader * (option sreq + nexn) :=
    rbind (read_int IDN r) (fun t r =>
      match t with
      | None => (r, inl None)
      | Some t => if known_task t then rbind (read_args t r) (fun q r => (r, inl (Some q))) else (r, inl None)
      end).

  (** What a handler writes at its end. *)
  (** What a handler writes back (server.py 61-436): an int, a string, an object, bytes, or nothing. *)
  Inductive answer := AInt (v : Z) | AStr (k : nat) (s : str) | AObj (o : Ob) | ABytes (d : option (list Z)) | ANone.
  (** The write_* calls at the ends of the handlers (server.py 61-436; network_utils.py). *)
  Definition write_answer (a : answer) : list Z + nexn :=
    match a with
    | AInt v => write_int v IDN
    | AStr k s => write_utf8 s k
    | AObj o => write_obj dumps o SZN
    | ABytes d => write_bytes_obj d SZN
    | ANone => inl []
    end.

  (** What a client method makes of the answer. *)
  (** What the methods of server_connection.py 55-720 return. *)
  Inductive cres := RBool (b : bool) | RInt (v : option Z) | RStr (s : option str) | RObj (o : option Ob) | RUnit.
  Variable job_of : Ob -> str.
  (** [bool(await read_int(..))] (server_connection.py 660-661, 706); None is false. *)
  Definition truthy (v : option Z) : bool := match v with Some v => negb (v =? 0) | None => false end.     (* bool(x) *)
  (** server_connection.py: the reads after the writes.  _execute_query 172-176 (job id compared);
      _check_query_exec_status 719-721; _fetch_file 71; _get_query_result_meta 212; _get_next_result 246-250;
      _register_dataset 348 (the background job's id); poll 355; _register_metadata_parser 396; _check_dataset_exists 432;
      _list_datasets 458; _remove_dataset 493; _add_property 612; _checkpoint 638; _checkpoint_completed 660;
      _restore_checkpoint 678 (only logged); _receive_feedback 706. *)
  Definition client_read (q : creq) : reader -> reader * (cres + nexn) :=
    match q with
    | CRegisterQuery _ _ _ _ query =>
        j <~ read_utf8 IDN ;; ret (RBool (match j with Some s => str_eqb s (job_of query) | None => false end))
    | CQueryStatus _ => v <~ read_int IDN ;; ret (RInt v)
    | CReadFile _ => s <~ read_utf8 SZN ;; ret (RStr s)
    | CMeta _ => o <~ read_obj loads SZN ;; match o with Some o => ret (RObj (Some o)) | None => raise OtherError end
    | CNextChunk _ _ _ _ =>
        d <~ read_bytes_obj SZN ;;
        match d with None => ret (RObj None) | Some b => match loads b with Some o => ret (RObj (Some o)) | None => raise UnpickleError end end
    | CRegisterDataset _ _ _ _ _ => s <~ read_utf8 IDN ;; ret (RStr s)
    | CDatasetStatus _ => v <~ read_int IDN ;; ret (RInt v)
    | CRegisterParser _ _ | CDatasetExists _ | CRemoveDataset _ | CAddProperty _ _ _ _ _ _ _ _ _ _ _ | CCheckpointCompleted _ _ _ | CFeedback _ _ _ _ _ =>
        v <~ read_int IDN ;; ret (RBool (truthy v))
    | CListDatasets => o <~ read_obj loads SZN ;; ret (RObj o)
    | CCheckpoint _ _ _ _ => s <~ read_utf8 SZN ;; ret (RStr s)
    | CRestore _ _ => s <~ read_utf8 IDN ;; ret RUnit
    end.

  (** server_connection.py: what each method returns if _connect_to_server (91-138) gave up and yielded (None, None).
      63-64, 153-154, 202-203 with 286-287, 231-232, 339-340, 352-353 (write to None raises), 385-386, 424-425, 453-454,
      485-486, 569-570, 620-621, 647-648, 669-670, 692-694, 713-714 (False, which is 0 = pending). *)
  Variable empty_list : Ob.
  (** server_connection.py: the branches [if reader is None or writer is None] (e.g. 339-340), or what happens without one (350-354). *)
  Definition client_unconnected (q : creq) : cres + nexn :=
    match q with
    | CRegisterQuery _ _ _ _ _ | CRegisterDataset _ _ _ _ _ | CRegisterParser _ _ | CDatasetExists _ | CRemoveDataset _
    | CAddProperty _ _ _ _ _ _ _ _ _ _ _ | CCheckpointCompleted _ _ _ | CFeedback _ _ _ _ _ => inl (RBool false)
    | CQueryStatus _ => inl (RInt (Some 0))
    | CReadFile _ | CCheckpoint _ _ _ _ => inl (RStr None)
    | CMeta _ | CDatasetStatus _ => inr OtherError
    | CNextChunk _ _ _ _ => inl (RObj None)
    | CListDatasets => inl (RObj (Some empty_list))
    | CRestore _ _ => inl RUnit
    end.
End Proto.
Arguments creq : clear implicits.
Arguments sreq : clear implicits.
Arguments answer : clear implicits.
Arguments cres : clear implicits.
