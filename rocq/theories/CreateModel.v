(** Model of creating and opening the database of a Mixtera directory, with crashes:
    mixtera/core/datacollection/mixtera_data_collection.py 34-121 and 128-142.

    As in MdcModel.v every statement is a durable transaction of its own (the connection is in autocommit mode); [duckdb.connect]
    creates the file.  A crash ends the process, a new process opens the directory again.  Until the creation is complete the
    database has a prefix of the statements of _init_database.

    Simplifications: the configuration (59-77) and VACUUM change no table and are left out, as is a directory that does not exist;
    one process uses the directory at a time (DuckDB locks the file); the catalogue operations on a complete database are those
    of MdcModel.v.  duckdb.CatalogException (a table that does not exist) is a duckdb.Error. *)
From Verif Require Import Base MixtureKeyModel ChunkGenModel ParserModel MdcModel.
Open Scope Z_scope.

(** mixtera_data_collection.py 88-118: the statements of _init_database. *)
Inductive stmt := SeqDataset | TabDatasets | SeqFile | TabFiles | SeqSample | TabSamples | TabVersion | RowVersion.
(** mixtera_data_collection.py 88-118: their order. *)
Definition creation : list stmt := [SeqDataset; TabDatasets; SeqFile; TabFiles; SeqSample; TabSamples; TabVersion; RowVersion].
(** mixtera_data_collection.py 88-118: equality of statements. *)
Definition stmt_eqb (a b : stmt) : bool :=
  match a, b with
  | SeqDataset, SeqDataset | TabDatasets, TabDatasets | SeqFile, SeqFile | TabFiles, TabFiles | SeqSample, SeqSample
  | TabSamples, TabSamples | TabVersion, TabVersion | RowVersion, RowVersion => true
  | _, _ => false
  end.

(** mixtera_data_collection.py 85: the database file: the statements of its creation that were executed, and its rows. *)
Record disk := Disk { k_done : list stmt; k_db : db }.
(** mixtera_data_collection.py 88-118: the statement has been executed. *)
Definition has (k : disk) (s : stmt) : bool := existsb (stmt_eqb s) (k_done k).

(** mixtera_data_collection.py 46-54 __init__: an existing file is loaded as it is, otherwise it is created.  [crash]: the process
    dies before the connection is made ([Some 0]) or after so many statements ([Some (S n)]). *)
Definition open_dir (crash : option nat) (d : option disk) : option disk * bool :=
  match d with
  | Some k => (Some k, match crash with None => true | Some _ => false end)              (* 54, 79-84 *)
  | None => match crash with
            | None => (Some (Disk creation init_db), true)                               (* 52, 86-121 *)
            | Some O => (None, false)
            | Some (S n) => (Some (Disk (firstn n creation) init_db), false)
            end
  end.

(** mixtera_data_collection.py 128-134 get_db_version: None = raises, for lack of the table or of the row (assert). *)
Definition get_version (k : disk) : option Z := if has k TabVersion && has k RowVersion then Some (version (k_db k)) else None.
(** mixtera_data_collection.py 383-397 check_dataset_exists: a duckdb.Error gives False. *)
Definition exists_on (k : disk) (name : str) : bool := if has k TabDatasets then exists_dataset (k_db k) name else false.
(** mixtera_data_collection.py 399-408 list_datasets: a duckdb.Error gives the empty list. *)
Definition list_on (k : disk) : list str := if has k TabDatasets then list_datasets (k_db k) else [].

Section Ops.
  Variable castable : list str -> list mprop -> list sample -> bool.
  Variable metadata_of : str -> res (list (Z * record)).

  (** mixtera_data_collection.py 144-247 register_dataset: without the table datasets the INSERT fails and is caught (238-240); without the
      table version the row is in and the increment fails and is caught (237-240); without its row the assertion is not caught. *)
  Definition register_on (k : disk) (name : str) (info : dinfo) (vt : bool) (found : res (list str)) (schema : option (list mprop))
    : list db * outcome :=
    if has k RowVersion then register castable metadata_of (k_db k) name info vt found schema
    else if negb vt || negb (has k TabDatasets) then ([], Done false)
    else match insert_dataset (k_db k) name info with
         | None => ([], Done false)
         | Some (s1, _) => ([s1], if has k TabVersion then Raised else Done false)
         end.

  (** mixtera_data_collection.py 410-441 remove_dataset: each DELETE needs its table; then the increment as above. *)
  Definition remove_on (k : disk) (name : str) : list db * outcome :=
    if has k RowVersion then remove (k_db k) name
    else if negb (exists_on k name) then ([], Done false)
    else if negb (has k TabSamples) then ([], Done false)                                 (* samples is created last *)
    else (firstn 3 (fst (remove (k_db k) name)), if has k TabVersion then Raised else Done false).

  (** The calls of the users of a directory; [crash]: the process dies after so many durable statements of the call. *)
  (** mixtera_data_collection.py 34-57, 128-134, 144-202, 383-441. *)
  Inductive event :=
  | EOpen (crash : option nat)
  | EVersion | EExists (name : str) | EList
  | ERegister (name : str) (info : dinfo) (vt : bool) (found : res (list str)) (schema : option (list mprop)) (crash : option nat)
  | ERemove (name : str) (crash : option nat).
  (** What the caller sees; mixtera_data_collection.py 34-57, 128-134, 144-202, 383-441. *)
  Inductive answer := AOpened | ACrashed | ADown | AVersion (v : Z) | ABool (b : bool) | ANames (l : list str) | ARaised.

  (** The running process (if any) and the database file; mixtera_data_collection.py 34-57. *)
  Record world := World { w_up : bool; w_disk : option disk }.

  (** The rest of a call: its last state, or the one it crashed in; mixtera_data_collection.py 144-202, 410-441. *)
  Definition finish (k : disk) (tr : list db) (o : outcome) (crash : option nat) : world * answer :=
    match crash with
    | None => (World true (Some (Disk (k_done k) (last_db (k_db k) tr))), match o with Done b => ABool b | Raised => ARaised end)
    | Some n => (World false (Some (Disk (k_done k) (last_db (k_db k) (firstn n tr)))), ACrashed)
    end.

  (** mixtera_data_collection.py 34-57, 128-134, 144-202, 383-441. *)
  Definition step (w : world) (ev : event) : world * answer :=
    match ev with
    | EOpen crash => let (d, up) := open_dir crash (w_disk w) in (World up d, if up then AOpened else ACrashed)
    | _ =>
        match w_up w, w_disk w with
        | true, Some k =>
            match ev with
            | EOpen _ => (w, ADown)
            | EVersion => (w, match get_version k with Some v => AVersion v | None => ARaised end)
            | EExists name => (w, ABool (exists_on k name))
            | EList => (w, ANames (list_on k))
            | ERegister name info vt found schema crash => let (tr, o) := register_on k name info vt found schema in finish k tr o crash
            | ERemove name crash => let (tr, o) := remove_on k name in finish k tr o crash
            end
        | _, _ => (w, ADown)
        end
    end.

  (** A history of calls and their answers; mixtera_data_collection.py 34-57, 128-134, 144-202, 383-441. *)
  Fixpoint runs (evs : list event) (w : world) : world * list answer :=
    match evs with
    | [] => (w, [])
    | ev :: evs' => let (w1, a) := step w ev in let (w2, l) := runs evs' w1 in (w2, a :: l)
    end.
  (** A directory nothing was done with; mixtera_data_collection.py 46-52. *)
  Definition fresh : world := World false None.
End Ops.
