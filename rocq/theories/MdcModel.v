(** Model of the dataset catalogue: mixtera/core/datacollection/mixtera_data_collection.py.

    Every statement executed on a cursor is its own durable DuckDB transaction (the connections are in autocommit mode,
    so the [commit()] calls that follow do nothing more).  An operation is therefore modelled by the list of database
    states it makes durable, in order, and its outcome; a crash leaves the state before the operation or one of the
    listed ones.

    Simplifications.  Tables are lists of rows in insertion order; a failed INSERT does not use up a sequence number.
    Whether DuckDB can cast a row of values to the existing columns is the parameter [castable].  Columns and ENUM types
    that a registration adds are recorded by name only.  VACUUM and configuration are left out.  pool.map returns the
    results in order, or raises if some task raises.  add_property never reaches the database (504-556 raises in
    _add_columns_to_samples_table, which expects MetadataProperty objects and gets a string). *)
From Verif Require Import Base MixtureKeyModel ChunkGenModel ParserModel.
Open Scope Z_scope.

(** location, type id and pickled parsing function of a dataset *)
(** mixtera_data_collection.py 91-96: a row of datasets (without id and name). *)
Record dinfo := DInfo { d_loc : str; d_type : Z; d_func : str }.
(** mixtera_data_collection.py 111-116: a row of samples. *)
Definition sample : Type := (Z * Z * Z) * record.   (* (dataset_id, file_id, sample_id), property values *)
(** mixtera_data_collection.py 82-121 *)
Record db := Db {
  datasets : list (Z * (str * dinfo));
  files : list (Z * (Z * str));
  samples : list sample;
  columns : list str;
  version : Z;
  next_dataset : Z;
  next_file : Z }.
(** mixtera_data_collection.py 82-121 _init_database. *)
Definition init_db : db := Db [] [] [] [] 1 1 1.

(** Record update; mixtera_data_collection.py 410-441. *)
Definition set_datasets x s := Db x (files s) (samples s) (columns s) (version s) (next_dataset s) (next_file s).
(** Record update; mixtera_data_collection.py 410-441. *)
Definition set_files x s := Db (datasets s) x (samples s) (columns s) (version s) (next_dataset s) (next_file s).
(** Record update; mixtera_data_collection.py 410-441. *)
Definition set_samples x s := Db (datasets s) (files s) x (columns s) (version s) (next_dataset s) (next_file s).

(** 136-142 *)
Definition incr_version (s : db) : db :=
  Db (datasets s) (files s) (samples s) (columns s) (version s + 1) (next_dataset s) (next_file s).

(** What an operation returns *)
(** mixtera_data_collection.py 144-202, 410-441: the value returned, or an exception. *)
Inductive outcome := Done (b : bool) | Raised.

(** 383-397 check_dataset_exists *)
Definition exists_dataset (s : db) (name : str) : bool :=
  existsb (fun d => str_eqb name (fst (snd d))) (datasets s).
(** 399-408 list_datasets *)
Definition list_datasets (s : db) : list str := map (fun d => fst (snd d)) (datasets s).
(** 457-502 (_get_dataset_func_by_id, _get_dataset_type_by_id, _get_file_path_by_id); [None] = RuntimeError *)
Definition dataset_func (s : db) (did : Z) : option str := option_map (fun d => d_func (snd d)) (aget Z.eqb did (datasets s)).
(** mixtera_data_collection.py 471-488. *)
Definition dataset_type (s : db) (did : Z) : option Z := option_map (fun d => d_type (snd d)) (aget Z.eqb did (datasets s)).
(** mixtera_data_collection.py 490-502. *)
Definition file_path (s : db) (fid : Z) : option str := option_map snd (aget Z.eqb fid (files s)).
(** 443-455 _get_all_files: the join of files and datasets *)
Definition all_files (s : db) : list (Z * Z * Z * str) :=
  flat_map (fun f => flat_map (fun d => if fst (snd f) =? fst d then [(fst f, fst (snd f), d_type (snd (snd d)), snd (snd f))] else [])
                              (datasets s)) (files s).

(** 204-247 _insert_dataset_into_table, the INSERT: the UNIQUE constraint on the name makes it fail *)
Definition insert_dataset (s : db) (name : str) (info : dinfo) : option (db * Z) :=
  if exists_dataset s name then None
  else Some (Db (datasets s ++ [(next_dataset s, (name, info))]) (files s) (samples s) (columns s) (version s)
                (next_dataset s + 1) (next_file s), next_dataset s).
(** 281-318 _add_columns_to_samples_table: one ALTER TABLE per new column, each its own commit; an ENUM without
    options raises (sorted(None)) *)
Fixpoint add_columns (s : db) (props : list mprop) : list db * bool :=
  match props with
  | [] => ([], true)
  | p :: props' =>
      if existsb (str_eqb (p_name p)) (columns s) then add_columns s props'
      else match p_dtype p, p_options p with
           | DEnum, NoOptions => ([], false)
           | _, _ =>
               let s := Db (datasets s) (files s) (samples s) (columns s ++ [p_name p]) (version s) (next_dataset s) (next_file s) in
               let (tr, ok) := add_columns s props' in (s :: tr, ok)
           end
  end.
(** The state after the statements listed; mixtera_data_collection.py 144-202. *)
Definition last_db (s : db) (tr : list db) : db := last tr s.
(** 249-279 _insert_files_into_table: one INSERT for all files; ids come from the sequence; file_ids are looked up by
    location ([id_map], a later row replaces an earlier one) *)
Definition insert_files (s : db) (did : Z) (locs : list str) : db * list Z :=
  let rows := combine (map (fun k => next_file s + Z.of_nat k) (seq 0 (length locs))) locs in
  let id_map := fold_left (fun m r => aset str_eqb (snd r) (fst r) m) rows [] in
  (Db (datasets s) (files s ++ map (fun r => (fst r, (did, snd r))) rows) (samples s) (columns s) (version s)
      (next_dataset s) (next_file s + Z.of_nat (length locs)),
   map (fun loc => match aget str_eqb loc id_map with Some i => i | None => 0 end) locs).

(** mixtera_data_collection.py 190-191. *)
Fixpoint chunks_of {A} (fuel : nat) (n : nat) (l : list A) : list (list A) :=
  match fuel, l with
  | S fuel, _ :: _ => firstn n l :: chunks_of fuel n (skipn n l)
  | _, _ => []
  end.
(** mixtera_data_collection.py 192: pool.map raises if one task does. *)
Fixpoint sequence {A} (l : list (res A)) : res (list A) :=
  match l with
  | [] => Ok []
  | Ok a :: l' => match sequence l' with Ok r => Ok (a :: r) | Err e => Err e end
  | Err e :: _ => Err e
  end.
(** mixtera_data_collection.py 115: equality of primary keys. *)
Definition key_eqb (a b : Z * Z * Z) : bool :=
  (fst (fst a) =? fst (fst b)) && (snd (fst a) =? snd (fst b)) && (snd a =? snd b).
(** mixtera_data_collection.py 115: PRIMARY KEY. *)
Fixpoint no_dup_keys (l : list (Z * Z * Z)) : bool :=
  match l with [] => true | k :: l' => negb (existsb (key_eqb k) l') && no_dup_keys l' end.
(** the value of a property column for one sample: [sample.get(key)] (342) *)
Definition columns_of (props : list mprop) (r : record) : record :=
  map (fun p => (p_name p, match aget str_eqb (p_name p) r with Some v => v | None => PNone end)) props.

Section Register.
  (** [castable columns props rows]: DuckDB accepts the values for the existing columns *)
  Variable castable : list str -> list mprop -> list sample -> bool.
  (** What the parser found in a file: sample numbers and records, or an exception (process_file_for_metadata 23-31) *)
  Variable metadata_of : str -> res (list (Z * record)).

  (** 321-381 _insert_samples_with_metadata: the rows of one chunk of files; one INSERT, refused as a whole if a
      primary key occurs twice *)
  Definition sample_rows (did : Z) (props : list mprop) (results : list (Z * list (Z * record))) : list sample :=
    flat_map (fun fm => map (fun m => ((did, fst fm, fst m), columns_of props (snd m))) (snd fm)) results.
  (** mixtera_data_collection.py 366-381. *)
  Definition insert_samples (s : db) (did : Z) (props : list mprop) (results : list (Z * list (Z * record))) : option db :=
    let rows := sample_rows did props results in
    if castable (columns s) props rows && no_dup_keys (map fst (samples s ++ rows))
    then Some (set_samples (samples s ++ rows) s) else None.

  (** 189-195: chunk after chunk *)
  Fixpoint insert_chunks (s : db) (did : Z) (props : list mprop) (chunks : list (list (Z * str))) : list db * bool :=
    match chunks with
    | [] => ([], true)
    | c :: chunks' =>
        match sequence (map (fun t => match metadata_of (snd t) with Ok m => Ok (fst t, m) | Err e => Err e end) c) with
        | Err _ => ([], false)
        | Ok results =>
            match insert_samples s did props results with
            | None => ([], false)
            | Some s => let (tr, ok) := insert_chunks s did props chunks' in (s :: tr, ok)
            end
        end
    end.

  (** 144-202 register_dataset.  [valid_type]: dtype is a proper Dataset class (212-222); [found]: iterate_files, which
      may raise; [schema]: the registered parser's properties, [None] = KeyError (162). *)
  (** mixtera_data_collection.py 183. *)
  Definition chunk_size : nat := Z.to_nat 2000.
  (** mixtera_data_collection.py 144-202. *)
  Definition register (s : db) (name : str) (info : dinfo) (valid_type : bool) (found : res (list str))
      (schema : option (list mprop)) : list db * outcome :=
    if negb valid_type then ([], Done false)
    else match insert_dataset s name info with
    | None => ([], Done false)
    | Some (s1, did) =>
        let s2 := incr_version s1 in
        match found with
        | Err _ => ([s1; s2], Raised)
        | Ok [] => ([s1; s2], Done false)                                                   (* 155-157 *)
        | Ok locs =>
            match schema with
            | None => ([s1; s2], Raised)                                                    (* 161 *)
            | Some props =>
                let (tr3, ok3) := add_columns s2 props in
                if negb ok3 then ([s1; s2] ++ tr3, Raised)
                else
                  let s3 := last_db s2 tr3 in
                  let (s4, fids) := insert_files s3 did locs in
                  let s5 := incr_version s4 in
                  let (tr6, ok6) := insert_chunks s5 did props (chunks_of (length locs) chunk_size (combine fids locs)) in
                  if negb ok6 then ([s1; s2] ++ tr3 ++ [s4; s5] ++ tr6, Raised)
                  else ([s1; s2] ++ tr3 ++ [s4; s5] ++ tr6 ++ [incr_version (last_db s5 tr6)], Done true)
            end
        end
    end.
End Register.

(** 410-441 remove_dataset: three DELETEs, each durable on its own, then the version *)
Definition ids_of (s : db) (name : str) : list Z :=
  map fst (filter (fun d => str_eqb name (fst (snd d))) (datasets s)).
(** mixtera_data_collection.py 416-431: IN. *)
Definition zmem (x : Z) (l : list Z) : bool := existsb (Z.eqb x) l.
(** mixtera_data_collection.py 410-441. *)
Definition remove (s : db) (name : str) : list db * outcome :=
  if negb (exists_dataset s name) then ([], Done false)
  else
    let s1 := set_samples (filter (fun r => negb (zmem (fst (fst (fst r))) (ids_of s name))) (samples s)) s in
    let s2 := set_files (filter (fun f => negb (zmem (fst (snd f)) (ids_of s1 name))) (files s1)) s1 in
    let s3 := set_datasets (filter (fun d => negb (str_eqb name (fst (snd d)))) (datasets s2)) s2 in
    ([s1; s2; s3; incr_version s3], Done true).
