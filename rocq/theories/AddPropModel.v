(** Model of MixteraDataCollection.add_property (mixtera/core/datacollection/mixtera_data_collection.py 504-592) with the
    executor it builds (processing/property_calculation/executor.py 39-56, local_executor.py 13-30).

    Simplifications.  The comparison [max_val <= min_val] of two floats is the Boolean argument [a_max_le_min].  Reading
    a file is a parameter ([content]: the text of an existing file).  The user's functions are arbitrary: setup may raise,
    the calculation is any function of the batch that may raise.  Python objects handed to
    _add_columns_to_samples_table are either MetadataProperty objects or strings; only the former have a [name].
    Statements on the database are durable one by one, as in MdcModel. *)
From Verif Require Import Base MixtureKeyModel ChunkGenModel ParserModel MdcModel ReaderModel ExecutorModel FilesModel.
Open Scope Z_scope.

(** core/processing/execution_mode.py 4-6 *)
Inductive mode := LocalMode | RayMode.
(** core/datacollection/property_type.py 4-6: CATEGORICAL or NUMERICAL. *)
Inductive ptype := Categorical | Numerical.
(** An element of the list given to _add_columns_to_samples_table (281): an object with a name, or a string;
    mixtera_data_collection.py 281-287, 552 *)
Inductive pyobj := PyProp (p : mprop) | PyName (n : str).

(** mixtera_data_collection.py 504-517: the arguments (functions apart) *)
Record args := Args {
  a_name : str; a_mode : mode; a_type : ptype; a_max_le_min : bool; a_buckets : Z; a_batch : Z; a_dop : Z }.

(** mixtera_data_collection.py 287: every element's [name] is read before anything is added; a str has no
    such attribute (AttributeError) *)
Fixpoint py_props (l : list pyobj) : option (list mprop) :=
  match l with
  | [] => Some []
  | PyProp p :: l' => option_map (cons p) (py_props l')
  | PyName _ :: _ => None
  end.
(** mixtera_data_collection.py 281-318 on arbitrary objects *)
Definition add_columns_py (s : db) (l : list pyobj) : list db * bool :=
  match py_props l with None => ([], false) | Some ps => add_columns s ps end.
(** mixtera_data_collection.py 558-592 _insert_property_values: nothing to insert, or the first row raises
    NotImplementedError ([true] = returns) *)
Definition insert_values {P} (rows : list (P * (Z * (Z * Z)))) : bool := match rows with [] => true | _ => false end.

(** mixtera_data_collection.py 455: the class of every file's dataset; an unknown type id raises *)
Fixpoint typed_files (content : str -> option str) (l : list (Z * Z * Z * str)) : res (list ifile) :=
  match l with
  | [] => Ok []
  | (f, d, t, path) :: l' =>
      match from_type_id t with
      | Err e => Err e
      | Ok c =>
          match typed_files content l' with
          | Err e => Err e
          | Ok fs => Ok (((f, d), match c with JsonlDs => Some (content path) | _ => None end) :: fs)
          end
      end
  end.
(** executor.py 39-56 and local_executor.py 13-30: [true] = an executor was built *)
Definition from_mode (m : mode) (dop batch_size : Z) (setup_ok : bool) : bool :=
  if dop <? 1 then false else if batch_size <? 1 then false
  else match m with LocalMode => setup_ok && negb (1 <? dop) | RayMode => false end.

Section AddProperty.
  Context {P : Type} (ok : P -> bool) (rstrip : str -> str) (content : str -> option str).
  (** mixtera_data_collection.py 504-556 *)
  Definition add_property (s : db) (a : args) (setup_ok : bool) (calc : batch -> res (list P)) : list db * outcome :=
    if Nat.leb (length (a_name a)) 0 then ([], Done false)                                     (* 518-520 *)
    else if (match a_type a with Numerical => a_max_le_min a | Categorical => false end) then ([], Done false)   (* 522-524 *)
    else if a_buckets a <? 2 then ([], Done false)                                             (* 526-528 *)
    else if a_batch a <? 1 then ([], Done false)                                               (* 530-532 *)
    else match a_type a with
         | Numerical => ([], Done false)                                                       (* 540-542 *)
         | Categorical =>
             match typed_files content (all_files s) with                                      (* 544 *)
             | Err _ => ([], Raised)
             | Ok fs =>
                 if negb (from_mode (a_mode a) (a_dop a) (a_batch a) setup_ok) then ([], Raised)   (* 547-549 *)
                 else match load_data rstrip (a_batch a) fs [] with                             (* 550 *)
                      | (_, Some _) => ([], Raised)
                      | (bs, None) =>
                          match run ok calc bs with                                            (* 551 *)
                          | Err _ => ([], Raised)
                          | Ok rows =>
                              let (tr, added) := add_columns_py s [PyName (a_name a)] in        (* 553 *)
                              if negb added then (tr, Raised)
                              else if negb (insert_values rows) then (tr, Raised)               (* 554 *)
                              else (tr ++ [incr_version (last_db s tr)], Done true)             (* 555-556 *)
                          end
                      end
             end
         end.
End AddProperty.
