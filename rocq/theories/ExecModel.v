(** Model of the execution of a query, mixtera/core/query/query.py 73-161 and query_result.py 60-65, 158-180: the
    samples table goes through the generated WHERE clause (SqlModel), the grouping into intervals (IntervalModel) and
    the construction of the chunker index (ChunkerModel).

    The samples are those of the catalogue (MdcModel).  Simplifications: a property column is VARCHAR, ENUM or an array
    of one of them (mixtera_data_collection.py 296-311), with the values the parsers produce; DuckDB keeps them
    unchanged.  Property columns are not named like the columns the query adds (dataset_id, file_id, sample_id, diff,
    group_id, interval_start, interval_end). *)
From Coq Require Import String.
From Verif Require Import Base MixtureKeyModel ParserModel MdcModel SqlModel IntervalModel ChunkerModel.
Open Scope Z_scope.

(** mixtera_data_collection.py 111-114: the columns every sample has. *)
Definition n_dataset : str := lit "dataset_id".
(** mixtera_data_collection.py 111-114. *)
Definition n_file : str := lit "file_id".
(** mixtera_data_collection.py 111-114. *)
Definition n_sample : str := lit "sample_id".
(** query.py 130, 137-147 and chunker.cpp 351-353: the columns the query adds. *)
Definition reserved : list str :=
  [n_dataset; n_file; n_sample; lit "diff"; lit "group_id"; lit "interval_start"; lit "interval_end"].

(** A value in the database: an INTEGER of the three id columns, or a text of a property column
    (mixtera_data_collection.py 111-114, 296-311). *)
Inductive sval := SInt (z : Z) | SText (s : str).
(** DuckDB's comparison of two values of one type (select.py 95-107); the types of a column do not mix. *)
Definition sval_cmp (a b : sval) : comparison :=
  match a, b with
  | SInt x, SInt y => Z.compare x y
  | SText x, SText y => str_cmp x y
  | SInt _, SText _ => Lt
  | SText _, SInt _ => Gt
  end.
(** A text or NULL; mixtera_data_collection.py 339-349. *)
Definition text_of (v : pval) : option sval := match v with PStr s => Some (SText s) | _ => None end.
(** A value of a property column; [multi] is the array flag of the column (mixtera_data_collection.py 299-311, 339-349). *)
Definition cell_of (multi : bool) (v : pval) : cell sval :=
  if multi then CArray (match v with ParserModel.PList l => Some (map text_of l) | _ => None end)
  else CScalar (text_of v).
(** query.py 91-101: the schema read from the database: the id columns are no arrays. *)
Definition schema_of (cols : list (str * bool)) : schema := (n_dataset, false) :: (n_file, false) :: (n_sample, false) :: cols.
(** The value of the record for a column, NULL if the registration did not have it; mixtera_data_collection.py 339-349. *)
Definition value_of (r : record) (c : str) : pval := match aget str_eqb c r with Some v => v | None => ParserModel.PNone end.
(** A row of the samples table: what is in the column of a name (mixtera_data_collection.py 111-116, 281-319). *)
Definition row_of (cols : list (str * bool)) (x : sample) (c : str) : option (cell sval) :=
  let '((d, f, i), r) := x in
  if str_eqb c n_dataset then Some (CScalar (Some (SInt d)))
  else if str_eqb c n_file then Some (CScalar (Some (SInt f)))
  else if str_eqb c n_sample then Some (CScalar (Some (SInt i)))
  else match aget str_eqb c cols with None => None | Some multi => Some (cell_of multi (value_of r c)) end.

(** query.py 113-116: the property columns of the result in sorted order. *)
Definition group_cols (cols : list (str * bool)) : list str := isort str_ltb (akeys cols).
(** The integer in an id column; query.py 124-129. *)
Definition int_at (row : str -> option (cell sval)) (c : str) : Z := match row c with Some (CScalar (Some (SInt z))) => z | _ => 0 end.
(** The property in a column; query.py 122-124. *)
Definition cell_at (row : str -> option (cell sval)) (c : str) : cell sval := match row c with Some x => x | None => CScalar None end.
(** query.py 113-119: the group columns of a selected row. *)
Definition group : Type := Z * Z * list (cell sval).
(** query.py 114-131: a selected row as the window functions see it: group columns and sample id. *)
Definition group_row (cols : list (str * bool)) (row : str -> option (cell sval)) : group * Z :=
  ((int_at row n_dataset, int_at row n_file, map (cell_at row) (group_cols cols)), int_at row n_sample).

(** Equality in PARTITION BY and GROUP BY, where NULLs are equal (query.py 130, 141, 149). *)
Definition sval_eqb (a b : sval) : bool := match sval_cmp a b with Eq => true | _ => false end.
(** query.py 130, 141, 149. *)
Definition opt_eqb {A} (eqb : A -> A -> bool) (a b : option A) : bool :=
  match a, b with None, None => true | Some x, Some y => eqb x y | _, _ => false end.
(** query.py 130, 141, 149. *)
Definition cell_eqb (a b : cell sval) : bool :=
  match a, b with
  | CScalar x, CScalar y => opt_eqb sval_eqb x y
  | CArray x, CArray y => opt_eqb (list_eqb (opt_eqb sval_eqb)) x y
  | _, _ => false
  end.
(** query.py 130, 141, 149. *)
Definition group_eqb (a b : group) : bool :=
  let '(d, f, l) := a in let '(d', f', l') := b in (d =? d') && (f =? f') && list_eqb cell_eqb l l'.

(** A cell of the result table as the chunker reads it (chunker.cpp 125-306); numbers are rejected. *)
Definition str_of (v : option sval) : option str := match v with Some (SText s) => Some s | _ => None end.
(** chunker.cpp 125-306. *)
Definition vcell_of (c : cell sval) : vcell :=
  match c with
  | CScalar None | CArray None => VNull
  | CScalar (Some (SText s)) => VStr s
  | CScalar (Some (SInt _)) => VBad
  | CArray (Some l) => VList (map str_of l)
  end.
(** query.py 143-155: a row of the result table: the group columns and the interval (chunker.cpp 100-119, 351-365). *)
Definition table_row (x : group * (Z * Z)) : trow :=
  let '((d, f, l), (a, b)) := x in TRow (map vcell_of l) d f a b.

Section Execute.
  (** ORDER BY on the group columns (query.py 150): DuckDB's order of integers, texts, arrays and NULLs. *)
  Variable glt : group -> group -> bool.
  (** What DuckDB's array functions return for a NULL array (select.py 60-86). *)
  Variable na : option bool.

  (** query.py 122-155: the table handed to QueryResult; [None] = the database raises. *)
  Definition result_table (cols : list (str * bool)) (sels : list (list (cond sval))) (xs : list sample) : option (list trow) :=
    match run_query sval_cmp na (schema_of cols) (query_of sels) (map (row_of cols) xs) with
    | None => None
    | Some rows => Some (map table_row (query_intervals group_eqb glt (map (group_row cols) rows)))
    end.
  (** query_result.py 177-180: the number of worker threads. *)
  Definition num_workers (cores : Z) (in_test : bool) : Z := if in_test then 1 else Z.max (cores - 4) 1.

  (** An execution of the query: the index of the QueryResult, [None] = an exception.  Arrow cuts the table into
      batches of its choice. *)
  (** query.py 73-161, query_result.py 65, 158-180. *)
  Inductive executes (itk : cindex -> cindex) (itd : list (Z * list (Z * list interval)) -> list (Z * list (Z * list interval)))
      (itf : list (Z * list interval) -> list (Z * list interval)) (cols : list (str * bool))
      (sels : list (list (cond sval))) (xs : list sample) : option pindex -> Prop :=
  | ExRaise : result_table cols sels xs = None -> executes itk itd itf cols sels xs None
  | ExIndex table batches cores in_test res :
      result_table cols sels xs = Some table -> concat batches = table ->
      creates itk itd itf (group_cols cols) batches (num_workers cores in_test) res ->
      executes itk itd itf cols sels xs res.
End Execute.
