(** Model of the column types of the samples table: mixtera/core/datacollection/mixtera_data_collection.py 281-381.
    It refines MdcModel, where a column is only a name and whether DuckDB accepts the values is a parameter.

    DuckDB, as assumed here.  INSERT ... SELECT casts each value to its column's type: text is stored in a VARCHAR
    column as it is, in an ENUM column if it is one of the options, in a list column if it parses as a list; a list is
    stored in a VARCHAR column as its text, in a list column element by element, and cannot be cast to an ENUM; NULL is
    stored as NULL.  How DuckDB prints and parses lists are parameters, and so is which names it accepts unquoted.
    Names of columns and types are compared without regard to the case of ASCII letters.  A CREATE TYPE with a repeated
    option fails; so, in this model, does one with a quote in an option, which breaks the statement's text (304-305).

    A state of the database is a pair of a catalogue (MdcModel) and a schema; every statement is durable on its own. *)
From Coq Require Import String.
From Verif Require Import Base MixtureKeyModel ChunkGenModel ParserModel MdcModel.
Open Scope Z_scope.

(** mixtera_data_collection.py 292, 307: the type of a column of the samples table; the flag: a list of such. *)
Inductive ctype := CText (multi : bool) | CEnum (opts : list str) (multi : bool).
(** mixtera_data_collection.py 298, 305, 316: the added columns and the ENUM types (by lower-case name). *)
Record schema := Schema { cols : list (str * ctype); types : list (str * list str) }.
(** mixtera_data_collection.py 108-116: nothing has been added. *)
Definition init_schema : schema := Schema [] [].
(** mixtera_data_collection.py 281-381: what is stored. *)
Definition tdb : Type := db * schema.
(** mixtera_data_collection.py 82-121. *)
Definition init_tdb : tdb := (init_db, init_schema).

(** mixtera_data_collection.py 298: LOWER. *)
Definition lower (s : str) : str := map (fun c => if (65 <=? c) && (c <=? 90) then c + 32 else c) s.
(** mixtera_data_collection.py 111-115: the columns of the empty samples table. *)
Definition fixed_columns : list str := [lit "dataset_id"; lit "file_id"; lit "sample_id"].
(** mixtera_data_collection.py 285-286 *)
Definition existing (sc : schema) : list str := fixed_columns ++ map fst (cols sc).
(** mixtera_data_collection.py 296 *)
Definition enum_name (p : mprop) : str := lit "enum_" ++ p_name p.
(** mixtera_data_collection.py 304: [sorted(prop.enum_options)]; the order does not matter here *)
Definition option_list (p : mprop) : option (list str) :=
  match p_options p with NoOptions => None | OSet o | OList o => Some o end.
(** mixtera_data_collection.py 304: joining no options gives the one option "" *)
Definition enum_values (o : list str) : list str := match o with [] => [[]] | _ => o end.
(** mixtera_data_collection.py 305: CREATE TYPE refuses a repeated option and breaks at a quote *)
Definition valid_options (o : list str) : bool :=
  (fix nodup (l : list str) : bool := match l with [] => true | x :: l' => negb (existsb (str_eqb x) l') && nodup l' end) o
  && forallb (fun x => negb (existsb (Z.eqb 39) x)) o.

Section Schema.
  (** the names DuckDB accepts unquoted (305, 316) *)
  Variable ident : str -> bool.
  (** how DuckDB prints a list as text and parses a text as a list (369) *)
  Variable show_list : list pval -> str.
  Variable parse_list : str -> option (list pval).
  (** What the parser found in a file (process_file_for_metadata 23-31). *)
  Variable metadata_of : str -> res (list (Z * record)).

  (** mixtera_data_collection.py 294-306: the ENUM type for a property, made if there is none; the statements executed *)
  Definition enum_type (sc : schema) (p : mprop) : option (list schema * list str) :=
    match aget str_eqb (lower (enum_name p)) (types sc) with
    | Some opts => Some ([], opts)
    | None =>
        match option_list p with
        | None => None                                                                      (* 304: sorted(None) *)
        | Some o =>
            let o := enum_values o in
            if ident (enum_name p) && valid_options o
            then Some ([Schema (cols sc) (types sc ++ [(lower (enum_name p), o)])], o)
            else None
        end
    end.
  (** mixtera_data_collection.py 315-317: ALTER TABLE *)
  Definition alter (sc : schema) (p : mprop) (t : ctype) : list schema * bool :=
    if ident (p_name p) && negb (existsb (fun c => str_eqb (lower c) (lower (p_name p))) (existing sc))
    then ([Schema (cols sc ++ [(p_name p, t)]) (types sc)], true)
    else ([], false).
  (** mixtera_data_collection.py 290-317 *)
  Definition add_column (sc : schema) (p : mprop) : list schema * bool :=
    match p_dtype p with
    | DString => alter sc p (CText (p_multiple p))
    | DEnum =>
        match enum_type sc p with
        | None => ([], false)
        | Some (tr, o) => let (tr', ok) := alter (last tr sc) p (CEnum o (p_multiple p)) in (tr ++ tr', ok)
        end
    end.
  (** mixtera_data_collection.py 289-317: the loop *)
  Fixpoint add_each (sc : schema) (props : list mprop) : list schema * bool :=
    match props with
    | [] => ([], true)
    | p :: props' =>
        let (tr, ok) := add_column sc p in
        if ok then let (tr', ok') := add_each (last tr sc) props' in (tr ++ tr', ok') else (tr, false)
    end.
  (** mixtera_data_collection.py 281-319 _add_columns_to_samples_table: the existing columns are fetched once *)
  Definition add_columns_typed (sc : schema) (props : list mprop) : list schema * bool :=
    add_each sc (filter (fun p => negb (existsb (str_eqb (p_name p)) (existing sc))) props).

  (** mixtera_data_collection.py 361: pa.array with an explicit type *)
  Definition arrow_text (v : pval) : bool := match v with PNone | PStr _ => true | _ => false end.
  (** mixtera_data_collection.py 361: list_(string()) or string() *)
  Definition arrow_ok (p : mprop) (v : pval) : bool :=
    match v with
    | PNone => true
    | PList l => p_multiple p && forallb arrow_text l
    | _ => negb (p_multiple p) && arrow_text v
    end.
  (** mixtera_data_collection.py 376: an element of an ENUM list *)
  Definition in_enum (o : list str) (v : pval) : bool :=
    match v with PNone => true | PStr s => existsb (str_eqb s) o | _ => false end.
  (** mixtera_data_collection.py 376: the cast of one value to the column's type *)
  Definition cast (t : ctype) (v : pval) : option pval :=
    match v with
    | PNone => Some PNone
    | PStr s =>
        match t with
        | CText false => Some v
        | CText true => option_map PList (parse_list s)
        | CEnum o false => if existsb (str_eqb s) o then Some v else None
        | CEnum o true => match parse_list s with
                          | Some l => if forallb (in_enum o) l then Some (PList l) else None
                          | None => None
                          end
        end
    | PList l =>
        match t with
        | CText false => Some (PStr (show_list l))
        | CText true => Some v
        | CEnum o false => None
        | CEnum o true => if forallb (in_enum o) l then Some v else None
        end
    | _ => None
    end.
  (** mixtera_data_collection.py 330-342, 355-376: the property columns of one row, as stored *)
  Fixpoint store_row (sc : schema) (props : list mprop) (r : record) : option record :=
    match props with
    | [] => Some []
    | p :: props' =>
        let v := match aget str_eqb (p_name p) r with Some v => v | None => PNone end in
        if arrow_ok p v then
          match aget str_eqb (p_name p) (cols sc) with
          | None => None
          | Some t => match cast t v, store_row sc props' r with
                      | Some w, Some r' => Some ((p_name p, w) :: r')
                      | _, _ => None
                      end
          end
        else None
    end.
  (** mixtera_data_collection.py 334-342: one after the other; one value that cannot be stored fails the statement *)
  Fixpoint all_some {A} (l : list (option A)) : option (list A) :=
    match l with
    | [] => Some []
    | None :: _ => None
    | Some a :: l' => option_map (cons a) (all_some l')
    end.
  (** mixtera_data_collection.py 321-381 _insert_samples_with_metadata *)
  Definition insert_samples_typed (s : tdb) (did : Z) (props : list mprop) (results : list (Z * list (Z * record))) : option tdb :=
    match all_some (flat_map (fun fm => map (fun m => option_map (fun r => ((did, fst fm, fst m), r)) (store_row (snd s) props (snd m))) (snd fm)) results) with
    | None => None
    | Some rows =>
        if no_dup_keys (map fst (samples (fst s) ++ rows))
        then Some (set_samples (samples (fst s) ++ rows) (fst s), snd s) else None
    end.
  (** mixtera_data_collection.py 189-195 *)
  Fixpoint insert_chunks_typed (s : tdb) (did : Z) (props : list mprop) (chunks : list (list (Z * str))) : list tdb * bool :=
    match chunks with
    | [] => ([], true)
    | c :: chunks' =>
        match sequence (map (fun t => match metadata_of (snd t) with Ok m => Ok (fst t, m) | Err e => Err e end) c) with
        | Err _ => ([], false)
        | Ok results =>
            match insert_samples_typed s did props results with
            | None => ([], false)
            | Some s => let (tr, ok) := insert_chunks_typed s did props chunks' in (s :: tr, ok)
            end
        end
    end.
  (** mixtera_data_collection.py 281-319: the catalogue's list of columns follows the schema *)
  Definition with_schema (s : db) (sc : schema) : tdb :=
    (Db (datasets s) (files s) (samples s) (map fst (cols sc)) (version s) (next_dataset s) (next_file s), sc).
  (** mixtera_data_collection.py 144-202 register_dataset, as in MdcModel *)
  Definition register_typed (s : tdb) (name : str) (info : dinfo) (valid_type : bool) (found : res (list str))
      (props : option (list mprop)) : list tdb * outcome :=
    if negb valid_type then ([], Done false)
    else match insert_dataset (fst s) name info with
    | None => ([], Done false)
    | Some (s1, did) =>
        let s2 := incr_version s1 in
        let tr2 := [(s1, snd s); (s2, snd s)] in
        match found with
        | Err _ => (tr2, Raised)
        | Ok [] => (tr2, Done false)                                                        (* 155-157 *)
        | Ok locs =>
            match props with
            | None => (tr2, Raised)                                                         (* 161 *)
            | Some props =>
                let (scs, ok3) := add_columns_typed (snd s) props in
                let tr3 := map (with_schema s2) scs in
                if negb ok3 then (tr2 ++ tr3, Raised)
                else
                  let '(s3, sc3) := last tr3 (s2, snd s) in
                  let (s4, fids) := insert_files s3 did locs in
                  let s5 := incr_version s4 in
                  let (tr6, ok6) := insert_chunks_typed (s5, sc3) did props (chunks_of (length locs) chunk_size (combine fids locs)) in
                  if negb ok6 then (tr2 ++ tr3 ++ [(s4, sc3); (s5, sc3)] ++ tr6, Raised)
                  else
                    let s6 := last tr6 (s5, sc3) in
                    (tr2 ++ tr3 ++ [(s4, sc3); (s5, sc3)] ++ tr6 ++ [(incr_version (fst s6), snd s6)], Done true)
            end
        end
    end.
  (** mixtera_data_collection.py 410-441 remove_dataset: columns and types stay *)
  Definition remove_typed (s : tdb) (name : str) : list tdb * outcome :=
    let (tr, o) := remove (fst s) name in (map (fun d => (d, snd s)) tr, o).
End Schema.
