(** Model of how a location given to register_dataset becomes a list of files and their samples:
    mixtera/core/filesystem/{filesystem,local_filesystem}.py, the [iterate_files] of core/datacollection/datasets, the
    dataset classes and their type ids, and process_file_for_metadata (mixtera_data_collection.py 23-31), in front of
    the catalogue (MdcModel) and the metadata parsers (ParserModel).

    Simplifications.  The file tree has no symbolic links and no permissions, and does not change while it is read.
    What the bytes of a file mean (decompression and UTF-8, json, parquet, tar) are parameters; a file whose decoding
    breaks off part-way raises as a whole.  A string location is used (not a [Path]). *)
From Coq Require Import String.
From Verif Require Import Base MixtureKeyModel UtilsModel ChunkGenModel ParserModel MdcModel ReaderModel.
Open Scope Z_scope.

(** ** Paths *)
(** [s.startswith(p)] (filesystem.py 28) *)
Definition has_prefix (p s : str) : bool := str_eqb (firstn (length p) s) p.
(** [fnmatch(name, "*" + p)] for [p] without wildcards (local_filesystem.py 44, Path.glob) *)
Definition has_suffix (p s : str) : bool := str_eqb (skipn (length s - length p) s) p.
(** The separator, and the special components (local_filesystem.py 22, 40: pathlib.Path) *)
Definition slash : Z := 47.
(** [s.split("/")], as pathlib does (local_filesystem.py 22, 40) *)
Fixpoint split_slash (t : str) : list str :=
  match t with
  | [] => [[]]
  | c :: t' =>
      if c =? slash then [] :: split_slash t'
      else match split_slash t' with [] => [[c]] | l :: ls => (c :: l) :: ls end
  end.
(** pathlib drops empty components and "." (local_filesystem.py 22, 40) *)
Definition kept (c : str) : bool := negb (str_eqb c []) && negb (str_eqb c (lit ".")).
(** The components of [Path(p)] (local_filesystem.py 22, 40) *)
Definition parts (p : str) : list str := filter kept (split_slash p).
(** The root of [Path(p)]: exactly two leading slashes are kept (local_filesystem.py 22, 40) *)
Definition root_of (p : str) : str :=
  if has_prefix (lit "///") p then lit "/" else if has_prefix (lit "//") p then lit "//"
  else if has_prefix (lit "/") p then lit "/" else [].
(** ["/".join(parts)] (local_filesystem.py 45: str(pth)) *)
Fixpoint join_slash (l : list str) : str :=
  match l with [] => [] | [c] => c | c :: l' => c ++ slash :: join_slash l' end.
(** [str(Path(p))] (mixtera_data_collection.py 28, jsonl_dataset.py 33 with filesystem.py 47, web_dataset.py 27) *)
Definition norm (p : str) : str :=
  match root_of p ++ join_slash (parts p) with [] => lit "." | q => q end.
(** [str(Path(d) / n)], what glob yields (local_filesystem.py 44-45) *)
Definition child (d n : str) : str := root_of d ++ join_slash (parts d ++ [n]).

(** ** The file tree *)
(** A file with its bytes, or a directory with its entries in the order scandir delivers them (local_filesystem.py 20-45) *)
Inductive node := NFile (raw : str) | NDir (entries : list (str * node)).
(** Resolving components from a node; ".." goes back (the operating system, as called in local_filesystem.py 17, 24, 27, 41) *)
Fixpoint walk (anc : list node) (cur : node) (ps : list str) {struct ps} : option node :=
  match ps with
  | [] => Some cur
  | p :: ps' =>
      match cur with
      | NFile _ => None
      | NDir es =>
          if str_eqb p (lit "..") then match anc with [] => walk [] cur ps' | a :: anc' => walk anc' a ps' end
          else match aget str_eqb p es with None => None | Some n => walk (cur :: anc) n ps' end
      end
  end.

(** ** Dataset classes: dataset_type.py 4-9 and the classes in core/datacollection/datasets *)
Inductive dclass := GenericDs | JsonlDs | CroissantDs | WebDs | ParquetDs.
(** [dtype.type.value]; dataset_type.py 4-9, jsonl_dataset.py 15, croissant_dataset.py 12, web_dataset.py 14, parquet_dataset.py 14 *)
Definition type_id (c : dclass) : Z :=
  match c with GenericDs => 0 | JsonlDs => 1 | CroissantDs => 2 | WebDs => 3 | ParquetDs => 4 end.
(** dataset.py 13-46 from_type_id *)
Definition from_type_id (i : Z) : res dclass :=
  if i =? 1 then Ok JsonlDs else if i =? 3 then Ok WebDs else if i =? 4 then Ok ParquetDs else if i =? 0 then Ok GenericDs
  else if i =? 2 then Err NotImplementedError                                               (* 44 *)
  else Err RuntimeError.                                                                    (* 45-46 *)

Section Files.
  (** the root directory, and the working directory with its ancestors *)
  Variables (root : node) (cwd : node) (cwd_anc : list node).
  (** xopen(path, "r", encoding="utf-8") on the bytes of a file, json.loads, pq.ParquetFile and its row groups, the way
      pyarrow cuts a table into batches, MMIndexedTar with group_by_key, and the decoder of webdataset_utils.py 59-103 *)
  Variable unpack : str -> str -> res str.
  Variable loads : str -> res pval.
  Variable parquet_open : str -> res (list (list pval)).
  Variable batches : list pval -> list (list pval).
  Variable tar_open : str -> res (list (list member)).
  Variable decode : list (str * str) -> res pval.

  (** Resolving a path string (local_filesystem.py 17, 24, 27, 41) *)
  Definition find (p : str) : option node :=
    if has_prefix (lit "/") p then walk [] root (parts p) else walk cwd_anc cwd (parts p).
  (** The last component is "" or ".": the operating system then wants a directory (local_filesystem.py 17) *)
  Definition wants_dir (p : str) : bool := negb (kept (last (split_slash p) [])).
  (** [open(p, "rb")] (local_filesystem.py 17, parquet_dataset.py 29, 122, webdataset_utils.py 116) *)
  Definition open_bytes (p : str) : res str :=
    match find p with
    | Some (NFile raw) => if wants_dir p then Err RuntimeError else Ok raw
    | _ => Err RuntimeError
    end.

  (** filesystem.py 11-31 from_path: [true] = LocalFileSystem, [false] = NotImplementedError *)
  Definition from_path (p : str) : bool := has_prefix (lit "file://") p || has_prefix (lit "/") p.
  (** filesystem.py 33-53 open_file without a server, local_filesystem.py 11-18 *)
  Definition open_file (p : str) : res (list str) :=
    if negb (from_path p) then Err NotImplementedError
    else match open_bytes p with
         | Err e => Err e
         | Ok raw => match unpack p raw with Err e => Err e | Ok text => Ok (local_file_iterable text) end
         end.
  (** filesystem.py 72-85, local_filesystem.py 20-27 is_dir *)
  Definition is_dir (p : str) : res bool :=
    if negb (from_path p) then Err NotImplementedError
    else match find p with
         | None => Err RuntimeError                                                         (* local_filesystem.py 23-25 *)
         | Some (NFile _) => Ok false
         | Some (NDir _) => Ok true
         end.
  (** filesystem.py 87-101, local_filesystem.py 29-45 get_all_files_with_ext: entries of the directory itself, files or
      not; nothing if it is no directory *)
  Definition all_files_with_ext (d ext : str) : res (list str) :=
    if negb (from_path d) then Err NotImplementedError
    else match find d with
         | None => Err RuntimeError                                                         (* local_filesystem.py 41-42 *)
         | Some (NFile _) => Ok []
         | Some (NDir es) => Ok (map (fun e => child d (fst e)) (filter (fun e => has_suffix (lit "." ++ ext) (fst e)) es))
         end.
  (** filesystem.py 103-116 get_all_files_with_exts *)
  Fixpoint all_files_with_exts (d : str) (exts : list str) : res (list str) :=
    match exts with
    | [] => Ok []
    | ext :: exts' =>
        match all_files_with_ext d ext with
        | Err e => Err e
        | Ok l => match all_files_with_exts d exts' with Err e => Err e | Ok l' => Ok (l ++ l') end
        end
    end.

  (** jsonl_dataset.py 75-88 _is_valid_jsonl *)
  Definition is_valid_jsonl (p : str) : bool :=
    match open_file p with
    | Err _ => false
    | Ok ls => forallb (fun l => match loads l with Ok _ => true | Err _ => false end) ls
    end.
  (** parquet_dataset.py 119-128 _is_valid_parquet *)
  Definition is_valid_parquet (p : str) : bool :=
    match open_bytes p with
    | Err _ => false
    | Ok raw => match parquet_open raw with Ok _ => true | Err _ => false end
    end.
  (** jsonl_dataset.py 28 *)
  Definition jsonl_exts : list str :=
    [lit "jsonl"; lit "jsonl.gz"; lit "jsonl.zst"; lit "jsonl.xz"; lit "jsonl.bz2"; lit "jsonl.z"].
  (** [list(dtype.iterate_files(loc))]: jsonl_dataset.py 17-28, web_dataset.py 16-23, parquet_dataset.py 16-25,
      croissant_dataset.py 18-20, dataset.py 63-76.  A single jsonl or tar file is yielded and the listing that follows
      finds nothing. *)
  Definition iterate_files (c : dclass) (loc : str) : res (list str) :=
    match c with
    | GenericDs | CroissantDs => Err NotImplementedError
    | JsonlDs =>
        match is_dir loc with
        | Err e => Err e
        | Ok dir =>
            if negb dir && negb (is_valid_jsonl loc) then Err RuntimeError                  (* 19-23 *)
            else match all_files_with_exts loc jsonl_exts with
                 | Err e => Err e
                 | Ok l => Ok ((if dir then [] else [loc]) ++ l)                            (* 25-28 *)
                 end
        end
    | WebDs =>
        match is_dir loc with
        | Err e => Err e
        | Ok dir => match all_files_with_ext loc (lit "tar") with
                    | Err e => Err e
                    | Ok l => Ok ((if dir then [] else [loc]) ++ l)
                    end
        end
    | ParquetDs =>
        match is_dir loc with
        | Err e => Err e
        | Ok false => if is_valid_parquet loc then Ok [loc] else Err RuntimeError           (* 18-23 *)
        | Ok true => all_files_with_ext loc (lit "parquet")                                 (* 24-25 *)
        end
    end.

  (** [dtype_class.inform_metadata_parser(Path(p), parser)]: what the parser is handed, and the exception if one ends it;
      jsonl_dataset.py 31-35, parquet_dataset.py 27-36, web_dataset.py 25-32 *)
  Definition inform (c : dclass) (p : str) : gen (Z * pval) :=
    match c with
    | JsonlDs => match open_file (norm p) with Err e => ([], Some e) | Ok ls => jsonl_inform loads ls end
    | ParquetDs =>
        match open_bytes (norm p) with
        | Err e => ([], Some e)
        | Ok raw => match parquet_open raw with Err e => ([], Some e) | Ok gs => (parquet_inform batches gs, None) end
        end
    | WebDs =>
        match open_bytes (norm p) with
        | Err e => ([], Some e)
        | Ok raw => match tar_open raw with Err e => ([], Some e) | Ok gs => web_inform decode gs end
        end
    | _ => ([], Some NotImplementedError)
    end.
  (** [sample["sample_id"]] (mixtera_data_collection.py 339) *)
  Definition sample_number (r : record) : Z :=
    match aget str_eqb sample_id_key r with Some (PNum n) => n | _ => 0 end.
  (** mixtera_data_collection.py 23-31 process_file_for_metadata *)
  Definition metadata_of (c : dclass) (reg : list (str * parser)) (pname : str) (p : str) : res (list (Z * record)) :=
    match create_parser reg pname with
    | PErr _ => Err RuntimeError
    | POk (ps, pm) =>
        let recs := inform c p in
        match parse_all ps pm [] (fst recs) with
        | (_, Some _) => Err RuntimeError
        | (store, None) => match snd recs with
                           | Some e => Err e
                           | None => Ok (map (fun r => (sample_number r, r)) store)
                           end
        end
    end.

  (** mixtera_data_collection.py 144-202 register_dataset with the real file listing and parsers *)
  Definition register_location (castable : list str -> list mprop -> list sample -> bool) (s : db) (name loc : str)
      (c : dclass) (func : str) (reg : list (str * parser)) (pname : str) : list db * outcome :=
    register castable (metadata_of c reg pname) s name (DInfo loc (type_id c) func)
      (negb (type_id c =? 0)) (iterate_files c loc) (option_map ps_props (aget str_eqb pname reg)).
End Files.
