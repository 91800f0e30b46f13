(** Model of the way from the rows of a chunk back to the data files: the metadata a QueryResult keeps about datasets
    and files (mixtera/core/query/query_result.py 60-66, 145-157) and the reading of a workload with it
    (mixtera/core/query/result_chunk.py 350-359, 576-595; core/datacollection/datasets/*.py read_ranges_from_files).

    Simplifications.  No server connection: files are read where they were registered, from the file tree of FilesModel,
    which has not changed since.  dill.loads of a parsing function is a parameter. *)
From Coq Require Import String.
From Verif Require Import Base MixtureKeyModel UtilsModel ChunkGenModel ParserModel MdcModel ReaderModel FilesModel ChunkerModel TokenModel.
From Verif Require ResultChunkModel.
Open Scope Z_scope.

(** query_result.py 145-157: the dictionaries of _parse_meta. *)
Record qmeta := QMeta { qm_type : list (Z * dclass); qm_func : list (Z * str); qm_path : list (Z * str); qm_len : Z }.
(** A dict comprehension over a set of ids whose value may raise (query_result.py 152-154). *)
Fixpoint build {B} (get : Z -> res B) (ids : list Z) : res (list (Z * B)) :=
  match ids with
  | [] => Ok []
  | i :: ids' => match get i with
                 | Err e => Err e
                 | Ok b => match build get ids' with Err e => Err e | Ok l => Ok ((i, b) :: l) end
                 end
  end.
(** mixtera_data_collection.py 457-469, 490-502: no such row raises. *)
Definition or_raise {B} (o : option B) : res B := match o with Some b => Ok b | None => Err RuntimeError end.
(** mixtera_data_collection.py 471-488 _get_dataset_type_by_id. *)
Definition type_by_id (s : db) (did : Z) : res dclass :=
  match dataset_type s did with None => Err RuntimeError | Some t => from_type_id t end.
(** query_result.py 145-157 _parse_meta. *)
Definition parse_meta (s : db) (results : list trow) : res qmeta :=
  let dids := nodup Z.eq_dec (map tr_d results) in
  let fids := nodup Z.eq_dec (map tr_f results) in
  match build (type_by_id s) dids with
  | Err e => Err e
  | Ok types =>
      match build (fun d => or_raise (dataset_func s d)) dids with
      | Err e => Err e
      | Ok funcs =>
          match build (fun f => or_raise (file_path s f)) fids with
          | Err e => Err e
          | Ok paths => Ok (QMeta types funcs paths (Z.of_nat (length results)))
          end
      end
  end.

Section Read.
  Variables (root : node) (cwd : node) (cwd_anc : list node).
  Variable unpack : str -> str -> res str.
  Variable parquet_open : str -> res (list (list pval)).
  (** Table.to_batches of parquet_dataset.py 115 *)
  Variable to_batches : list pval -> list (list pval).
  Variable tar_open : str -> res (list (list member)).
  (** the decoder when reading: images are decoded (web_dataset.py 50) *)
  Variable decode : list (str * str) -> res pval.
  Context {A : Type}.
  (** the parsing function: dill.loads of the bytes in the catalogue (mixtera_data_collection.py 469), applied to a
      line of text (jsonl), a row or a sample *)
  Variable parsing_func : str -> pval -> res A.

  (** _read_ranges_from_file: jsonl_dataset.py 47-73, parquet_dataset.py 48-118, web_dataset.py 44-64 *)
  Definition read_one (c : dclass) (func : pval -> res A) (p : str) (rs : list range) : gen A :=
    match c with
    | JsonlDs => match open_file root cwd cwd_anc unpack p with
                 | Err e => ([], Some e)
                 | Ok ls => jsonl_read_file (fun l => func (PStr l)) ls rs
                 end
    | ParquetDs => match open_bytes root cwd cwd_anc p with
                   | Err e => ([], Some e)
                   | Ok raw => match parquet_open raw with
                               | Err e => ([], Some e)
                               | Ok groups => parquet_read_file to_batches func groups rs
                               end
                   end
    | WebDs => match open_bytes root cwd cwd_anc p with
               | Err e => ([], Some e)
               | Ok raw => match tar_open raw with
                           | Err e => ([], Some e)
                           | Ok groups => web_read_file decode func groups rs
                           end
               end
    | _ => ([], Some NotImplementedError)
    end.
  (** result_chunk.py 355-359, 586-595: one element of a workload. *)
  Definition read_workload (m : qmeta) (d f : Z) (rs : list range) : stream A :=
    match aget Z.eqb f (qm_path m) with
    | None => ([], Some KeyError)
    | Some p => match aget Z.eqb d (qm_type m), aget Z.eqb d (qm_func m) with
                | Some c, Some func => read_files (read_one c (parsing_func func)) [(p, rs)]
                | _, _ => ([], Some KeyError)
                end
    end.
End Read.

(** query_result.py 484-494, 535-544: the ResultChunk made for the rows of a chunk, with nothing skipped (result_chunk.py 88-117). *)
Definition chunk_object (c : ChunkGenModel.rchunk) : ResultChunkModel.rc :=
  ResultChunkModel.mkRC (ChunkGenModel.rc_index c) (ChunkGenModel.rc_csize c) (ChunkGenModel.rc_kid c) (ChunkGenModel.rc_mix c) 0.
