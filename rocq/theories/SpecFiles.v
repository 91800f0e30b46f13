(** What registering a location should mean. *)
From Coq Require Import String.
From Verif Require Import Base MixtureKeyModel ChunkGenModel ParserModel MdcModel ReaderModel SpecReader FilesModel.
Open Scope Z_scope.

(** The names of data files, by dataset class. *)
Definition data_name (c : dclass) (n : str) : Prop :=
  exists stem ext, n = stem ++ ext /\
    In ext (match c with
            | JsonlDs => [lit ".jsonl"; lit ".jsonl.gz"; lit ".jsonl.zst"; lit ".jsonl.xz"; lit ".jsonl.bz2"; lit ".jsonl.z"]
            | WebDs => [lit ".tar"]
            | ParquetDs => [lit ".parquet"]
            | _ => []
            end).
(** A directory as an operating system has it: distinct names, none of them empty, "." or "..", none with a slash. *)
Definition good_name (n : str) : Prop := n <> [] /\ n <> lit "." /\ n <> lit ".." /\ ~ In slash n.
Definition good_dir (es : list (str * node)) : Prop := NoDup (map fst es) /\ Forall good_name (map fst es).
Definition absolute (p : str) : Prop := exists q, p = slash :: q.

Section Spec.
  Variables (root cwd : node) (cwd_anc : list node) (unpack : str -> str -> res str) (loads : str -> res pval)
    (parquet_open : str -> res (list (list pval))) (tar_open : str -> res (list (list member)))
    (decode : list (str * str) -> res pval).
  (** [paths] are the data files of a location, each once: the entries of the directory that have a data file's name,
      each under a path that leads to it; or the single file. *)
  Definition data_files (c : dclass) (loc : str) (paths : list str) : Prop :=
    NoDup paths /\
    match find root cwd cwd_anc loc with
    | Some (NDir es) =>
        exists names, NoDup names /\ (forall n, In n names <-> In n (map fst es) /\ data_name c n) /\
          Forall2 (fun n path => exists x, In (n, x) es /\ find root cwd cwd_anc path = Some x) names paths
    | Some (NFile _) => paths = [loc]
    | None => False
    end.
  (** The file at [p] holds the samples [vals], in this order: a sample per line, per row of the row groups, or per
      group of members. *)
  Definition file_samples (c : dclass) (p : str) (vals : list pval) : Prop :=
    exists raw, find root cwd cwd_anc p = Some (NFile raw) /\
    match c with
    | JsonlDs => exists text ls, unpack (norm p) raw = Ok text /\ text_lines text ls /\ map loads ls = map Ok vals
    | ParquetDs => exists groups, parquet_open raw = Ok groups /\ concat groups = vals
    | WebDs => exists groups, tar_open raw = Ok groups /\
                 map (fun g => match tar_sample [] [] g with Ok r => decode r | Err e => Err e end) groups = map Ok vals
    | _ => False
    end.
End Spec.

(** [row] is the catalogue's row of sample number [i] with payload [v] in file [f] of dataset [d]: it has the value the
    parser found for every property of its schema. *)
Definition indexed (p : parser) (pm : list (str * mprop)) (d f : Z) (iv : Z * pval) (row : sample) : Prop :=
  fst row = (d, f, fst iv) /\
  exists r, parse_one p pm [] (fst iv) (snd iv) = ([r], None) /\
    map fst (snd row) = map p_name (ps_props p) /\
    forall q, In q (ps_props p) -> exists v, aget str_eqb (p_name q) r = Some v /\ aget str_eqb (p_name q) (snd row) = Some v.
