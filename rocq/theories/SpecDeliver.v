(** What the texts a query delivers should be (C73): the contents of the registered files. *)
From Coq Require Import String.
From Verif Require Import Base MixtureKeyModel ChunkGenModel ParserModel MdcModel ReaderModel SpecReader FilesModel SpecFiles.
Open Scope Z_scope.

Section Spec.
  Variables (root : node) (cwd : node) (cwd_anc : list node) (unpack : str -> str -> res str)
    (parquet_open : str -> res (list (list pval))) (tar_open : str -> res (list (list member)))
    (decode : list (str * str) -> res pval).
  Context {A : Type}.
  Variable parsing_func : str -> pval -> res A.

  (** Sample number [i] of the file at [p] is [v]: its i-th line, its i-th row over all row groups, or its i-th group of
      members, decoded; counted from 0. *)
  Definition payload (c : dclass) (p : str) (i : Z) (v : pval) : Prop :=
    0 <= i /\ exists raw, find root cwd cwd_anc p = Some (NFile raw) /\
    match c with
    | JsonlDs => exists text ls line, unpack p raw = Ok text /\ text_lines text ls /\ nth_error ls (Z.to_nat i) = Some line /\ v = PStr line
    | ParquetDs => exists groups, parquet_open raw = Ok groups /\ nth_error (concat groups) (Z.to_nat i) = Some v
    | WebDs => exists groups g r, tar_open raw = Ok groups /\ nth_error groups (Z.to_nat i) = Some g
                 /\ tar_sample [] [] g = Ok r /\ decode r = Ok v
    | _ => False
    end.
  (** The text of sample [i] of file [f] of dataset [d]: the dataset's parsing function applied to that sample of the
      registered file. *)
  Definition content (s : db) (x : Z * Z * Z) (t : A) : Prop :=
    let '(d, f, i) := x in
    exists name info c path v, In (d, (name, info)) (datasets s) /\ d_type info = type_id c /\ In (f, (d, path)) (files s)
      /\ payload c path i v /\ parsing_func (d_func info) v = Ok t.
  (** Every registered sample can be read: its file is still there, under an absolute path without a trailing slash,
      and the parsing function accepts it. *)
  Definition on_disk (s : db) : Prop :=
    (forall x r, In (x, r) (samples s) -> exists t, content s x t) /\
    forall f d path, In (f, (d, path)) (files s) -> absolute path /\ wants_dir path = false.
End Spec.
