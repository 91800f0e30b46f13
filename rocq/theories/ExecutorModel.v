(** Model of mixtera/core/processing/property_calculation/local_executor.py.

    Simplifications.  Files are their text, opened in Python's text mode ([lines], [text_mode]); what is kept of a line is a
    parameter, instantiated with [seen]; numpy arrays are lists; the calculation function is an arbitrary function of the batch (it may raise). *)
From Verif Require Import Base MixtureKeyModel ChunkGenModel ReaderModel.
Open Scope Z_scope.

(** One loaded line: (data, (file_id, (dataset_id, line_id))); a batch is a list of lines, i.e. the four arrays of
    _create_batch (109-119) side by side. *)
Definition lrow : Type := str * (Z * (Z * Z)).
(** local_executor.py 107-115: one batch of samples with their ids. *)
Definition batch : Type := list lrow.
(** The dataset type and the path of a file: [None] = not a JSONLDataset, [Some None] = the file does not exist. *)
(** local_executor.py 90-105: reading a file: raises, or its text if it is jsonl. *)
Definition source : Type := option (option str).
(** local_executor.py 41: an element of [files] (mixtera_data_collection.py 443-455). *)
Definition ifile : Type := (Z * Z) * source.   (* (file_id, dataset_id), source *)

(** local_executor.py 106: the characters str.rstrip() removes (str.isspace). *)
Definition py_space (c : Z) : bool :=
  ((9 <=? c) && (c <=? 13)) || ((28 <=? c) && (c <=? 32)) || (c =? 133) || (c =? 160) || (c =? 5760)
  || ((8192 <=? c) && (c <=? 8202)) || (c =? 8232) || (c =? 8233) || (c =? 8239) || (c =? 8287) || (c =? 12288).
(** local_executor.py 106, 113: dropping characters at the end of a string. *)
Fixpoint drop_head (f : Z -> bool) (s : str) : str := match s with c :: s' => if f c then drop_head f s' else s | [] => [] end.
(** local_executor.py 106, 113: dropping characters at the end of a string. *)
Definition drop_end (f : Z -> bool) (s : str) : str := rev (drop_head f (rev s)).
(** local_executor.py 106: line.rstrip(). *)
Definition py_rstrip (s : str) : str := drop_end py_space s.
(** local_executor.py 113: an element of np.array(data), a fixed-width unicode array, read back: NUL characters at the end
    are padding. *)
Definition np_str (s : str) : str := drop_end (Z.eqb 0) s.
(** local_executor.py 106, 113: what the calculation function sees of a line. *)
Definition seen (line : str) : str := np_str (py_rstrip line).

Section Executor.
  Variable rstrip : str -> str.
  (** 91-107 *)
  Definition read_samples (src : source) : res (list (Z * str)) :=
    match src with
    | None => Err NotImplementedError                                                       (* 95 *)
    | Some None => Err RuntimeError                                                         (* 101-102 *)
    | Some (Some raw) =>
        let ls := lines (text_mode raw) in
        Ok (map (fun il => (fst il, rstrip (snd il))) (combine (map Z.of_nat (seq 0 (length ls))) ls))   (* 104-106 *)
    end.
  (** 43-56: the inner loop; state = (batches, rows collected so far), [count] is the number of collected rows *)
  Fixpoint load_lines (batch_size : Z) (f d : Z) (ls : list (Z * str)) (bs : list batch) (cur : batch)
      : list batch * batch :=
    match ls with
    | [] => (bs, cur)
    | (i, line) :: ls' =>
        let cur := cur ++ [(line, (f, (d, i)))] in                                          (* 44-48 *)
        if Z.of_nat (length cur) =? batch_size
        then load_lines batch_size f d ls' (bs ++ [cur]) []                                 (* 49-56 *)
        else load_lines batch_size f d ls' bs cur
    end.
  (** 42: over the files; an exception keeps the batches made so far *)
  Fixpoint load_files (batch_size : Z) (files : list ifile) (bs : list batch) (cur : batch)
      : list batch * res batch :=
    match files with
    | [] => (bs, Ok cur)
    | ((f, d), src) :: files' =>
        match read_samples src with
        | Err e => (bs, Err e)
        | Ok ls => let (bs, cur) := load_lines batch_size f d ls bs cur in load_files batch_size files' bs cur
        end
    end.
  (** 33-59: load_data; [self._batches] is appended to *)
  Definition load_data (batch_size : Z) (files : list ifile) (bs : list batch) : list batch * option exn :=
    match load_files batch_size files bs [] with
    | (bs, Err e) => (bs, Some e)
    | (bs, Ok cur) => ((match cur with [] => bs | _ => bs ++ [cur] end), None)              (* 58-59 *)
    end.
End Executor.

Section Run.
  (** A prediction; [ok] = it is a str, int, float or list (77-78) *)
  Context {P : Type} (ok : P -> bool) (calc : batch -> res (list P)).
  (** 70-88: the results of one batch *)
  Fixpoint run_rows (preds : list P) (b : batch) : res (list (P * (Z * (Z * Z)))) :=
    match preds, b with
    | p :: preds', (_, ids) :: b' =>
        if ok p then match run_rows preds' b' with Ok r => Ok ((p, ids) :: r) | Err e => Err e end
        else Err NotImplementedError
    | _, _ => Ok []
    end.
  (** 61-89 *)
  Fixpoint run (bs : list batch) : res (list (P * (Z * (Z * Z)))) :=
    match bs with
    | [] => Ok []
    | b :: bs' =>
        match calc b with
        | Err e => Err e
        | Ok preds =>
            if negb (Nat.eqb (length preds) (length b)) then Err RuntimeError               (* 67-72 *)
            else match run_rows preds b with
                 | Err e => Err e
                 | Ok r => match run bs' with Ok rs => Ok (r ++ rs) | Err e => Err e end
                 end
        end
    end.
End Run.
