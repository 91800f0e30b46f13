(** Model of mixtera/core/query/chunker/src/chunker.cpp: the index is built from the query's result table by several
    threads, merged and turned into a Python dict.

    Simplifications.  Strings are lists of characters.  Dictionary-encoded arrays and the 32/64-bit variants of string
    and list arrays (24-75, 141-302) hold the same values as plain ones and are not distinguished.  The required
    columns are present and of integer type.  Counters do not overflow.  absl::flat_hash_map iterates in an
    arbitrary order: wherever the code iterates over a map the model goes through a function [itk]/[itd]/[itf]/[itp]
    about which the theorems only assume that it permutes. *)
From Verif Require Import Base MixtureKeyModel.
Open Scope Z_scope.

(** chunker.cpp 550: the separator of values. *)
Definition comma : Z := 44.

(** A cell of a property column: NULL, a string, a list of strings (elements may be NULL), or a value of a type
    process_batch rejects (numbers, lists of numbers). *)
(** chunker.cpp 125-306. *)
Inductive vcell := VNull | VStr (s : str) | VList (l : list (option str)) | VBad.
(** One row of the table: the property cells in column order, dataset_id, file_id, interval_start, interval_end. *)
(** chunker.cpp 100-119, 313-342. *)
Record trow := TRow { tr_cells : list vcell; tr_d : Z; tr_f : Z; tr_s : Z; tr_e : Z }.

(** chunker.cpp 175-300: NULL elements of a list are left out. *)
Fixpoint non_null (l : list (option str)) : list str :=
  match l with [] => [] | Some s :: l' => s :: non_null l' | None :: l' => non_null l' end.

(** chunker.cpp 141-306: what is appended to the key for one cell; [None] = FAIL.  A NULL cell is skipped (127-129). *)
Definition cell_str (c : vcell) : option str :=
  match c with
  | VNull => Some []
  | VStr s => Some s
  | VList l => Some (join comma (non_null l))
  | VBad => None
  end.

(** chunker.cpp 120-311: the key of one row. *)
Fixpoint row_key_from (first : bool) (key : str) (cols : list str) (cells : list vcell) : option str :=
  match cols, cells with
  | col :: cols', c :: cells' =>
      match c with
      | VNull => row_key_from first key cols' cells'                                       (* 127-129 *)
      | _ =>
          let key := if first then key else key ++ [semicolon] in                           (* 131-134 *)
          match cell_str c with
          | None => None
          | Some v => row_key_from false (key ++ col ++ colon :: v) cols' cells'            (* 136 *)
          end
      end
  | _, _ => Some key
  end.
(** chunker.cpp 120-311, starting with an empty key. *)
Definition row_key (cols : list str) (r : trow) : option str := row_key_from true [] cols (tr_cells r).

(** include/chunker.hpp 53-57; chunker.cpp 313-342 std::pair. *)
Definition interval : Type := Z * Z.
(** include/chunker.hpp 53-57 *)
Definition cindex : Type := list (str * list (Z * list (Z * list interval))).
(** chunker.cpp 342, 480-495: operator[] of a hash map creates an empty entry. *)
Definition getd {K V} (eqb : K -> K -> bool) (k : K) (l : list (K * list V)) : list V :=
  match aget eqb k l with Some v => v | None => [] end.

(** chunker.cpp 342: [local_chunker_index[key][dataset_id][file_id].push_back(interval)] *)
Definition push (k : str) (d f : Z) (i : interval) (idx : cindex) : cindex :=
  let ds := getd str_eqb k idx in
  let fs := getd Z.eqb d ds in
  aset str_eqb k (aset Z.eqb d (aset Z.eqb f (getd Z.eqb f fs ++ [i]) fs) ds) idx.

(** chunker.cpp 119-343: one row. *)
Definition process_row (cols : list str) (r : trow) (idx : cindex) : option cindex :=
  match row_key cols r with
  | None => None
  | Some k => if tr_e r <? tr_s r then None                                                 (* 334-337 *)
              else Some (push k (tr_d r) (tr_f r) (tr_s r, tr_e r) idx)
  end.

(** chunker.cpp 94-349: one batch, row by row. *)
Fixpoint process_batch (cols : list str) (b : list trow) (idx : cindex) : option cindex :=
  match b with
  | [] => Some idx
  | r :: b' => match process_row cols r idx with None => None | Some idx' => process_batch cols b' idx' end
  end.

(** chunker.cpp 405-414: thread [t] gets the batches t*bpt .. min((t+1)*bpt, n)-1. *)
Definition thread_batches {A} (nt : nat) (batches : list A) (t : nat) : list A :=
  let nb := length batches in
  let bpt := ((nb + nt - 1) / nt)%nat in
  let s := (t * bpt)%nat in
  let e := Nat.min (s + bpt) nb in
  firstn (e - s) (skipn s batches).

(** chunker.cpp 410-436: the threads run concurrently; each owns its index.  A state holds for each thread the
    batches still to process and its index so far ([None] once an exception was caught in it, 425-433: the thread
    stops and the exception is remembered). *)
Definition tstate : Type := list (list (list trow) * option cindex).
(** chunker.cpp 395-412: nothing processed yet. *)
Definition threads_start (nt : nat) (batches : list (list trow)) : tstate :=
  map (fun t => (thread_batches nt batches t, Some [])) (seq 0 nt).
(** one thread processes its next batch *)
(** chunker.cpp 410-436: a thread processes the next batch of its own. *)
Inductive tstep (cols : list str) : tstate -> tstate -> Prop :=
| Tstep pre b bs idx post :
    tstep cols (pre ++ (b :: bs, Some idx) :: post)
      (pre ++ (match process_batch cols b idx with
               | Some idx' => (bs, Some idx')
               | None => ([], None)
               end) :: post).
(** chunker.cpp 410-440: any number of such steps, in any order, until join. *)
Inductive tsteps (cols : list str) : tstate -> tstate -> Prop :=
| Tdone s : tsteps cols s s
| Tmore s s' s'' : tstep cols s s' -> tsteps cols s' s'' -> tsteps cols s s''.
(** 438-441: all threads joined *)
Definition threads_done (s : tstate) : Prop := Forall (fun t => fst t = []) s.
(** 443-446: rethrow, or hand over the indices *)
Fixpoint thread_results (s : tstate) : option (list cindex) :=
  match s with
  | [] => Some []
  | (_, None) :: _ => None
  | (_, Some idx) :: s' => match thread_results s' with None => None | Some l => Some (idx :: l) end
  end.

(** std::pair's operator< *)
(** chunker.cpp 77-91: the order std::inplace_merge uses. *)
Definition iv_ltb (a b : interval) : bool := (fst a <? fst b) || ((fst a =? fst b) && (snd a <? snd b)).
(** chunker.cpp 77-91: append and std::inplace_merge, which is stable. *)
Fixpoint iv_merge (a : list interval) : list interval -> list interval :=
  match a with
  | [] => fun b => b
  | x :: a' =>
      fix inner (b : list interval) : list interval :=
        match b with
        | [] => x :: a'
        | y :: b' => if iv_ltb y x then y :: inner b' else x :: iv_merge a' b
        end
  end.

Section Iteration.
  (** iteration orders of the hash maps *)
  Variable itk : cindex -> cindex.
  Variable itd : list (Z * list (Z * list interval)) -> list (Z * list (Z * list interval)).
  Variable itf : list (Z * list interval) -> list (Z * list interval).

  (** chunker.cpp 483-491 *)
  Definition merge_files (fs tf : list (Z * list interval)) : list (Z * list interval) :=
    fold_left (fun tf e =>
      let t := getd Z.eqb (fst e) tf in
      aset Z.eqb (fst e) (match t with [] => snd e | _ => iv_merge t (snd e) end) tf) (itf fs) tf.
  (** chunker.cpp 480-495 *)
  Definition merge_datasets (ds td : list (Z * list (Z * list interval))) : list (Z * list (Z * list interval)) :=
    fold_left (fun td e => aset Z.eqb (fst e) (merge_files (snd e) (getd Z.eqb (fst e) td)) td) (itd ds) td.
  (** chunker.cpp 477-499 *)
  Definition merge_index (m local : cindex) : cindex :=
    fold_left (fun m e => aset str_eqb (fst e) (merge_datasets (snd e) (getd str_eqb (fst e) m)) m) (itk local) m.
  (** chunker.cpp 459-530: a single index is taken as it is. *)
  Definition merge_indices (l : list cindex) : cindex :=
    match l with
    | [i] => i
    | _ => fold_left merge_index l []
    end.

  (** std::getline(_, _, sep) until it fails: pieces between separators; what follows the last separator is a piece
      only if it is not empty. *)
  (** chunker.cpp 536-550. *)
  Fixpoint getlines_from (sep : Z) (cur : str) (s : str) : list str :=
    match s with
    | [] => match cur with [] => [] | _ => [cur] end
    | c :: s' => if c =? sep then cur :: getlines_from sep [] s' else getlines_from sep (cur ++ [c]) s'
    end.
  (** chunker.cpp 536-550. *)
  Definition getlines (sep : Z) (s : str) : list str := getlines_from sep [] s.
  (** std::string::find(':'), substr: [None] = npos *)
  (** chunker.cpp 538-545. *)
  Fixpoint split_colon (s : str) : option (str * str) :=
    match s with
    | [] => None
    | c :: s' => if c =? colon then Some ([], s')
                 else match split_colon s' with None => None | Some (a, b) => Some (c :: a, b) end
    end.
  (** chunker.cpp 532-556 *)
  Definition key_props (k : str) : mkey :=
    fold_left (fun props p =>
      match split_colon p with
      | None => props
      | Some (name, vs) => aset str_eqb name (getlines comma vs) props
      end) (getlines semicolon k) [].

  (** A Python dict keyed by MixtureKey.  A lookup finds a stored key with the same hash that compares equal
      (mixture_key.py 21-41; the hash is that of the canonical form, utils.py 114-147, assumed without collisions). *)
  Definition pindex : Type := list (mkey * list (Z * list (Z * list interval))).
  (** mixture_key.py 21-41, 78-81; chunker.cpp 610-620. *)
  Definition same_key (k stored : mkey) : bool := mkey_eqb (canon stored) (canon k) && key_eq stored k.
  (** chunker.cpp 558-624; the copies into py_datasets and py_files (593-607) keep every entry. *)
  Definition build_py (m : cindex) : pindex :=
    fold_left (fun p e => aset same_key (key_props (fst e)) (snd e) p) (itk m) [].
End Iteration.

(** chunker.cpp 626-646: the whole call, for one execution of the threads ending in [s]; [None] = RuntimeError. *)
Definition create_result (itk : cindex -> cindex) (itd : list (Z * list (Z * list interval)) -> list (Z * list (Z * list interval)))
    (itf : list (Z * list interval) -> list (Z * list interval)) (s : tstate) : option pindex :=
  match thread_results s with
  | None => None
  | Some l => Some (build_py itk (merge_indices itk itd itf l))
  end.
(** [num_threads]: negative fails (630-632), 0 counts as 1 (634). *)
Definition num_threads (n : Z) : option nat := if n <? 0 then None else Some (Z.to_nat (Z.max n 1)).
(** An execution of create_chunker_index(table, n) on the batches Arrow cuts the table into. *)
(** chunker.cpp 626-646. *)
Inductive creates (itk : cindex -> cindex) (itd : list (Z * list (Z * list interval)) -> list (Z * list (Z * list interval)))
    (itf : list (Z * list interval) -> list (Z * list interval)) (cols : list str) (batches : list (list trow)) (n : Z) :
    option pindex -> Prop :=
| CrBad : num_threads n = None -> creates itk itd itf cols batches n None
| CrRun nt s : num_threads n = Some nt -> tsteps cols (threads_start nt batches) s -> threads_done s ->
    creates itk itd itf cols batches n (create_result itk itd itf s).
