(** Model of mixtera/utils/utils.py 308-438: saving a chunker index to a directory and loading it again.

    Simplifications.  The directory is a map from relative paths to contents; pickle.dump/load and np.save/np.load
    return what was stored.  An interval list is a list of pairs (numpy returns lists instead of tuples).  A pool's
    imap_unordered runs every task once; the order in which tasks write, in which a directory lists its entries and
    in which results arrive is any permutation. *)
From Coq Require Import Decimal DecimalZ.
From Verif Require Import Base MixtureKeyModel ChunkerModel IntervalModel.
Open Scope Z_scope.

(** ** Names *)
(** utils.py 311, 314: the digits of f"{n}". *)
Fixpoint uint_str (d : uint) : str :=
  match d with
  | Nil => [] | D0 d => 48 :: uint_str d | D1 d => 49 :: uint_str d | D2 d => 50 :: uint_str d | D3 d => 51 :: uint_str d
  | D4 d => 52 :: uint_str d | D5 d => 53 :: uint_str d | D6 d => 54 :: uint_str d | D7 d => 55 :: uint_str d
  | D8 d => 56 :: uint_str d | D9 d => 57 :: uint_str d
  end.
(** The code points of "-" and "_" (utils.py 311, 314, 392, 394). *)
Definition minus : Z := 45.
(** The code points of "-" and "_" (utils.py 311, 314, 392, 394). *)
Definition underscore : Z := 95.
(** utils.py 311, 314, 332, 379: Python's f"{n}" *)
(** utils.py 311, 314, 332, 379: f"{n}". *)
Definition int_str (n : Z) : str := match Z.to_int n with Pos d => uint_str d | Neg d => minus :: uint_str d end.
(** utils.py 392, 394: the digits of int(s). *)
Fixpoint str_uint (s : str) : option uint :=
  match s with
  | [] => Some Nil
  | c :: s' =>
      match str_uint s' with
      | None => None
      | Some d =>
          if c =? 48 then Some (D0 d) else if c =? 49 then Some (D1 d) else if c =? 50 then Some (D2 d)
          else if c =? 51 then Some (D3 d) else if c =? 52 then Some (D4 d) else if c =? 53 then Some (D5 d)
          else if c =? 54 then Some (D6 d) else if c =? 55 then Some (D7 d) else if c =? 56 then Some (D8 d)
          else if c =? 57 then Some (D9 d) else None
      end
  end.
(** utils.py 392, 394: Python's int(s); [None] = ValueError (blanks and underscores, which int also accepts, do not occur) *)
(** utils.py 392, 394: int(s). *)
Definition str_int (s : str) : option Z :=
  match s with
  | [] => None
  | c :: s' => if c =? minus then match s' with [] => None | _ => option_map (fun d => Z.of_int (Neg d)) (str_uint s') end
               else option_map (fun d => Z.of_int (Pos d)) (str_uint s)
  end.
(** utils.py 392, 394: str.split("_") *)
(** utils.py 392, 394: split("_"); [cur] is the part being read. *)
Fixpoint split_us (cur s : str) : list str :=
  match s with
  | [] => [cur]
  | c :: s' => if c =? underscore then cur :: split_us [] s' else split_us (cur ++ [c]) s'
  end.
(** utils.py 311, 314, 326, 332, 335: the names. *)
Definition dataset_pre : str := [100; 97; 116; 97; 115; 101; 116; 95].            (* "dataset_" *)
Definition file_pre : str := [102; 105; 108; 101; 95].                            (* "file_" *)
Definition npy : str := [46; 110; 112; 121].                                      (* ".npy" *)
Definition key_pre : str := [109; 105; 120; 116; 117; 114; 101; 95; 107; 101; 121; 95].  (* "mixture_key_" *)
Definition key_pkl : str := [109; 105; 120; 116; 117; 114; 101; 95; 107; 101; 121; 46; 112; 107; 108].  (* "mixture_key.pkl" *)
Definition order_pkl : str :=
  [109; 105; 120; 116; 117; 114; 101; 95; 107; 101; 121; 115; 95; 111; 114; 100; 101; 114; 46; 112; 107; 108].
(** utils.py 390, 393. *)
Definition starts_with (p s : str) : bool := str_eqb (firstn (length p) s) p.
(** utils.py 393. *)
Definition ends_with (p s : str) : bool := str_eqb (skipn (length s - length p) s) p.
(** utils.py 394: Path.stem of a name ending in ".npy" *)
(** utils.py 394. *)
Definition stem (s : str) : str := firstn (length s - length npy) s.

Definition kdir (i : nat) : str := key_pre ++ int_str (Z.of_nat i).                (* utils.py 332, 379 *)
Definition ddir (d : Z) : str := dataset_pre ++ int_str d.                         (* utils.py 311 *)
Definition fname (f : Z) : str := file_pre ++ int_str f ++ npy.                    (* utils.py 314 *)

(** ** The directory *)
(** utils.py 315, 327, 336: the contents of the files.  [CTorn] is a file a crash left half-written: pickle.load and np.load raise on it. *)
(** utils.py 315, 327, 336: a file of the directory. *)
Inductive content := CKeys (l : list mkey) | CKey (k : mkey) | CArr (l : list interval) | CTorn.
(** utils.py 322-332: a directory tree as a map from paths (relative to it) to files. *)
Definition path := list str.
(** utils.py 322-332: a directory tree as a map from paths (relative to it) to files. *)
Definition path_eqb : path -> path -> bool := list_eqb str_eqb.
(** utils.py 322-332: a directory tree as a map from paths (relative to it) to files. *)
Definition dir := list (path * content).

(** ** Saving *)
(** utils.py 341: (mixture key number, dataset, file, intervals). *)
Definition task : Type := nat * Z * Z * list interval.
(** utils.py 309-315 *)
Definition serialize_file (fs : dir) (t : task) : dir :=
  match t with (i, d, f, iv) => aset path_eqb [kdir i; ddir d; fname f] (CArr iv) fs end.
(** utils.py 331, 388. *)
Definition enumerate {A} (l : list A) : list (nat * A) := combine (seq 0 (length l)) l.
(** utils.py 325-337: the pickles *)
Definition save_keys (idx : pindex) : dir :=
  fold_left (fun fs e => aset path_eqb [kdir (fst e); key_pkl] (CKey (snd e)) fs) (enumerate (akeys idx))
    [([order_pkl], CKeys (akeys idx))].
(** utils.py 330-343: the tasks; [chunker_index[mixture_key]] is a dict lookup *)
Definition save_tasks (idx : pindex) : list task :=
  flat_map (fun e => flat_map (fun df => map (fun fi => (fst e, fst df, fst fi, snd fi)) (snd df)) (getd same_key (snd e) idx))
    (enumerate (akeys idx)).
(** utils.py 318-360: the directory must not exist yet ([mkdir(exist_ok=False)], 323), else FileExistsError. *)
Inductive saved (idx : pindex) : option dir -> option dir -> Prop :=
| SavedNew order : Permutation order (save_tasks idx) -> saved idx None (Some (fold_left serialize_file order (save_keys idx)))
| SavedExists fs : saved idx (Some fs) None.

(** The directory after a crash during utils.py 318-360: the pickles are written one after the other; then the pool
    writes the arrays, any of which may be whole, half-written or not there yet. *)
Definition tear_file (fs : dir) (t : task) : dir :=
  match t with (i, d, f, _) => aset path_eqb [kdir i; ddir d; fname f] CTorn fs end.
(** utils.py 325-360, interrupted anywhere. *)
Inductive crashed_save (idx : pindex) : dir -> Prop :=
| CrashKeys n : (n < length (save_keys idx))%nat -> crashed_save idx (firstn n (save_keys idx))
| CrashTornKey n p c : nth_error (save_keys idx) n = Some (p, c) -> crashed_save idx (firstn n (save_keys idx) ++ [(p, CTorn)])
| CrashFiles written torn rest : Permutation (written ++ torn ++ rest) (save_tasks idx) ->
    crashed_save idx (fold_left tear_file torn (fold_left serialize_file written (save_keys idx))).

(** ** Loading *)
(** subdirectories of [p] (utils.py 390: iterdir, is_dir) *)
Definition subdirs (fs : dir) (p : path) : list str :=
  dedup str_eqb (flat_map (fun e => if path_eqb (firstn (length p) (fst e)) p
                                    then match skipn (length p) (fst e) with a :: _ :: _ => [a] | _ => [] end else []) fs).
(** utils.py 393: glob: files in [p] *)
(** utils.py 393. *)
Definition files_in (fs : dir) (p : path) : list (str * content) :=
  flat_map (fun e => if path_eqb (firstn (length p) (fst e)) p
                     then match skipn (length p) (fst e) with [a] => [(a, snd e)] | _ => [] end else []) fs.
(** utils.py 388-396 (the loops); [None] = an exception *)
(** utils.py 378-396: a loop in which every round may raise. *)
Fixpoint collect {A B} (g : A -> option B) (l : list A) : option (list B) :=
  match l with
  | [] => Some []
  | x :: l' => match g x with
               | None => None
               | Some y => match collect g l' with None => None | Some m => Some (y :: m) end
               end
  end.
(** utils.py 392, 394: [int(name.split("_")[1])]. *)
Definition second_part (s : str) : option Z := match nth_error (split_us [] s) 1 with None => None | Some x => str_int x end.
(** utils.py 393-396 and deserialize_file 363-367 *)
Definition load_file (i : nat) (d : Z) (e : str * content) : option task :=
  match second_part (stem (fst e)), snd e with
  | Some f, CArr iv => Some (i, d, f, iv)
  | _, _ => None
  end.
(** utils.py 391-396 *)
Definition load_dataset (fs : dir) (i : nat) (name : str) : option (list task) :=
  match second_part name with
  | None => None
  | Some d => collect (load_file i d) (filter (fun e => starts_with file_pre (fst e) && ends_with npy (fst e)) (files_in fs [kdir i; name]))
  end.
(** utils.py 388-396 *)
Definition load_tasks (fs : dir) (n : nat) : option (list task) :=
  option_map (@concat task) (collect (fun i => option_map (@concat task) (collect (load_dataset fs i) (filter (starts_with dataset_pre) (subdirs fs [kdir i])))) (seq 0 n)).
(** utils.py 378-383. *)
Definition load_key (fs : dir) (i : nat) : option mkey :=
  match aget path_eqb [kdir i; key_pkl] fs with Some (CKey k) => Some k | _ => None end.

(** utils.py 426: the dict at index mixture_key_idx. *)
Fixpoint upd_nth {A} (n : nat) (g : A -> A) (l : list A) : list A :=
  match l, n with
  | [], _ => []
  | x :: l', O => g x :: l'
  | x :: l', S n' => x :: upd_nth n' g l'
  end.
(** utils.py 424-432: one loaded file *)
Definition merge_result (keys : list mkey) (per : list pindex) (t : task) : list pindex :=
  match t with
  | (i, d, f, iv) =>
      upd_nth i (fun kd =>
        let k := nth i keys [] in
        let kd := if amem same_key k kd then kd else kd ++ [(k, [])] in                  (* 427-428 *)
        let ds := getd same_key k kd in
        let ds := if amem Z.eqb d ds then ds else ds ++ [(d, [])] in                     (* 430-431 *)
        aset same_key k (aset Z.eqb d (aset Z.eqb f iv (getd Z.eqb d ds)) ds) kd) per    (* 432 *)
  end.
(** utils.py 435-436: chunker_index.update for each key's dict *)
Definition combine_keys (per : list pindex) : pindex :=
  fold_left (fun acc kd => fold_left (fun acc e => aset same_key (fst e) (snd e) acc) kd acc) per [].
(** utils.py 370-417: the keys and the loaded files, in some order; [None] = an exception *)
Definition load_plan (fs : dir) : option (list mkey * list task) :=
  match aget path_eqb [order_pkl] fs with                                               (* 372-373 *)
  | Some (CKeys order) =>
      match collect (load_key fs) (seq 0 (length order)), load_tasks fs (length order) with
      | Some keys, Some tasks => Some (keys, tasks)
      | _, _ => None
      end
  | _ => None
  end.
(** utils.py 370-438 *)
Inductive loaded (fs : dir) : option pindex -> Prop :=
| LoadedOk keys tasks results :
    load_plan fs = Some (keys, tasks) ->
    Permutation results tasks ->                                                        (* 410-417 *)
    loaded fs (Some (combine_keys (fold_left (merge_result keys) results (map (fun _ => []) keys))))
| LoadedErr : load_plan fs = None -> loaded fs None.
