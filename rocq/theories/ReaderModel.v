(** Model of the dataset readers: mixtera/core/datacollection/datasets/{jsonl,parquet,web}_dataset.py, of
    mixtera/core/filesystem and of the server-side file access (network/connection/server_connection.py 57-88,
    network/server/server.py 104-120).

    Simplifications.  Decompression, UTF-8 and the tar format are not modelled: a jsonl file is its decoded text, a
    parquet file the list of its row groups, a tar file the list of its sample groups as wids.group_by_key made them.
    Integers are unbounded. *)
From Verif Require Import Base MixtureKeyModel UtilsModel ChunkGenModel.
Open Scope Z_scope.

(** What a generator delivers: the yielded values and the exception that ended it, if any. *)
(** Python generators as used in jsonl_dataset.py 38-73, parquet_dataset.py 39-118 and web_dataset.py 35-64. *)
Definition gen (A : Type) : Type := list A * option exn.
(** [yield from g] followed by [h] *)
(** Python generators as used in jsonl_dataset.py 38-73, parquet_dataset.py 39-118 and web_dataset.py 35-64. *)
Definition gapp {A} (g h : gen A) : gen A :=
  match snd g with Some _ => g | None => (fst g ++ fst h, snd h) end.
(** [yield from (parsing_func(x) for x in l)] *)
(** Python generators as used in jsonl_dataset.py 38-73, parquet_dataset.py 39-118 and web_dataset.py 35-64. *)
Fixpoint gmap {A B} (parse : A -> res B) (l : list A) : gen B :=
  match l with
  | [] => ([], None)
  | x :: l' => match parse x with
               | Err e => ([], Some e)
               | Ok b => let g := gmap parse l' in (b :: fst g, snd g)
               end
  end.

(** ** Text files *)
(** The code points of "\n" and "\r" (local_filesystem.py 11-17, server_connection.py 88). *)
Definition nl : Z := 10.
(** The code points of "\n" and "\r" (local_filesystem.py 11-17, server_connection.py 88). *)
Definition cr : Z := 13.
(** Python's text mode with newline=None, used by xopen(.., "r") (local_filesystem.py 16): "\r\n" and "\r" become "\n" *)
Fixpoint text_mode (raw : str) : str :=
  match raw with
  | [] => []
  | c :: raw' =>
      if c =? cr then
        match raw' with
        | c' :: raw'' => if c' =? nl then nl :: text_mode raw'' else nl :: text_mode raw'
        | [] => [nl]
        end
      else c :: text_mode raw'
  end.
(** Iterating over a text file (local_filesystem.py 17): lines keep their newline *)
Fixpoint lines (t : str) : list str :=
  match t with
  | [] => []
  | c :: t' =>
      if c =? nl then [nl] :: lines t'
      else match lines t' with [] => [[c]] | l :: ls => (c :: l) :: ls end
  end.
(** ["...".split("\n")] (server_connection.py 88) *)
Fixpoint split_nl (t : str) : list str :=
  match t with
  | [] => [[]]
  | c :: t' =>
      if c =? nl then [] :: split_nl t'
      else match split_nl t' with [] => [[c]] | l :: ls => (c :: l) :: ls end
  end.
(** local_filesystem.py 11-17 *)
Definition local_file_iterable (raw : str) : list str := lines (text_mode raw).
(** server.py 118: what the server sends *)
Definition server_read_file (raw : str) : str := concat (local_file_iterable raw).
(** server_connection.py 57-88; [None] = no connection: an empty iterable *)
Definition server_file_iterable (sent : option str) : list str :=
  match sent with None => [] | Some t => split_nl t end.

(** ** jsonl_dataset.py 47-73 *)
Fixpoint jsonl_ranges {A} (parse : str -> res A) (text_file : list str) (last_line_read last_r_start : Z)
    (range_list : list range) : gen A :=
  match range_list with
  | [] => ([], None)
  | (r_start, r_end) :: rest =>
      if r_start <? last_r_start then ([], Some RuntimeError)                              (* 57-58 *)
      else if last_line_read >? r_start then ([], Some RuntimeError)                       (* 60-61 *)
      else
        let text_file := if r_start >? last_line_read
                         then skipn (Z.to_nat (r_start - last_line_read)) text_file        (* 66-69 *)
                         else text_file in
        if r_end - r_start <? 0 then ([], Some ValueError)                                 (* islice(_, negative) *)
        else
          let n := Z.to_nat (r_end - r_start) in
          gapp (gmap parse (firstn n text_file))                                           (* 72 *)
               (jsonl_ranges parse (skipn n text_file) r_end r_start rest)                 (* 63, 73 *)
  end.
(** jsonl_dataset.py 47-73 _read_ranges_from_file. *)
Definition jsonl_read_file {A} (parse : str -> res A) (text_file : list str) (rs : list range) : gen A :=
  jsonl_ranges parse text_file 0 (-1) rs.

(** jsonl_dataset.py 31-35: [json.loads] is a parameter; every parsed line is handed to the parser with its number *)
Definition jsonl_inform {A} (loads : str -> res A) (text_file : list str) : gen (Z * A) :=
  gmap (fun il => match loads (snd il) with Ok v => Ok (fst il, v) | Err e => Err e end)
       (combine (map Z.of_nat (seq 0 (length text_file))) text_file).

(** ** parquet_dataset.py *)
(** parquet_dataset.py 60-66: (first row, one past the last row) of each row group *)
Fixpoint row_group_offsets {R} (current_row : Z) (groups : list (list R)) : list (Z * Z) :=
  match groups with
  | [] => []
  | g :: gs => let n := Z.of_nat (length g) in
               (current_row, current_row + n) :: row_group_offsets (current_row + n) gs
  end.
(** parquet_dataset.py 96-98: [row_group_ranges[rg_idx].append(..)] *)
Definition add_overlap (rg : Z) (r : range) (m : list (Z * list range)) : list (Z * list range) :=
  aset Z.eqb rg (match aget Z.eqb rg m with Some l => l | None => [] end ++ [r]) m.
(** parquet_dataset.py 71-106: the two-pointer loop; the suffixes of the two lists stand for [range_idx] and [rg_idx] *)
Fixpoint map_ranges (range_list : list range) :
    list (Z * (Z * Z)) -> list (Z * list range) -> list (Z * list range) :=
  fix inner (rgs : list (Z * (Z * Z))) (m : list (Z * list range)) : list (Z * list range) :=
    match range_list, rgs with
    | (start_row, end_row) :: rest, (rg_idx, (rg_start, rg_end)) :: rgs' =>
        if end_row <=? rg_start then map_ranges rest rgs m                                  (* 81-83 *)
        else if start_row >=? rg_end then inner rgs' m                                      (* 84-86 *)
        else
          let m := add_overlap rg_idx (Z.max start_row rg_start - rg_start,
                                       Z.min end_row rg_end - rg_start) m in                (* 88-98 *)
          if end_row <=? rg_end then map_ranges rest rgs m                                  (* 101-103 *)
          else inner rgs' m                                                                 (* 104-106 *)
    | _, _ => m
    end.
(** parquet_dataset.py 113: pyarrow's [table.slice(start, length)] *)
Definition slice {R} (start len : Z) (table : list R) : list R :=
  firstn (Z.to_nat len) (skipn (Z.to_nat start) table).
(** parquet_dataset.py 110: read_row_group. *)
Definition row_group {R} (groups : list (list R)) (i : Z) : list R := nth (Z.to_nat i) groups [].

Section Parquet.
  Context {R A : Type}.
  (** [to_batches(max_chunksize=32000)] and [iter_batches()]: how pyarrow cuts a table into record batches *)
  Variable batches : list R -> list (list R).
  (** parquet_dataset.py 108-118: the rows that are handed to the parsing function *)
  Definition parquet_rows (groups : list (list R)) (m : list (Z * list range)) : list R :=
    flat_map (fun e => flat_map (fun r => concat (batches (slice (fst r) (snd r - fst r) (row_group groups (fst e)))))
                                (snd e)) m.
  (** parquet_dataset.py 60-106: which rows of which row group. *)
  Definition parquet_map (groups : list (list R)) (rs : list range) : list (Z * list range) :=
    map_ranges rs (combine (map Z.of_nat (seq 0 (length groups))) (row_group_offsets 0 groups)) [].
  (** parquet_dataset.py 48-118 _read_ranges_from_file. *)
  Definition parquet_read_file (parse : R -> res A) (groups : list (list R)) (rs : list range) : gen A :=
    gmap parse (parquet_rows groups (parquet_map groups rs)).
  (** parquet_dataset.py 28-36: a running row number over all batches of the file *)
  Fixpoint parquet_inform_from (row_id : Z) (bs : list (list R)) : list (Z * R) :=
    match bs with
    | [] => []
    | b :: bs' => combine (map (fun k => row_id + Z.of_nat k) (seq 0 (length b))) b
                  ++ parquet_inform_from (row_id + Z.of_nat (length b)) bs'
    end.
  (** parquet_dataset.py 28-36 inform_metadata_parser. *)
  Definition parquet_inform (groups : list (list R)) : list (Z * R) :=
    parquet_inform_from 0 (batches (concat groups)).
End Parquet.

(** ** web_dataset.py, utils/webdataset_utils.py *)
(** webdataset_utils.py 144-145: one member of a sample group: splitname's (key, ext) and the contents. *)
Definition member : Type := (str * str) * str.
(** webdataset_utils.py 149: the key "__key__". *)
Definition key_name : str := [95; 95; 107; 101; 121; 95; 95].   (* "__key__" *)
(** webdataset_utils.py 141-149: ext -> contents and the key; [key = key or k] *)
Fixpoint tar_sample (key : str) (acc : list (str * str)) (g : list member) : res (list (str * str)) :=
  match g with
  | [] => Ok (aset str_eqb key_name key acc)                                                (* 149 *)
  | ((k, ext), data) :: g' =>
      let key := match key with [] => k | _ => key end in                                   (* 146 *)
      if str_eqb key k then tar_sample key (aset str_eqb ext data acc) g'                   (* 147-148 *)
      else Err AssertionError
  end.
Section Web.
  Context {S A : Type}.
  (** the decoder (webdataset_utils.py 59-103) *)
  Variable decode : list (str * str) -> res S.
  (** webdataset_utils.py 138-151.  A negative index counts from the end, as Python lists do. *)
  Definition tar_getitem (groups : list (list member)) (i : Z) : res S :=
    let i := if i <? 0 then i + Z.of_nat (length groups) else i in
    if i <? 0 then Err IndexError
    else match nth_error groups (Z.to_nat i) with
         | None => Err IndexError
         | Some g => match tar_sample [] [] g with Ok s => decode s | Err e => Err e end
         end.
  (** web_dataset.py 44-64 *)
  Fixpoint web_ranges (parse : S -> res A) (groups : list (list member)) (last_line_read last_r_start : Z)
      (range_list : list range) : gen A :=
    match range_list with
    | [] => ([], None)
    | (r_start, r_end) :: rest =>
        if r_start <? last_r_start then ([], Some RuntimeError)                            (* 54-55 *)
        else if last_line_read >? r_start then ([], Some RuntimeError)                     (* 57-58 *)
        else gapp (gmap (fun line => match tar_getitem groups line with Ok s => parse s | Err e => Err e end)
                        (zrange r_start r_end))                                            (* 62 *)
                  (web_ranges parse groups r_end r_start rest)
    end.
  (** web_dataset.py 44-64 _read_ranges_from_file. *)
  Definition web_read_file (parse : S -> res A) (groups : list (list member)) (rs : list range) : gen A :=
    web_ranges parse groups 0 (-1) rs.
  (** web_dataset.py 26-32, webdataset_utils.py 153-155 *)
  Definition web_inform (groups : list (list member)) : gen (Z * S) :=
    gmap (fun i => match tar_getitem groups i with Ok s => Ok (i, s) | Err e => Err e end)
         (zrange 0 (Z.of_nat (length groups))).
End Web.

(** ** read_ranges_from_files: jsonl 38-45, parquet 39-46, web 35-42.  One file after the other. *)
Fixpoint read_files {F A} (read_file : F -> list range -> gen A) (ranges_per_file : list (F * list range)) : gen A :=
  match ranges_per_file with
  | [] => ([], None)
  | (f, rs) :: rest => gapp (read_file f rs) (read_files read_file rest)
  end.
