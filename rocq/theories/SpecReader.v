(** What reading row ranges should mean, independently of the readers. *)
From Verif Require Import Base MixtureKeyModel UtilsModel ChunkGenModel ReaderModel.
Open Scope Z_scope.

(** The lines of a text: a line ends with LF, CR LF or CR, or is the non-empty rest after the last line end; each line but
    that one is read with one LF at its end. *)
Definition in_line (l : str) : Prop := ~ In 10 l /\ ~ In 13 l.
Inductive text_lines : str -> list str -> Prop :=
| tl_end : text_lines [] []
| tl_rest l : l <> [] -> in_line l -> text_lines l [l]
| tl_lf l t ls : in_line l -> text_lines t ls -> text_lines (l ++ 10 :: t) ((l ++ [10]) :: ls)
| tl_crlf l t ls : in_line l -> text_lines t ls -> text_lines (l ++ 13 :: 10 :: t) ((l ++ [10]) :: ls)
| tl_cr l t ls : in_line l -> hd 0 t <> 10 -> text_lines t ls -> text_lines (l ++ 13 :: t) ((l ++ [10]) :: ls).

(** The rows of a file with their row numbers, counted from 0. *)
Definition numbered {R} (rows : list R) : list (Z * R) :=
  combine (map Z.of_nat (seq 0 (length rows))) rows.
(** The rows of a file whose number lies in [start, end), in file order. *)
Definition rows_in {R} (rows : list R) (r : range) : list R :=
  map snd (filter (fun ix => (fst r <=? fst ix) && (fst ix <? snd r)) (numbered rows)).
(** The rows a list of ranges asks for, in range order. *)
Definition requested {R} (rows : list R) (rs : list range) : list R := flat_map (rows_in rows) rs.

(** Ranges that are well-formed, sorted and do not overlap. *)
Definition tidy (rs : list range) : Prop :=
  Forall (fun r => 0 <= fst r <= snd r) rs /\ StronglySorted (fun a b => snd a <= fst b) rs.

(** [g] delivers the parsed rows in order, and ends at the first row the parsing function rejects. *)
Definition delivers {R A} (parse : R -> res A) (rows : list R) (g : gen A) : Prop :=
  (exists vals, map parse rows = map Ok vals /\ g = (vals, None)) \/
  (exists vals e rest, map parse rows = map Ok vals ++ Err e :: rest /\ g = (vals, Some e)).

(** A webdataset sample: its key and its members (extension, contents); how it lies in the tar file; and the record
    made of it. *)
Definition wsample : Type := str * list (str * str).
Definition in_tar (s : wsample) : list member := map (fun m => ((fst s, fst m), snd m)) (snd s).
Definition record_of (s : wsample) : list (str * str) := snd s ++ [(key_name, fst s)].
Definition good_wsample (s : wsample) : Prop :=
  fst s <> [] /\ snd s <> [] /\ NoDup (map fst (snd s)) /\ ~ In key_name (map fst (snd s)).
