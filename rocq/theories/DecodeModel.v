(** Model of [decode] in mixtera/utils/webdataset_utils.py 59-103: what becomes of the members of a sample of a tar
    archive.

    Simplifications.  A member is a BytesIO of its own (wids' MMIndexedTar.get_file), so a stream is its contents and
    the position the next [read()] starts at.  gzip, int(str), json, numpy, pickle and PIL/torchvision are parameters
    (functions of the bytes, possibly raising); UTF-8 is NetModel's. *)
From Coq Require Import String.
From Verif Require Import Base MixtureKeyModel UtilsModel ChunkGenModel ParserModel FilesModel ReaderModel NetModel.
Open Scope Z_scope.

(** webdataset_utils.py 65: [key.split(".")] *)
Fixpoint split_dot (t : str) : list str :=
  match t with
  | [] => [[]]
  | c :: t' =>
      if c =? 46 then [] :: split_dot t'
      else match split_dot t' with [] => [[c]] | l :: ls => (c :: l) :: ls end
  end.
(** webdataset_utils.py 68, 75: [extensions[-1]] and [extensions[-2]] *)
Definition from_end (n : nat) (l : list str) : str := nth n (rev l) [].
(** webdataset_utils.py 69, 78-99: [extension in [...]] *)
Definition one_of (e : str) (l : list str) : bool := existsb (str_eqb e) l.
(** webdataset_utils.py 84 *)
Definition image_exts : list str := [lit "jpg"; lit "png"; lit "ppm"; lit "pgm"; lit "pbm"; lit "pnm"].

Section Decode.
  Context {J N P I : Type}.
  (** gzip.decompress, int, json.loads, np.load, pickle.load, Image.open with F.to_tensor (webdataset_utils.py 70, 83, 89, 95, 99, 102) *)
  Variable gunzip : str -> res str.
  Variable int_of : str -> res Z.
  Variable json_of : str -> res J.
  Variable npy_of : str -> res N.
  Variable pickle_of : str -> res P.
  Variable image_of : str -> res I.

  (** webdataset_utils.py 63-102: a value of a sample: a stream, the key, or what a decoder made of a stream *)
  Inductive dval :=
  | DStream (content : str) (pos : nat)
  | DKey (s : str)
  | DText (s : str) | DInt (z : Z) | DJson (j : J) | DNpy (a : N) | DPickle (p : P) | DImage (i : I).

  (** webdataset_utils.py 80 and 83: [value.decode("utf-8")] *)
  Definition utf8 (b : str) : res str := match utf8_decode b with inl s => Ok s | inr _ => Err ValueError end.
  (** webdataset_utils.py 78-102 wrapper around the parameters *)
  Definition made {A} (f : A -> dval) (r : res A) : res dval := match r with Ok a => Ok (f a) | Err e => Err e end.
  (** webdataset_utils.py 78-102: the chain of cases; [b] is what [stream.read()] returns, [unchanged] the value that
      stays in the sample if no case applies *)
  Definition by_extension (decode_image : bool) (extension b : str) (unchanged : dval) : res dval :=
    if one_of extension [lit "txt"; lit "text"] then made DText (utf8 b)                                (* 78-80 *)
    else if one_of extension [lit "cls"; lit "cls2"] then
      match utf8 b with Ok s => made DInt (int_of s) | Err e => Err e end                               (* 81-83 *)
    else if one_of extension image_exts && decode_image then made DImage (image_of b)                   (* 84-89 *)
    else if str_eqb extension (lit "json") then made DJson (json_of b)                                  (* 90-94 *)
    else if str_eqb extension (lit "npy") then made DNpy (npy_of b)                                     (* 95-98 *)
    else if one_of extension [lit "pickle"; lit "pkl"] then made DPickle (pickle_of b)                  (* 99-102 *)
    else Ok unchanged.
  (** webdataset_utils.py 64-102: one member (not "__key__") *)
  Definition decode_member (decode_image : bool) (key content : str) : res dval :=
    let extensions := split_dot key in                                                                  (* 65 *)
    let extension := from_end 0 extensions in                                                           (* 68 *)
    if one_of extension [lit "gz"] then
      match gunzip content with                                                                         (* 70 *)
      | Err e => Err e
      | Ok d =>
          if Nat.ltb (length extensions) 2 then Ok (DStream d 0)                                        (* 72-74 *)
          else if has_prefix (lit "__") key then Ok (DStream content (length content))                  (* 76-77 *)
          else by_extension decode_image (from_end 1 extensions) d (DStream content (length content))   (* 75 *)
      end
    else if has_prefix (lit "__") key then Ok (DStream content 0)
    else by_extension decode_image extension content (DStream content 0).
  (** webdataset_utils.py 59-103; the value under "__key__" is a string (149, 76-77) *)
  Fixpoint decode (decode_image : bool) (sample : list (str * str)) : res (list (str * dval)) :=
    match sample with
    | [] => Ok []
    | (key, v) :: rest =>
        match (if str_eqb key key_name then Ok (DKey v) else decode_member decode_image key v) with
        | Err e => Err e
        | Ok d => match decode decode_image rest with Err e => Err e | Ok ds => Ok ((key, d) :: ds) end
        end
    end.
End Decode.
