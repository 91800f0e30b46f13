(** Specification vocabulary for decoded samples of tar archives (C80). *)
From Coq Require Import String.
From Verif Require Import Base MixtureKeyModel UtilsModel ChunkGenModel ParserModel FilesModel ReaderModel NetModel DecodeModel.
Open Scope Z_scope.

Section Spec.
  Context {J N P I : Type}.
  Variable gunzip : str -> res str.
  Variable int_of : str -> res Z.
  Variable json_of : str -> res J.
  Variable npy_of : str -> res N.
  Variable pickle_of : str -> res P.
  Variable image_of : str -> res I.

  (** What a user gets out of a value: the bytes [read()] returns for a stream, the object otherwise. *)
  Inductive seen := Bytes (b : str) | Key (s : str) | Text (s : str) | Int (z : Z) | Json (j : J) | Npy (a : N) | Pickle (p : P) | Image (i : I).
  Definition see (d : @dval J N P I) : seen :=
    match d with
    | DStream c p => Bytes (skipn p c)
    | DKey s => Key s | DText s => Text s | DInt z => Int z | DJson j => Json j | DNpy a => Npy a | DPickle p => Pickle p | DImage i => Image i
    end.

  Inductive kind := KText | KClass | KImage | KJson | KNpy | KPickle | KOther.
  (** What the name [stem.e] says about the contents. *)
  Inductive says (images : bool) : str -> kind -> Prop :=
  | say_text e : In e [lit "txt"; lit "text"] -> says images e KText
  | say_class e : In e [lit "cls"; lit "cls2"] -> says images e KClass
  | say_image e : images = true -> In e [lit "jpg"; lit "png"; lit "ppm"; lit "pgm"; lit "pbm"; lit "pnm"] -> says images e KImage
  | say_json : says images (lit "json") KJson
  | say_npy : says images (lit "npy") KNpy
  | say_pickle e : In e [lit "pickle"; lit "pkl"] -> says images e KPickle
  | say_other e : ~ In e [lit "txt"; lit "text"; lit "cls"; lit "cls2"; lit "json"; lit "npy"; lit "pickle"; lit "pkl"] ->
      (images = true -> ~ In e [lit "jpg"; lit "png"; lit "ppm"; lit "pgm"; lit "pbm"; lit "pnm"]) -> says images e KOther.

  Definition rmap {A B} (f : A -> B) (r : res A) : res B := match r with Ok a => Ok (f a) | Err e => Err e end.
  Definition text_of (b : str) : res str := match utf8_decode b with inl s => Ok s | inr _ => Err ValueError end.
  (** The contents read as the kind says. *)
  Definition content_as (k : kind) (b : str) : res seen :=
    match k with
    | KText => rmap Text (text_of b)
    | KClass => match text_of b with Ok s => rmap Int (int_of s) | Err e => Err e end
    | KImage => rmap Image (image_of b)
    | KJson => rmap Json (json_of b)
    | KNpy => rmap Npy (npy_of b)
    | KPickle => rmap Pickle (pickle_of b)
    | KOther => Ok (Bytes b)
    end.

  (** [e] has no dot. *)
  Definition plain (e : str) : Prop := ~ In 46 e.
  (** What a member named [name] (extension part, with its leading dot) with the given contents should be: names end in
      [.e], or in [.e.gz] when compressed. *)
  Inductive should (images : bool) (name content : str) : res seen -> Prop :=
  | sh_plain stem e k : name = stem ++ [46] ++ e -> plain e -> e <> lit "gz" -> says images e k ->
      should images name content (content_as k content)
  | sh_gz stem e k d : name = stem ++ [46] ++ e ++ [46] ++ lit "gz" -> plain e -> says images e k -> gunzip content = Ok d ->
      should images name content (content_as k d)
  | sh_only d : name = [46] ++ lit "gz" -> gunzip content = Ok d -> should images name content (Ok (Bytes d))
  | sh_bad stem ex : name = stem ++ [46] ++ lit "gz" -> gunzip content = Err ex -> should images name content (Err ex).

  (** Compressed members that are none of the known kinds. *)
  Definition compressed_other (images : bool) (name : str) : Prop :=
    name = [46] ++ lit "gz" \/ exists stem e, name = stem ++ [46] ++ e ++ [46] ++ lit "gz" /\ plain e /\ says images e KOther.
  (** Names of members as the tar reader makes them: the file name from its first dot on. *)
  Definition dotted (name : str) : Prop := exists rest, name = 46 :: rest.

  (** A whole sample: every member in order, or the first error. *)
  Inductive all_should (images : bool) : list (str * str) -> res (list (str * seen)) -> Prop :=
  | as_nil : all_should images [] (Ok [])
  | as_ok n c v rest vs : should images n c (Ok v) -> all_should images rest (Ok vs) -> all_should images ((n, c) :: rest) (Ok ((n, v) :: vs))
  | as_later n c v rest ex : should images n c (Ok v) -> all_should images rest (Err ex) -> all_should images ((n, c) :: rest) (Err ex)
  | as_first n c ex rest : should images n c (Err ex) -> all_should images ((n, c) :: rest) (Err ex).
End Spec.
