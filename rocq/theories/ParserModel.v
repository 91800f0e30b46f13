(** Model of mixtera/core/datacollection/index/parser/metadata_parser.py (schema check of metadata records) and
    parser_collection.py (the built-in parsers and the parser registry).

    Simplifications.  Payload values are JSON-like: None, strings, numbers (compared as integers), lists and dicts.
    Log output and messages are dropped, except that computing a message can itself raise. *)
From Coq Require Import String Ascii.
From Verif Require Import Base MixtureKeyModel.
Open Scope Z_scope.

(** A Python string literal as code points (the literals of parser_collection.py 8-183). *)
Definition lit (s : string) : str := map (fun a => Z.of_nat (nat_of_ascii a)) (list_ascii_of_string s).

(** The JSON-like values a payload consists of (metadata_parser.py 48, [payload: Any]). *)
Inductive pval := PNone | PStr (s : str) | PNum (z : Z) | PList (l : list pval) | PDict (d : list (str * pval)).
(** The exceptions raised in metadata_parser.py 37-91 and parser_collection.py 18-240. *)
Inductive perr := RuntimeErr | TypeErr | AttributeErr | KeyErr | AssertErr | ModuleNotFoundErr.
(** A result or one of these exceptions (metadata_parser.py 22-93). *)
Inductive pres (A : Type) := POk (a : A) | PErr (e : perr).
Arguments POk {A}. Arguments PErr {A}.

(** ** metadata_parser.py 6-12 *)
Inductive pdtype := DString | DEnum.
(** [enum_options]: absent, a set, or a list (parser_collection.py 91 passes a list) *)
Inductive options := NoOptions | OSet (l : list str) | OList (l : list str).
(** metadata_parser.py 6-12 MetadataProperty. *)
Record mprop := MProp { p_name : str; p_dtype : pdtype; p_multiple : bool; p_nullable : bool; p_options : options }.

(** metadata_parser.py 60: a metadata dict. *)
Definition record : Type := list (str * pval).
(** metadata_parser.py 60: the key "sample_id". *)
Definition sample_id_key : str := lit "sample_id".

(** metadata_parser.py 33: [{prop.name: prop for prop in self.get_properties()}] *)
Definition property_map (props : list mprop) : list (str * mprop) :=
  fold_left (fun m p => aset str_eqb (p_name p) p m) props [].
(** metadata_parser.py 22-37: the constructor *)
Definition parser_init (props : list mprop) : pres (list (str * mprop)) :=
  let pm := property_map props in
  if existsb (fun e => str_eqb (fst e) (lit "file_id") || str_eqb (fst e) (lit "dataset_id")) pm
  then PErr RuntimeErr else POk pm.

(** metadata_parser.py 85-90: lists and dicts cannot be looked up in a set. *)
Definition hashable (v : pval) : bool := match v with PList _ | PDict _ => false | _ => true end.
(** metadata_parser.py 85, 90: [v in valid_values]: a set needs a hash of [v] *)
Definition contains (o : list str) (is_set : bool) (v : pval) : pres bool :=
  if is_set && negb (hashable v) then PErr TypeErr
  else POk (match v with PStr s => existsb (str_eqb s) o | _ => false end).
(** metadata_parser.py 85: [all(ele in valid_values for ele in value)] *)
Fixpoint all_contained (o : list str) (is_set : bool) (l : list pval) : pres bool :=
  match l with
  | [] => POk true
  | v :: l' => match contains o is_set v with
               | PErr e => PErr e
               | POk false => POk false
               | POk true => all_contained o is_set l'
               end
  end.
(** metadata_parser.py 80-91: the ENUM check *)
Definition check_enum (p : mprop) (v : pval) : pres unit :=
  match p_dtype p with
  | DString => POk tt
  | DEnum =>
      match (match p_options p with NoOptions => None | OSet o => Some (o, true) | OList o => Some (o, false) end) with
      | None => PErr AssertErr                                                              (* 83 *)
      | Some (o, is_set) =>
          if p_multiple p then
            match v with
            | PList l =>
                match all_contained o is_set l with
                | PErr e => PErr e
                | POk true => POk tt
                | POk false => if forallb hashable l then PErr RuntimeErr else PErr TypeErr   (* 85-88: set(value) *)
                end
            | _ => PErr TypeErr
            end
          else
            match contains o is_set v with
            | PErr e => PErr e
            | POk true => POk tt
            | POk false => PErr RuntimeErr                                                  (* 90-91 *)
            end
      end
  end.
(** metadata_parser.py 62-91: one property *)
Definition add_prop (kwargs : record) (metadata : record) (kp : str * mprop) : pres record :=
  let (key, prop) := kp in
  match (match aget str_eqb key kwargs with Some v => v | None => PNone end) with
  | PNone => if p_nullable prop then POk (aset str_eqb key PNone metadata) else PErr RuntimeErr   (* 65-70 *)
  | value =>
      match (if p_multiple prop
             then POk (match value with PList _ => value | _ => PList [value] end)          (* 73-74 *)
             else match value with PList _ => PErr RuntimeErr | _ => POk value end) with    (* 75-76 *)
      | PErr e => PErr e
      | POk value => match check_enum prop value with
                     | PErr e => PErr e
                     | POk _ => POk (aset str_eqb key value metadata)
                     end
      end
  end.
(** metadata_parser.py 62-91: the loop over the properties. *)
Fixpoint add_props (kwargs metadata : record) (pm : list (str * mprop)) : pres record :=
  match pm with
  | [] => POk metadata
  | kp :: pm' => match add_prop kwargs metadata kp with
                 | PErr e => PErr e
                 | POk metadata => add_props kwargs metadata pm'
                 end
  end.
(** metadata_parser.py 59-93: the parser's [metadata] list after the call, and the exception if one was raised *)
Definition add_metadata (pm : list (str * mprop)) (store : list record) (sample_id : Z) (kwargs : record)
    : list record * option perr :=
  match add_props kwargs [(sample_id_key, PNum sample_id)] pm with
  | PErr e => (store, Some e)
  | POk metadata => (store ++ [metadata], None)
  end.

(** ** parser_collection.py: the built-in parsers *)
(** parser_collection.py 18, 21, 54, 78, 95-96, 165: [payload.get(k)] / [payload.get(k, default)] *)
Definition pget (k : str) (default payload : pval) : pres pval :=
  match payload with
  | PDict d => POk (match aget str_eqb k d with Some v => v | None => default end)
  | _ => PErr AttributeErr
  end.
(** Running on unless an exception was raised (parser_collection.py 16-25). *)
Definition pbind {A B} (x : pres A) (f : A -> pres B) : pres B := match x with POk a => f a | PErr e => PErr e end.
(** parser_collection.py 19, 22: Python's truth value of a payload value. *)
Definition truthy (v : pval) : bool :=
  match v with
  | PNone => false | PStr [] => false | PNum z => negb (z =? 0) | PList [] => false | PDict [] => false | _ => true
  end.
(** parser_collection.py 20: [lang["name"]] *)
Definition lang_name (v : pval) : pres pval :=
  match v with
  | PDict d => match aget str_eqb (lit "name") d with Some n => POk n | None => PErr KeyErr end
  | _ => PErr TypeErr
  end.
(** parser_collection.py 20: the list comprehension; an exception of an element propagates. *)
Fixpoint pmap (f : pval -> pres pval) (l : list pval) : pres (list pval) :=
  match l with
  | [] => POk []
  | v :: l' => pbind (f v) (fun w => pbind (pmap f l') (fun ws => POk (w :: ws)))
  end.
(** parser_collection.py 20: [[lang["name"] for lang in languages]]; a non-empty string or dict iterates over strings *)
Definition lang_names (v : pval) : pres (list pval) :=
  match v with PList l => pmap lang_name l | _ => PErr TypeErr end.

Definition redpajama_props : list mprop :=                                                  (* 10-14 *)
  [MProp (lit "language") DString true true NoOptions; MProp (lit "publication_date") DString false true NoOptions].
Definition redpajama_kwargs (payload : pval) : pres record :=                               (* 17-23 *)
  pbind (pget (lit "meta") (PDict []) payload) (fun meta =>
  pbind (pget (lit "language") (PList []) meta) (fun languages =>
  pbind (if truthy languages
         then pbind (lang_names languages) (fun ns => POk [(lit "language", PList ns)])
         else POk []) (fun metadata =>
  pbind (pget (lit "meta") (PDict []) payload) (fun meta =>
  pbind (pget (lit "publication_date") PNone meta) (fun date =>
  POk (if truthy date then metadata ++ [(lit "publication_date", date)] else metadata)))))).

Definition slimpajama_options : list str :=                                                 (* 41-49 *)
  [lit "RedPajamaCommonCrawl"; lit "RedPajamaC4"; lit "RedPajamaWikipedia"; lit "RedPajamaStackExchange";
   lit "RedPajamaGithub"; lit "RedPajamaArXiv"; lit "RedPajamaBook"].
(** parser_collection.py 34-51. *)
Definition slimpajama_props : list mprop :=
  [MProp (lit "redpajama_set_name") DEnum false false (OSet slimpajama_options)].
(** parser_collection.py 54-58 and 165-169 *)
Definition set_name_kwargs (prop : str) (payload : pval) : pres record :=
  pbind (pget (lit "meta") (PDict []) payload) (fun meta =>
  pbind (pget prop PNone meta) (fun v =>
  match v with PNone => PErr RuntimeErr | _ => POk [(prop, v)] end)).

(** [str(v)] of a payload value other than None is a parameter; [str(None)] is "None" *)
Definition imagenet_props : list mprop := [MProp (lit "class_label") DString false false NoOptions].   (* 67-75 *)
Definition imagenet_kwargs (to_str : pval -> str) (payload : pval) : pres record :=          (* 78-82 *)
  pbind (pget (lit ".cls") PNone payload) (fun v =>
  POk [(lit "class_label", PStr (match v with PNone => lit "None" | _ => to_str v end))]).

Definition fineweb_props : list mprop :=                                                    (* 88-92 *)
  [MProp (lit "dump") DString false false NoOptions;
   MProp (lit "language") DEnum false false (OList [lit "en"])].
Definition fineweb_kwargs (payload : pval) : pres record :=                                  (* 95-103 *)
  pbind (pget (lit "language") PNone payload) (fun language =>
  pbind (pget (lit "dump") PNone payload) (fun dump =>
  POk [(lit "dump", dump); (lit "language", language)])).

Definition mscoco_props : list mprop := [MProp (lit "parity") DString false false NoOptions].   (* 108-116 *)
Definition mscoco_kwargs (line_number : Z) : pres record :=                                  (* 119-121 *)
  POk [(lit "parity", PStr [48 + line_number mod 3])].

Definition pile_options : list str :=                                                       (* 137-160 *)
  [lit "Pile-CC"; lit "PubMed Central"; lit "Books3"; lit "OpenWebText2"; lit "ArXiv"; lit "Github"; lit "FreeLaw";
   lit "StackExchange"; lit "USPTO Backgrounds"; lit "PubMed Abstracts"; lit "Gutenberg (PG-19)"; lit "OpenSubtitles";
   lit "Wikipedia (en)"; lit "DM Mathematics"; lit "Ubuntu IRC"; lit "BookCorpus2"; lit "EuroParl"; lit "HackerNews";
   lit "YoutubeSubtitles"; lit "PhilPapers"; lit "NIH ExPorter"; lit "Enron Emails"].
(** parser_collection.py 130-162. *)
Definition pile_props : list mprop := [MProp (lit "pile_set_name") DEnum false false (OSet pile_options)].

(** parser_collection.py 8-25: a parser class: its schema and what [parse] passes to [add_metadata] *)
Record parser := Parser { ps_props : list mprop; ps_kwargs : Z -> pval -> pres record }.
(** parser_collection.py 16-25, 53-58, 77-82, 94-103, 118-121, 164-169: [parse] calls [add_metadata] last. *)
Definition parse_one (p : parser) (pm : list (str * mprop)) (store : list record) (line_number : Z) (payload : pval)
    : list record * option perr :=
  match ps_kwargs p line_number payload with
  | PErr e => (store, Some e)
  | POk kwargs => add_metadata pm store line_number kwargs
  end.
(** The parser driven over a file: [inform_metadata_parser] (jsonl_dataset.py 31-35) after json decoding *)
Fixpoint parse_all (p : parser) (pm : list (str * mprop)) (store : list record) (recs : list (Z * pval))
    : list record * option perr :=
  match recs with
  | [] => (store, None)
  | (n, payload) :: rest =>
      match parse_one p pm store n payload with
      | (store, Some e) => (store, Some e)
      | (store, None) => parse_all p pm store rest
      end
  end.

Section BuiltIn.
  Variable to_str : pval -> str.
  (** parser_collection.py 8-25 RedPajamaMetadataParser. *)
  Definition red_pajama := Parser redpajama_props (fun _ => redpajama_kwargs).
  (** parser_collection.py 28-58 SlimPajamaMetadataParser. *)
  Definition slim_pajama := Parser slimpajama_props (fun _ => set_name_kwargs (lit "redpajama_set_name")).
  (** parser_collection.py 61-82 ImagenetWebDatasetMetadataParser. *)
  Definition imagenet := Parser imagenet_props (fun _ => imagenet_kwargs to_str).
  (** parser_collection.py 85-103 FineWebMetadataParser. *)
  Definition fineweb := Parser fineweb_props (fun _ => fineweb_kwargs).
  (** parser_collection.py 106-121 MsCocoParser. *)
  Definition mscoco := Parser mscoco_props (fun n _ => mscoco_kwargs n).
  (** parser_collection.py 124-169 PileaMetadataParser. *)
  Definition pile := Parser pile_props (fun _ => set_name_kwargs (lit "pile_set_name")).
  (** parser_collection.py 175-184: the registry *)
  Definition builtin : list (str * parser) :=
    [(lit "RED_PAJAMA", red_pajama); (lit "SLIM_PAJAMA", slim_pajama); (lit "IMAGENET_WEB_DATASET", imagenet);
     (lit "FINEWEB", fineweb); (lit "MSCOCO", mscoco); (lit "PILE", pile)].
End BuiltIn.

(** parser_collection.py 186-206 add_parser *)
Definition add_parser {P} (reg : list (str * P)) (name : str) (p : P) (overwrite : bool) : list (str * P) * bool :=
  if negb (amem str_eqb name reg) || overwrite then (aset str_eqb name p reg, true) else (reg, false).
(** parser_collection.py 208-219 remove_parser. *)
Definition remove_parser {P} (reg : list (str * P)) (name : str) : list (str * P) :=
  if amem str_eqb name reg then adel str_eqb name reg else reg.
(** parser_collection.py 221-240 create_metadata_parser. *)
Definition create_parser (reg : list (str * parser)) (name : str) : pres (parser * list (str * mprop)) :=
  match aget str_eqb name reg with
  | Some p => pbind (parser_init (ps_props p)) (fun pm => POk (p, pm))
  | None => PErr ModuleNotFoundErr
  end.
