(** When two parsers' schemas can share a catalogue (C75). *)
From Coq Require Import String.
From Verif Require Import Base MixtureKeyModel ChunkGenModel ParserModel SpecParser MdcModel SchemaModel.
Open Scope Z_scope.

(** Names that differ at most in the case of ASCII letters. *)
Definition same_letter (c d : Z) : Prop := c = d \/ (65 <= c <= 90 /\ d = c + 32) \/ (65 <= d <= 90 /\ c = d + 32).
Definition same_name (a b : str) : Prop := Forall2 same_letter a b.
(** The options of an enumeration. *)
Definition an_option (p : mprop) (s : str) : Prop := match p_options p with NoOptions => False | OSet o | OList o => In s o end.
(** Two properties do not get in each other's way: their names differ (not only in case), or they are declared alike. *)
Definition agree (p q : mprop) : Prop := same_name (p_name p) (p_name q) ->
  p_name p = p_name q /\ p_dtype p = p_dtype q /\ p_multiple p = p_multiple q /\
  (p_dtype p = DEnum -> forall s, an_option p s <-> an_option q s).
(** A schema that can be written as column definitions: [ident] tells the names that need no quotes. *)
Definition declarable (ident : str -> bool) (props : list mprop) : Prop :=
  (forall i j p q, nth_error props i = Some p -> nth_error props j = Some q -> same_name (p_name p) (p_name q) -> i = j) /\
  (forall p, In p props -> ident (p_name p) = true /\
     (forall c, In c [lit "dataset_id"; lit "file_id"; lit "sample_id"] -> ~ same_name c (p_name p)) /\
     (p_dtype p = DEnum -> ident (lit "enum_" ++ p_name p) = true /\
        exists o, (p_options p = OSet o \/ p_options p = OList o) /\ o <> [] /\ NoDup o /\ (forall s, In s o -> ~ In 39 s))).

(** Values that are texts or lists of texts. *)
Definition textual (v : pval) : Prop :=
  v = PNone \/ (exists s, v = PStr s) \/ (exists l, v = PList l /\ forall x, In x l -> exists s, x = PStr s).
(** What a parser's record says for a property. *)
Definition says (r : record) (p : mprop) : pval := match aget str_eqb (p_name p) r with Some v => v | None => PNone end.
Definition good_record (props : list mprop) (r : record) : Prop :=
  forall p, In p props -> well_typed p (says r p) /\ textual (says r p).

(** The catalogues that can arise, with the properties every registration tried so far has declared: registrations and
    removals with any outcome, stopped anywhere. *)
Inductive past (ident : str -> bool) (show_list : list pval -> str) (parse_list : str -> option (list pval)) : list mprop -> tdb -> Prop :=
| past_init : past ident show_list parse_list [] init_tdb
| past_register ds s metadata_of name info vt found props tr o s' : past ident show_list parse_list ds s ->
    register_typed ident show_list parse_list metadata_of s name info vt found (Some props) = (tr, o) -> In s' (s :: tr) ->
    past ident show_list parse_list (ds ++ props) s'
| past_unknown_parser ds s metadata_of name info vt found tr o s' : past ident show_list parse_list ds s ->
    register_typed ident show_list parse_list metadata_of s name info vt found None = (tr, o) -> In s' (s :: tr) ->
    past ident show_list parse_list ds s'
| past_remove ds s name tr o s' : past ident show_list parse_list ds s -> remove_typed s name = (tr, o) -> In s' (s :: tr) ->
    past ident show_list parse_list ds s'.
