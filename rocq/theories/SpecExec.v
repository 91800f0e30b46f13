(** What executing a query should give (C72): which samples match, and under which properties they are filed. *)
From Coq Require Import String.
From Verif Require Import Base MixtureKeyModel ParserModel MdcModel SqlModel SpecSql ChunkerModel SpecChunker ExecModel SpecChunk.
Open Scope Z_scope.

(** ** The samples *)
(** A value a property column can hold: NULL, a text, or for an array column a list of texts. *)
Definition value_ok (multi : bool) (v : pval) : Prop :=
  match v with
  | ParserModel.PNone => True
  | PStr _ => multi = false
  | ParserModel.PList l => multi = true /\ forall e, In e l -> exists s, e = PStr s
  | _ => False
  end.
Definition sample_ok (cols : list (str * bool)) (x : sample) : Prop :=
  forall c multi, In (c, multi) cols -> value_ok multi (value_of (snd x) c).
(** The table: distinct columns, none of the names the query itself uses, distinct samples (primary key). *)
Record table_ok (cols : list (str * bool)) (xs : list sample) : Prop := {
  to_cols : NoDup (map fst cols);
  to_reserved : forall c, In c (map fst cols) -> ~ In c reserved;
  to_keys : NoDup (map fst xs);
  to_values : Forall (sample_ok cols) xs }.

(** ** The properties of a sample: the columns in alphabetical order, each with its values; no entry where NULL. *)
Definition values_of (v : pval) : option (list str) :=
  match v with
  | PStr s => Some [s]
  | ParserModel.PList l => Some (flat_map (fun e => match e with PStr s => [s] | _ => [] end) l)
  | _ => None
  end.
Definition properties (cols : list (str * bool)) (r : record) : mkey :=
  flat_map (fun c => match values_of (value_of r c) with Some vs => [(c, vs)] | None => [] end) (isort str_ltb (map fst cols)).

(** ** The query: a chain of selects; a sample matches if it satisfies all conditions of one of them *)
(** What a sample has in a column. *)
Inductive in_column (cols : list (str * bool)) : sample -> str -> cell sval -> Prop :=
| ic_dataset d f i r : in_column cols ((d, f, i), r) (lit "dataset_id") (CScalar (Some (SInt d)))
| ic_file d f i r : in_column cols ((d, f, i), r) (lit "file_id") (CScalar (Some (SInt f)))
| ic_sample d f i r : in_column cols ((d, f, i), r) (lit "sample_id") (CScalar (Some (SInt i)))
| ic_null x c : In (c, false) cols -> values_of (value_of (snd x) c) = None -> in_column cols x c (CScalar None)
| ic_text x c s : In (c, false) cols -> values_of (value_of (snd x) c) = Some [s] -> in_column cols x c (CScalar (Some (SText s)))
| ic_null_array x c : In (c, true) cols -> values_of (value_of (snd x) c) = None -> in_column cols x c (CArray None)
| ic_array x c l : In (c, true) cols -> values_of (value_of (snd x) c) = Some l -> in_column cols x c (CArray (Some (map (fun s => Some (SText s)) l))).
(** The columns of the table a condition can name. *)
Definition schema_of_table (cols : list (str * bool)) : schema := (lit "dataset_id", false) :: (lit "file_id", false) :: (lit "sample_id", false) :: cols.
Definition fulfils (na : option bool) (cols : list (str * bool)) (x : sample) (c : cond sval) : Prop :=
  let '(field, op, value) := c in exists v o, in_column cols x field v /\ aget str_eqb op operators = Some o /\ satisfied sval_cmp na v o value.
Definition matches (na : option bool) (cols : list (str * bool)) (sels : list (list (cond sval))) (x : sample) : Prop :=
  exists cs, In cs sels /\ forall c, In c cs -> effective (schema_of_table cols) c -> fulfils na cols x c.
(** Every select of the chain has a condition that is taken into account, or none has (C30); no order comparison on
    array columns. *)
Record query_ok (cols : list (str * bool)) (sels : list (list (cond sval))) : Prop := {
  qo_some : sels <> [];
  qo_order : forall cs c, In cs sels -> In c cs -> ~ array_order (schema_of_table cols) c;
  qo_effective : (forall cs, In cs sels -> some_effective (schema_of_table cols) cs) \/ (forall cs, In cs sels -> ~ some_effective (schema_of_table cols) cs) }.

(** ** Texts the index keys can hold (C32): no separators, no empty last value, one order of the same values *)
Record text_ok (cols : list (str * bool)) (xs : list sample) : Prop := {
  tx_names : forall c, In c (map fst cols) -> clean_name c;
  tx_values : forall x c vs, In x xs -> In c (map fst cols) -> values_of (value_of (snd x) c) = Some vs -> clean_vals vs;
  tx_order : forall x y, In x xs -> In y xs -> canon (properties cols (snd x)) = canon (properties cols (snd y)) ->
               properties cols (snd x) = properties cols (snd y) }.

(** ORDER BY is a strict total order. *)
Definition strict_total {A} (lt : A -> A -> bool) : Prop :=
  (forall a b, lt a b = true -> lt b a = false) /\ (forall a b c, lt a b = true -> lt b c = true -> lt a c = true)
  /\ (forall a b, a <> b -> lt a b = true \/ lt b a = true).

(** ** The property: the index lists the matching samples, each under its properties and nowhere else *)
Definition indexes_matching (na : option bool) (cols : list (str * bool)) (sels : list (list (cond sval))) (xs : list sample) (idx : pindex) : Prop :=
  forall k d f i, In (d, f, i) (rows_under k idx) <->
    exists r, In ((d, f, i), r) xs /\ matches na cols sels ((d, f, i), r) /\ properties cols r = k.
