(** Model of the SQL generation of mixtera/core/query/operators/select.py and mixtera/core/query/query_plan.py, and of
    how the database reads the generated WHERE clause.

    The generated text is a list of tokens ([tok]); a column name is one token (simplification: names that would need
    quoting are not modelled).  The reading side is a recursive-descent parser for the fragment of SQL's expression
    grammar that is used (OR < AND < NOT < predicates, parentheses), which numbers the placeholders [?] from left to
    right, and an evaluator with SQL's three-valued logic.  This parser and evaluator stand for DuckDB and are trusted. *)
From Verif Require Import Base MixtureKeyModel.
Open Scope Z_scope.

(** select.py 43: the values of op_map. *)
Inductive sqlop := OEq | ONe | OGt | OLt | OGe | OLe.
(** select.py 67, 75, 79: the functions used. *)
Inductive fn := ArrayHasAny | ArrayContains | AnyValue.
(** The tokens of the text generated in select.py 52-131. *)
Inductive tok :=
| TId (name : str) | TFn (f : fn) | TOp (o : sqlop) | TQ | TComma | TLP | TRP | TLB | TRB
| TAnd | TOr | TNot | TIn | TIs | TNull.

(** select.py 43: op_map.  Operators are Python strings. *)
Definition op_map (op : str) : option sqlop :=
  if str_eqb op [61; 61] then Some OEq            (* "==" *)
  else if str_eqb op [33; 61] then Some ONe       (* "!=" *)
  else if str_eqb op [62] then Some OGt
  else if str_eqb op [60] then Some OLt
  else if str_eqb op [62; 61] then Some OGe
  else if str_eqb op [60; 61] then Some OLe
  else None.
(** select.py 51-53, 66-69, 78-81, 95-98. *)
Definition is_eq (o : sqlop) : bool := match o with OEq => true | _ => false end.
(** select.py 51-53, 66-69, 78-81, 95-98. *)
Definition is_ne (o : sqlop) : bool := match o with ONe => true | _ => false end.

Section Sql.
  Context {V : Type}.

  (** select.py 9: the value of a condition: None, a scalar, or a list (whose elements may be None). *)
  (** select.py 50-107: None, a scalar, or a list. *)
  Inductive pyval := PNone | PScalar (v : V) | PList (l : list (option V)).
  (** select.py 9, 36: (field, op, value). *)
  Definition cond : Type := str * str * pyval.
  (** select.py 12-20 Select; children as appended by insert (140-145). *)
  Inductive select := Select (conds : list cond) (children : list select).
  (** query.py 91-101: column name -> "multiple" *)
  Definition schema := list (str * bool).

  (** ", ".join / " OR ".join / " AND ".join *)
  (** select.py 65, 94, 103, 116, 131. *)
  Fixpoint join (sep : tok) (l : list (list tok)) : list tok :=
    match l with [] => [] | [x] => x | x :: l' => x ++ sep :: join sep l' end.
  (** select.py 65, 94. *)
  Definition placeholders {A} (l : list A) : list tok := join TComma (map (fun _ => [TQ]) l).

  (** select.py 36-107 process_conditions, one round: [None] = the condition is skipped. *)
  Definition process_condition (sch : schema) (c : cond) : option (list tok * list (option V)) :=
    let '(field, op, value) := c in
    match aget str_eqb field sch with
    | None => None                                                                     (* 37-39 *)
    | Some is_array =>
        match op_map op with
        | None => None                                                                 (* 45-47 *)
        | Some o =>
            match value with
            | PNone =>                                                                 (* 50-57 *)
                if is_eq o then Some ([TId field; TIs; TNull], [])
                else if is_ne o then Some ([TId field; TIs; TNot; TNull], [])
                else None
            | _ =>
                if is_array then                                                       (* 60-86 *)
                  match value with
                  | PList [] => None                                                   (* 62-64 *)
                  | PList ((v0 :: _) as l) =>
                      if is_eq o then Some (TFn ArrayHasAny :: TLP :: TId field :: TComma :: TLB :: placeholders l ++ [TRB; TRP], l)
                      else if is_ne o then Some (TNot :: TFn ArrayHasAny :: TLP :: TId field :: TComma :: TLB :: placeholders l ++ [TRB; TRP], l)
                      else Some ([TFn AnyValue; TLP; TId field; TRP; TOp o; TQ], [v0])
                  | PScalar v =>
                      if is_eq o then Some ([TFn ArrayContains; TLP; TId field; TComma; TQ; TRP], [Some v])
                      else if is_ne o then Some ([TNot; TFn ArrayContains; TLP; TId field; TComma; TQ; TRP], [Some v])
                      else Some ([TFn AnyValue; TLP; TId field; TRP; TOp o; TQ], [Some v])
                  | PNone => None
                  end
                else                                                                   (* 88-107 *)
                  match value with
                  | PList [] => None                                                   (* 91-93 *)
                  | PList [v] => Some ([TId field; TOp o; TQ], [v])                    (* 89 *)
                  | PList l =>
                      if is_eq o then Some (TId field :: TIn :: TLP :: placeholders l ++ [TRP], l)
                      else if is_ne o then Some (TId field :: TNot :: TIn :: TLP :: placeholders l ++ [TRP], l)
                      else Some (TLP :: join TOr (map (fun _ => [TId field; TOp o; TQ]) l) ++ [TRP], l)
                  | PScalar v => Some ([TId field; TOp o; TQ], [Some v])
                  | PNone => None
                  end
            end
        end
    end.
  (** select.py 33-108, the loop. *)
  Fixpoint process_conditions (sch : schema) (cs : list cond) : list (list tok) * list (option V) :=
    match cs with
    | [] => ([], [])
    | c :: cs' =>
        let '(clauses, params) := process_conditions sch cs' in
        match process_condition sch c with
        | None => (clauses, params)
        | Some (t, p) => (t :: clauses, p ++ params)
        end
    end.
  (** select.py 32-35, 110-135 _generate_conditions.  The empty token list is the empty string. *)
  Fixpoint generate_conditions (sch : schema) (s : select) : list tok * list (option V) :=
    let '(Select cs children) := s in
    let own := match process_conditions sch cs with
               | ([], _) => ([], [])
               | (clauses, params) => ([TLP :: join TAnd clauses ++ [TRP]], params)
               end in
    let fix go (l : list select) : list (list tok) * list (option V) :=
      match l with
      | [] => ([], [])
      | c :: l' =>
          let '(clauses, params) := go l' in
          match generate_conditions sch c with
          | ([], _) => (clauses, params)
          | (t, p) => ((TLP :: t ++ [TRP]) :: clauses, p ++ params)
          end
      end in
    let ch := go children in
    (join TOr (fst own ++ fst ch), snd own ++ snd ch).

  (** query_plan.py 23-36 add with select.py 140-145 insert: every later select becomes a child of the first one.
      query.py 34-39: [Query.for_job(..).select(c1).select(c2)...]. *)
  Definition plan_add (root : option select) (s : select) : option select :=
    match root with None => Some s | Some (Select cs ch) => Some (Select cs (ch ++ [s])) end.
  (** query.py 34-39: a chain of selects. *)
  Definition query_of (selects : list (list cond)) : option select :=
    fold_left (fun root cs => plan_add root (Select cs [])) selects None.

  (** ** Reading the text *)
  (** [n] is the number of the first placeholder of the predicate, [k] how many it has. *)
  (** Trusted (DuckDB): what the text of select.py 22-30 means. *)
  Inductive expr :=
  | EIsNull (f : str) (neg : bool)
  | ECmp (f : str) (o : sqlop) (n : nat)
  | EIn (f : str) (neg : bool) (n k : nat)
  | EHasAny (f : str) (n k : nat)
  | EContains (f : str) (n : nat)
  | EAggCmp (f : str) (o : sqlop) (n : nat)
  | ENot (e : expr) | EAnd (e1 e2 : expr) | EOr (e1 e2 : expr).

  (** a comma-separated list of placeholders and what follows it *)
  (** Trusted (DuckDB): reading the lists written in select.py 65, 94. *)
  Fixpoint p_qs (l : list tok) : option (nat * list tok) :=
    match l with
    | TQ :: TComma :: l' => match p_qs l' with Some (k, r) => Some (S k, r) | None => None end
    | TQ :: r => Some (1%nat, r)
    | _ => None
    end.

  (** [lvl] 0: OR, 1: AND, 2: NOT and predicates.  Result: expression, next placeholder number, rest of the text. *)
  Fixpoint parse (fuel : nat) (lvl : nat) (n : nat) (l : list tok) : option (expr * nat * list tok) :=
    match fuel with
    | O => None
    | S fuel =>
        match lvl with
        | 0%nat => match parse fuel 1 n l with
                   | Some (e1, n1, TOr :: r) => match parse fuel 0 n1 r with Some (e2, n2, r') => Some (EOr e1 e2, n2, r') | None => None end
                   | x => x
                   end
        | 1%nat => match parse fuel 2 n l with
                   | Some (e1, n1, TAnd :: r) => match parse fuel 1 n1 r with Some (e2, n2, r') => Some (EAnd e1 e2, n2, r') | None => None end
                   | x => x
                   end
        | _ =>
            match l with
            | TNot :: r => match parse fuel 2 n r with Some (e, n1, r') => Some (ENot e, n1, r') | None => None end
            | TLP :: r => match parse fuel 0 n r with Some (e, n1, TRP :: r') => Some (e, n1, r') | _ => None end
            | TId f :: TIs :: TNull :: r => Some (EIsNull f false, n, r)
            | TId f :: TIs :: TNot :: TNull :: r => Some (EIsNull f true, n, r)
            | TId f :: TOp o :: TQ :: r => Some (ECmp f o n, S n, r)
            | TId f :: TIn :: TLP :: r => match p_qs r with Some (k, TRP :: r') => Some (EIn f false n k, (n + k)%nat, r') | _ => None end
            | TId f :: TNot :: TIn :: TLP :: r => match p_qs r with Some (k, TRP :: r') => Some (EIn f true n k, (n + k)%nat, r') | _ => None end
            | TFn ArrayHasAny :: TLP :: TId f :: TComma :: TLB :: r =>
                match p_qs r with Some (k, TRB :: TRP :: r') => Some (EHasAny f n k, (n + k)%nat, r') | _ => None end
            | TFn ArrayContains :: TLP :: TId f :: TComma :: TQ :: TRP :: r => Some (EContains f n, S n, r)
            | TFn AnyValue :: TLP :: TId f :: TRP :: TOp o :: TQ :: r => Some (EAggCmp f o n, S n, r)
            | _ => None
            end
        end
    end.

  (** ** Evaluating it *)
  (** A cell of a row: NULL is None.  The elements of an array may be NULL. *)
  (** Trusted (DuckDB): a value of a column of the samples table (query.py 91-101). *)
  Inductive cell := CScalar (c : option V) | CArray (c : option (list (option V))).
  Variable cmp : V -> V -> comparison.
  (** What the engine's array functions return for a NULL array (NULL or false, depending on its version). *)
  Variable null_array : option bool.

  (** Trusted (DuckDB): three-valued logic of the expressions of select.py 52-131. *)
  Definition holds (o : sqlop) (c : comparison) : bool :=
    match o, c with
    | OEq, Eq | OGe, Eq | OLe, Eq | ONe, Lt | ONe, Gt | OGt, Gt | OGe, Gt | OLt, Lt | OLe, Lt => true
    | _, _ => false
    end.
  (** Trusted (DuckDB): three-valued logic of the expressions of select.py 52-131. *)
  Definition cmp3 (o : sqlop) (a b : option V) : option bool :=
    match a, b with Some a, Some b => Some (holds o (cmp a b)) | _, _ => None end.
  (** Trusted (DuckDB): three-valued logic of the expressions of select.py 52-131. *)
  Definition not3 (a : option bool) : option bool := option_map negb a.
  (** Trusted (DuckDB): three-valued logic of the expressions of select.py 52-131. *)
  Definition and3 (a b : option bool) : option bool :=
    match a, b with Some false, _ | _, Some false => Some false | Some true, Some true => Some true | _, _ => None end.
  (** Trusted (DuckDB): three-valued logic of the expressions of select.py 52-131. *)
  Definition or3 (a b : option bool) : option bool :=
    match a, b with Some true, _ | _, Some true => Some true | Some false, Some false => Some false | _, _ => None end.
  (** a IN (l) *)
  (** Trusted (DuckDB): three-valued logic of the expressions of select.py 52-131. *)
  Definition in3 (a : option V) (l : list (option V)) : option bool := fold_right or3 (Some false) (map (cmp3 OEq a) l).
  (** is the element (not NULL) in the array *)
  (** Trusted (DuckDB): three-valued logic of the expressions of select.py 52-131. *)
  Definition elem (v : option V) (l : list (option V)) : bool :=
    existsb (fun x => match cmp3 OEq x v with Some b => b | None => false end) l.
  (** [None]: type error (an array function on a scalar, a comparison of an array), or an aggregate in WHERE. *)
  (** Trusted (DuckDB): three-valued logic of the expressions of select.py 52-131. *)
  Definition eval_atom (params : list (option V)) (row : str -> option cell) (e : expr) : option (option bool) :=
    match e with
    | EIsNull f neg => match row f with
                       | Some (CScalar None) | Some (CArray None) => Some (Some (negb neg))
                       | Some _ => Some (Some neg)
                       | None => None
                       end
    | ECmp f o n => match row f, nth_error params n with Some (CScalar c), Some p => Some (cmp3 o c p) | _, _ => None end
    | EIn f neg n k =>
        match row f with
        | Some (CScalar c) => Some (let b := in3 c (firstn k (skipn n params)) in if neg then not3 b else b)
        | _ => None
        end
    | EHasAny f n k =>
        match row f with
        | Some (CArray (Some l)) => Some (Some (existsb (fun p => elem p l) (firstn k (skipn n params))))
        | Some (CArray None) => Some null_array
        | _ => None
        end
    | EContains f n =>
        match row f, nth_error params n with
        | Some (CArray (Some l)), Some (Some v) => Some (Some (elem (Some v) l))
        | Some (CArray (Some _)), Some None => Some None
        | Some (CArray None), Some _ => Some null_array
        | _, _ => None
        end
    | _ => None
    end.
  (** Trusted (DuckDB): three-valued logic of the expressions of select.py 52-131. *)
  Fixpoint eval (params : list (option V)) (row : str -> option cell) (e : expr) : option (option bool) :=
    match e with
    | ENot e => option_map not3 (eval params row e)
    | EAnd a b => match eval params row a, eval params row b with Some x, Some y => Some (and3 x y) | _, _ => None end
    | EOr a b => match eval params row a, eval params row b with Some x, Some y => Some (or3 x y) | _, _ => None end
    | e => eval_atom params row e
    end.
  (** "WHERE clause cannot contain aggregates": raised whatever the rows are. *)
  (** Trusted (DuckDB): an aggregate in WHERE (select.py 75, 85) is refused. *)
  Fixpoint has_aggregate (e : expr) : bool :=
    match e with EAggCmp _ _ _ => true | ENot e => has_aggregate e | EAnd a b | EOr a b => has_aggregate a || has_aggregate b | _ => false end.

  (** select.py 22-30 generate_sql, executed: the rows of [samples] for which the clause is true, each once.
      [None]: the database raises (bad text, an aggregate, number of parameters, types). *)
  Definition run_where (text : list tok) (params : list (option V)) (rows : list (str -> option cell)) : option (list (str -> option cell)) :=
    match text with
    | [] => match params with [] => Some rows | _ => None end                          (* SELECT * FROM samples *)
    | _ =>
        match parse (3 * length text + 3) 0 0 text with
        | Some (e, n, []) =>
            if has_aggregate e || negb (Nat.eqb n (length params)) then None
            else fold_right (fun row acc => match acc, eval params row e with
                                            | Some l, Some (Some true) => Some (row :: l)
                                            | Some l, Some _ => Some l
                                            | _, _ => None
                                            end) (Some []) rows
        | _ => None
        end
    end.
  (** query.py 104, 110-111, 122-124 and 150-155: the base query.  An empty plan has no root: the call raises. *)
  Definition run_query (sch : schema) (root : option select) (rows : list (str -> option cell)) : option (list (str -> option cell)) :=
    match root with
    | None => None
    | Some s => let '(text, params) := generate_conditions sch s in run_where text params rows
    end.
End Sql.
Arguments pyval : clear implicits.
Arguments cond : clear implicits.
Arguments select : clear implicits.
Arguments cell : clear implicits.
