(** Model of the text of a query, [str(query)]: mixtera/core/query/query.py 70-71, query_plan.py 38-45,
    operators/_base.py 56-73, operators/select.py 13-20 and 137-138, on top of CPython's [repr].

    A Python string is a list of code points.  [printable] is str.isprintable on non-ASCII code points (any function).
    [F], [frepr]: floating point numbers and their repr.  Values of other types in conditions are not modelled. *)
From Coq Require Import String DecimalZ.
From Verif Require Import Base MixtureKeyModel ParserModel.
Open Scope Z_scope.

Section Text.
  Context {F : Type}.
  Variable frepr : F -> str.
  Variable printable : Z -> bool.

  (** The Python values in conditions (select.py 9). *)
  Inductive pv := VNone | VBool (b : bool) | VInt (z : Z) | VFloat (f : F) | VStr (s : str) | VList (l : list pv) | VTuple (l : list pv).

  (** int.__repr__: decimal. *)
  (** select.py 138 through CPython: int.__repr__. *)
  Fixpoint uchars (u : Decimal.uint) : str :=
    match u with
    | Decimal.Nil => [] | Decimal.D0 u => 48 :: uchars u | Decimal.D1 u => 49 :: uchars u | Decimal.D2 u => 50 :: uchars u
    | Decimal.D3 u => 51 :: uchars u | Decimal.D4 u => 52 :: uchars u | Decimal.D5 u => 53 :: uchars u | Decimal.D6 u => 54 :: uchars u
    | Decimal.D7 u => 55 :: uchars u | Decimal.D8 u => 56 :: uchars u | Decimal.D9 u => 57 :: uchars u
    end.
  (** select.py 138 through CPython: int.__repr__. *)
  Definition int_repr (z : Z) : str :=
    match Z.to_int z with Decimal.Pos u => uchars u | Decimal.Neg u => 45 :: uchars u end.

  (** str.__repr__ (CPython unicode_repr). *)
  (** select.py 138 through CPython: str.__repr__. *)
  Definition hexdigit (d : Z) : Z := if d <? 10 then 48 + d else 87 + d.
  (** select.py 138 through CPython: str.__repr__. *)
  Fixpoint hex (k : nat) (c : Z) : str := match k with O => [] | S k' => hex k' (c / 16) ++ [hexdigit (c mod 16)] end.
  (** select.py 138 through CPython: str.__repr__. *)
  Definition quote_of (s : str) : Z := if existsb (Z.eqb 39) s && negb (existsb (Z.eqb 34) s) then 34 else 39.
  (** select.py 138 through CPython: str.__repr__. *)
  Definition esc (q c : Z) : str :=
    if (c =? q) || (c =? 92) then [92; c]
    else if c =? 9 then [92; 116] else if c =? 10 then [92; 110] else if c =? 13 then [92; 114]
    else if (c <? 32) || (c =? 127) then 92 :: 120 :: hex 2 c
    else if c <? 127 then [c]
    else if printable c then [c]
    else if c <=? 255 then 92 :: 120 :: hex 2 c
    else if c <=? 65535 then 92 :: 117 :: hex 4 c
    else 92 :: 85 :: hex 8 c.
  (** select.py 138 through CPython: str.__repr__. *)
  Definition str_repr (s : str) : str := let q := quote_of s in q :: flat_map (esc q) s ++ [q].

  (** ", ".join *)
  (** select.py 138 through CPython: list.__repr__ and tuple.__repr__. *)
  Fixpoint commas (l : list str) : str :=
    match l with [] => [] | [x] => x | x :: l' => x ++ [44; 32] ++ commas l' end.

  (** repr *)
  (** select.py 138 through CPython: list.__repr__ and tuple.__repr__. *)
  Fixpoint repr (v : pv) : str :=
    match v with
    | VNone => lit "None"
    | VBool b => if b then lit "True" else lit "False"
    | VInt z => int_repr z
    | VFloat f => frepr f
    | VStr s => str_repr s
    | VList l => 91 :: commas (map repr l) ++ [93]
    | VTuple l => 40 :: commas (map repr l) ++ match l with [_] => [44] | _ => [] end ++ [41]
    end.

  (** select.py 13-20: the argument of select(...) and the conditions kept. *)
  Definition conditions_of (arg : pv) : list pv :=
    match arg with VTuple _ => [arg] | VList l => l | _ => [] end.
  (** _base.py 18-19, select.py 140-145: a node of the plan. *)
  Inductive node := Node (conds : list pv) (children : list node).
  (** select.py 137-138 *)
  Definition node_str (conds : list pv) : str := lit "select<>(" ++ repr (VList conds) ++ [41].
  (** _base.py 56-73 string *)
  Fixpoint node_string (level : nat) (n : node) : str :=
    match n with
    | Node conds children =>
        repeat 45 level ++ (match level with O => [] | S _ => [62; 32] end) ++ node_str conds ++ [10]
        ++ flat_map (node_string (S level)) children
    end.
  (** str.strip("\n") *)
  (** query_plan.py 38-45: strip("\n"). *)
  Fixpoint lstrip (l : str) : str := match l with 10 :: l' => lstrip l' | _ => l end.
  (** query_plan.py 38-45: strip("\n"). *)
  Definition strip (l : str) : str := rev (lstrip (rev (lstrip l))).
  (** query_plan.py 38-45; an empty plan has no root. *)
  Definition query_str (root : option node) : str :=
    match root with Some n => strip (node_string 0 n) | None => lit "<empty>" end.

  (** query.py 34-39, query_plan.py 23-36, select.py 140-145: Query.select(arg) adds to the plan. *)
  Definition add_select (root : option node) (arg : pv) : option node :=
    let n := Node (conditions_of arg) [] in
    match root with None => Some n | Some (Node cs ch) => Some (Node cs (ch ++ [n])) end.
  (** query.py 34-39: the plan after a chain of selects. *)
  Definition build (args : list pv) : option node := fold_left add_select args None.
End Text.
Arguments pv : clear implicits. Arguments node : clear implicits.
