(** What a query means (C30), independent of the generated text.

    A query is a chain of selects, each a list of conditions (column, operator, value). *)
From Coq Require Import String.
From Verif Require Import Base MixtureKeyModel SqlModel.
From Verif Require ParserModel.
Open Scope Z_scope.

(** The operators a condition may use, as written by the user. *)
Definition operators : list (str * sqlop) :=
  [(ParserModel.lit "==", OEq); (ParserModel.lit "!=", ONe); (ParserModel.lit ">", OGt); (ParserModel.lit "<", OLt); (ParserModel.lit ">=", OGe); (ParserModel.lit "<=", OLe)].

Section Spec.
  Context {V : Type}.
  Variable cmp : V -> V -> comparison.
  Variable null_array : option bool.

  Definition rel (o : sqlop) (x y : V) : Prop :=
    match o with
    | OEq => x = y
    | ONe => x <> y
    | OGt => cmp x y = Gt
    | OLt => cmp x y = Lt
    | OGe => cmp x y = Gt \/ x = y
    | OLe => cmp x y = Lt \/ x = y
    end.

  (** A cell satisfies "column op value".  A list value means: one of them (for !=: none of them).  A NULL cell only
      satisfies comparisons with None (and, on engines whose array functions return false for NULL, != on arrays). *)
  Definition satisfied (c : cell V) (o : sqlop) (v : pyval V) : Prop :=
    match v, c with
    | PNone, CScalar x => match o with OEq => x = None | ONe => x <> None | _ => False end
    | PNone, CArray x => match o with OEq => x = None | ONe => x <> None | _ => False end
    | PScalar y, CScalar (Some x) => rel o x y
    | PList ys, CScalar (Some x) =>
        match o with
        | ONe => forall y, In y ys -> exists z, y = Some z /\ x <> z
        | _ => exists z, In (Some z) ys /\ rel o x z
        end
    | _, CScalar None => False
    | PScalar y, CArray (Some xs) => match o with OEq => In (Some y) xs | ONe => ~ In (Some y) xs | _ => False end
    | PList ys, CArray (Some xs) =>
        match o with
        | OEq => exists z, In (Some z) xs /\ In (Some z) ys
        | ONe => ~ exists z, In (Some z) xs /\ In (Some z) ys
        | _ => False
        end
    | _, CArray None => o = ONe /\ null_array = Some false
    end.

  (** The conditions that are taken into account: known column and operator, a non-empty value, and no order
      comparison with None.  The others are skipped with a log message. *)
  Definition effective (sch : schema) (c : cond V) : Prop :=
    let '(field, op, value) := c in
    amem str_eqb field sch = true
    /\ (exists o, aget str_eqb op operators = Some o /\ (value = PNone -> o = OEq \/ o = ONe))
    /\ value <> PList [].
  Definition cond_holds (row : str -> option (cell V)) (c : cond V) : Prop :=
    let '(field, op, value) := c in exists x o, row field = Some x /\ aget str_eqb op operators = Some o /\ satisfied x o value.
  (** all conditions of one select *)
  Definition all_hold (sch : schema) (row : str -> option (cell V)) (cs : list (cond V)) : Prop :=
    forall c, In c cs -> effective sch c -> cond_holds row c.
  Definition some_effective (sch : schema) (cs : list (cond V)) : Prop := exists c, In c cs /\ effective sch c.

  (** An order comparison on an array column (with a value). *)
  Definition array_order (sch : schema) (c : cond V) : Prop :=
    let '(field, op, value) := c in
    aget str_eqb field sch = Some true /\ value <> PNone /\ value <> PList [] /\ exists o, aget str_eqb op operators = Some o /\ o <> OEq /\ o <> ONe.

  (** The rows of the table have the types of the schema. *)
  Definition typed (sch : schema) (row : str -> option (cell V)) : Prop :=
    forall f, match aget str_eqb f sch with
              | Some false => exists x, row f = Some (CScalar x)
              | Some true => exists x, row f = Some (CArray x)
              | None => True
              end.
  (** [res] are exactly the rows for which [P] holds, each as often as in [rows], in that order. *)
  Inductive selects {A} (P : A -> Prop) : list A -> list A -> Prop :=
  | sel_nil : selects P [] []
  | sel_in x l r : P x -> selects P l r -> selects P (x :: l) (x :: r)
  | sel_out x l r : ~ P x -> selects P l r -> selects P (x :: l) r.
End Spec.
