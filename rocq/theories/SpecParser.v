(** What a well-typed metadata record is. *)
From Coq Require Import String.
From Verif Require Import Base MixtureKeyModel ParserModel.
Open Scope Z_scope.

Definition is_list (v : pval) : Prop := exists l, v = PList l.
Definition allowed (p : mprop) (v : pval) : Prop :=
  match p_options p with
  | NoOptions => False
  | OSet o | OList o => exists s, v = PStr s /\ In s o
  end.
(** A value is right for a property: absent only if the property may be absent; a list exactly if the property takes
    several values; for an enumeration every value is one of the options. *)
Definition well_typed (p : mprop) (v : pval) : Prop :=
  (v = PNone -> p_nullable p = true) /\
  (v <> PNone ->
     (p_multiple p = true <-> is_list v) /\
     (p_dtype p = DEnum -> forall l, v = PList l -> Forall (allowed p) l) /\
     (p_dtype p = DEnum -> ~ is_list v -> allowed p v)).

(** What the caller passed for a property ([None] if nothing), and the value to be recorded: a single value of a
    several-valued property counts as a list of one. *)
Definition passed (kwargs : record) (k : str) : pval := match aget str_eqb k kwargs with Some v => v | None => PNone end.
Definition to_record (p : mprop) (v : pval) : pval :=
  match v with PNone => PNone | PList _ => v | _ => if p_multiple p then PList [v] else v end.

(** A schema: distinct names, none of them reserved; enumerations have options. *)
Definition good_schema (props : list mprop) : Prop :=
  NoDup (map p_name props) /\
  Forall (fun p => p_name p <> lit "file_id" /\ p_name p <> lit "dataset_id" /\ p_name p <> lit "sample_id" /\
                   (p_dtype p = DEnum -> p_options p <> NoOptions)) props.
