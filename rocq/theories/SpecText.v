(** Vocabulary of C61. *)
From Coq Require Import String.
From Verif Require Import Base MixtureKeyModel ParserModel TextModel.
Open Scope Z_scope.

(** Code points of Python strings. *)
Definition code_point (c : Z) : bool := (0 <=? c) && (c <? 1114112).
Fixpoint valid_pv {F} (v : pv F) : bool :=
  match v with
  | VStr s => forallb code_point s
  | VList l | VTuple l => forallb valid_pv l
  | _ => true
  end.
Fixpoint valid_node {F} (n : node F) : bool :=
  match n with Node cs ch => forallb valid_pv cs && forallb valid_node ch end.
Definition valid_root {F} (r : option (node F)) : bool := match r with Some n => valid_node n | None => true end.

(** What is assumed of the repr of floating point numbers: different ones (nan being one of them) have different texts, made
    of the characters of "0123456789+-.e" and "inf", "nan", with at least one of ".", "e", "n" (so no integer's text). *)
Definition num_char (c : Z) : bool :=
  ((48 <=? c) && (c <=? 57)) || existsb (Z.eqb c) (lit "+-.einfa").
Definition float_repr_ok {F} (frepr : F -> str) : Prop :=
  (forall a b, frepr a = frepr b -> a = b) /\
  (forall a, forallb num_char (frepr a) = true /\ existsb (fun c => existsb (Z.eqb c) (lit ".en")) (frepr a) = true).
