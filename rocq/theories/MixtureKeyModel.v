(** Model of mixtera/core/query/mixture/mixture_key.py (MixtureKey) and of the canonical form hashed by
    mixtera/utils/utils.py hash_dict.  Property values are modelled as strings (the values the chunker index holds,
    chunker.cpp 532-556); Python strings are lists of code points. *)
From Verif Require Import Base.

(** A Python string: its code points; mixture_key.py 7-16. *)
Definition str := list Z.
(** Python compares strings code point by code point. *)
(** Python's order on strings; mixture_key.py 42-76. *)
Definition str_cmp : str -> str -> comparison := lex Z.compare.
(** Python's equality of strings; mixture_key.py 21-41. *)
Definition str_eqb : str -> str -> bool := list_eqb Z.eqb.
(** Python's order on strings; mixture_key.py 42-76. *)
Definition str_ltb (a b : str) : bool := match str_cmp a b with Lt => true | _ => false end.

(** mixture_key.py 7-16: [properties : dict[str, list]] in insertion order. *)
Definition mkey := list (str * list str).

(** Leibniz equality of keys as a boolean. *)
(** Equality of the dictionaries, in their order; for canonical keys equality of what utils.py 114-147 hashes. *)
Definition mkey_eqb : mkey -> mkey -> bool :=
  list_eqb (fun a b => str_eqb (fst a) (fst b) && list_eqb str_eqb (snd a) (snd b)).

(** Python's [in]; mixture_key.py 21-41. *)
Definition str_mem (x : str) (l : list str) : bool := existsb (str_eqb x) l.

(** mixture_key.py 31-37: one property of [self] against [other]. *)
Definition prop_matches (other : mkey) (kv : str * list str) : bool :=
  match aget str_eqb (fst kv) other with
  | None => false                                                        (* 33-34 *)
  | Some ov =>
      let inter := existsb (fun x => str_mem x ov) (snd kv) in            (* 36 *)
      if negb inter && ((0 <? Z.of_nat (length (snd kv))) || (0 <? Z.of_nat (length ov))) then false else true (* 37-38 *)
  end.

(** mixture_key.py 21-39: [self == other].  Not symmetric in general. *)
Definition key_eq (self other : mkey) : bool := forallb (prop_matches other) self.

(** mixture_key.py 17-19: [add_property]. *)
Definition add_property (name : str) (vals : list str) (k : mkey) : mkey := aset str_eqb name vals k.

(** [sorted(self.properties.items())]: names are unique, so sorting by name. *)
(** mixture_key.py 54-55: sorted(properties). *)
Definition props_sorted (k : mkey) : mkey := isort (fun a b => str_ltb (fst a) (fst b)) k.

(** utils.py 114-147 hash_dict: names sorted, every value list sorted; the hash is xxh64 of this data. *)
Definition canon (k : mkey) : mkey := map (fun kv => (fst kv, isort str_ltb (snd kv))) (props_sorted k).

(** mixture_key.py 57-66: compare names and numbers of values pairwise; [None] = loop fell through. *)
Fixpoint lt_names (a b : mkey) : option bool :=
  match a, b with
  | (ka, va) :: a', (kb, vb) :: b' =>
      if negb (str_eqb ka kb) then Some (str_ltb ka kb)
      else if negb (Nat.eqb (length va) (length vb)) then Some (Nat.ltb (length va) (length vb))
      else lt_names a' b'
  | _, _ => None
  end.

(** Python's order on lists of strings; mixture_key.py 69-73. *)
Definition strs_cmp : list str -> list str -> comparison := lex str_cmp.
(** Python's order on lists of strings; mixture_key.py 69-73. *)
Definition strs_ltb (a b : list str) : bool := match strs_cmp a b with Lt => true | _ => false end.

(** mixture_key.py 69-73: compare sorted values per name (names are equal here, so pairwise). *)
Fixpoint lt_values (a b : mkey) : option bool :=
  match a, b with
  | (_, va) :: a', (_, vb) :: b' =>
      let sa := isort str_ltb va in
      let sb := isort str_ltb vb in
      if negb (list_eqb str_eqb sa sb) then Some (strs_ltb sa sb) else lt_values a' b'
  | _, _ => None
  end.

(** mixture_key.py 83-85. *)
Definition colon : Z := 58.
(** mixture_key.py 83-85. *)
Definition semicolon : Z := 59.
(** str.join; mixture_key.py 83-85. *)
Fixpoint join (sep : Z) (l : list str) : str :=
  match l with
  | [] => []
  | [x] => x
  | x :: l' => x ++ sep :: join sep l'
  end.
(** mixture_key.py 83-85: [__str__]. *)
Definition key_str (k : mkey) : str :=
  join semicolon (map (fun kv => fst kv ++ colon :: join colon (isort str_ltb (snd kv))) (props_sorted k)).

(** mixture_key.py 43-76: [self < other]. *)
Definition key_ltb (self other : mkey) : bool :=
  if negb (Nat.eqb (length self) (length other)) then Nat.ltb (length self) (length other)   (* 48-51 *)
  else match lt_names (props_sorted self) (props_sorted other) with
       | Some b => b
       | None => match lt_values (props_sorted self) (props_sorted other) with
                 | Some b => b
                 | None => str_ltb (key_str self) (key_str other)          (* 76 *)
                 end
       end.

(** Python's [sorted] on keys. *)
(** sorted(keys) with MixtureKey.__lt__, mixture_key.py 42-76; query_result.py 104, 292. *)
Definition ksort : list mkey -> list mkey := isort key_ltb.
