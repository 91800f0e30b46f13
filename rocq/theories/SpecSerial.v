(** What saving and loading an index should do (C33). *)
From Verif Require Import Base MixtureKeyModel ChunkerModel.
Open Scope Z_scope.

(** A Python dict of dicts of dicts: keys are unique at each level; keys of the outer dict are MixtureKeys, so no two
    are equal as such, and each is itself a dict of properties. *)
Definition is_index (p : pindex) : Prop :=
  NoDup (akeys p) /\ (forall k k', In k (akeys p) -> In k' (akeys p) -> canon k = canon k' -> k = k') /\
  (forall k, In k (akeys p) -> NoDup (akeys k)) /\
  (forall k ds, In (k, ds) p -> NoDup (akeys ds) /\ (forall d fs, In (d, fs) ds -> NoDup (akeys fs))).
(** index[k], index[k][d] and index[k][d][f]; [None] = KeyError *)
Definition at_k (p : pindex) (k : mkey) := aget mkey_eqb k p.
Definition at_kd (p : pindex) (k : mkey) (d : Z) := match at_k p k with None => None | Some ds => aget Z.eqb d ds end.
Definition at_kdf (p : pindex) (k : mkey) (d f : Z) := match at_kd p k d with None => None | Some fs => aget Z.eqb f fs end.
(** Python's [==] on two indexes: the same keys at each level and the same intervals. *)
Definition same_index (p q : pindex) : Prop :=
  (forall k, at_k p k = None <-> at_k q k = None) /\ (forall k d, at_kd p k d = None <-> at_kd q k d = None) /\
  (forall k d f, at_kdf p k d f = at_kdf q k d f).
(** No empty inner dict (an index built by the chunker has none, C32). *)
Definition no_empty (p : pindex) : Prop :=
  forall k ds, In (k, ds) p -> ds <> [] /\ (forall d fs, In (d, fs) ds -> fs <> []).
