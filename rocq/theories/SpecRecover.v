(** Reachability, for C67. *)
From Verif Require Import Base MixtureKeyModel UtilsModel ChunkGenModel RecoverModel.

(** [y] is the value of an ordinary attribute of [x] ... *)
Definition attribute (g : graph) (x y : nat) : Prop := exists a, In a (o_attrs (g x)) /\ a_special a = false /\ a_value a = Some y.
(** ... or an item of a list, tuple, set or dict. *)
Definition item (g : graph) (x y : nat) : Prop := match o_kind (g x) with KSeq l | KDict l => In y l | _ => False end.
Definition container (g : graph) (x : nat) : Prop := match o_kind (g x) with KSeq _ | KDict _ => True | _ => False end.
Definition atom (g : graph) (x : nat) : Prop := o_kind (g x) = KAtom.
(** One step from an object to an object: through an attribute, or through an attribute that is a container.  Values
    without attributes of their own (numbers, strings) lead nowhere. *)
Definition leads (g : graph) (x y : nat) : Prop :=
  (attribute g x y /\ ~ container g y /\ ~ atom g y) \/ (exists c, attribute g x c /\ item g c y).
Inductive reaches (R : nat -> nat -> Prop) : nat -> nat -> Prop :=
| reaches_refl x : reaches R x x
| reaches_step x y z : R x y -> reaches R y z -> reaches R x z.
(** The links of Hugging Face datasets. *)
Definition wraps (g : graph) (x y : nat) : Prop := o_ex1 (g x) = Some y \/ o_ex2 (g x) = Some y.
Definition torch_dataset (g : graph) (x : nat) : Prop := o_kind (g x) = KTorch \/ o_kind (g x) = KHfIterable.
Definition hf_dataset (g : graph) (x : nat) : Prop := o_kind (g x) = KHfDataset \/ o_kind (g x) = KHfIterable.
(** All objects that can be reached are among [u]. *)
Definition within (R : nat -> nat -> Prop) (u : list nat) : Prop := forall x y, In x u -> R x y -> In y u.
