(** Specification vocabulary for dynamic mixing (C39, C40, C59, C60), written without the model's helpers. *)
From Verif Require Import Base UtilsModel.
From Coq Require Import QArith Permutation.
Open Scope Z_scope.

(** One feedback message: losses and counts by key id, and the mixture id it belongs to. *)
Record fb := Fb { fb_losses : list Q; fb_counts : list Z; fb_mixture : Z }.

(** The losses and the counts reported for key [k], in order; an array that is too short reports nothing for [k]. *)
Definition losses_of (k : nat) (l : list fb) : list Q := flat_map (fun f => match nth_error (fb_losses f) k with Some x => [x] | None => [] end) l.
Definition counts_of (k : nat) (l : list fb) : list Z := flat_map (fun f => match nth_error (fb_counts f) k with Some x => [x] | None => [] end) l.
(** As many losses as counts. *)
Definition well_formed (f : fb) : Prop := length (fb_losses f) = length (fb_counts f).
(** The largest number of keys in any message. *)
Definition widest (l : list fb) : nat := fold_right (fun f n => Nat.max (length (fb_losses f)) n) 0%nat l.

(** [float_sum fl d l v]: adding up [l] in some order and with some bracketing, every addition rounded by [fl], at most
    [d] additions deep, gives [v]. *)
Inductive float_sum (fl : Q -> Q) : nat -> list Q -> Q -> Prop :=
| fs_nil d : float_sum fl d [] 0
| fs_one d x : float_sum fl d [x] x
| fs_add d l1 l2 v1 v2 : float_sum fl d l1 v1 -> float_sum fl d l2 v2 -> float_sum fl (S d) (l1 ++ l2) (fl (v1 + v2)%Q)
| fs_perm d l l' v : Permutation l l' -> float_sum fl d l v -> float_sum fl d l' v.

(** One operation rounds with relative error at most [u]. *)
Definition rounds (fl : Q -> Q) (u : Q) : Prop := forall x, (0 <= x)%Q -> ((1 - u) * x <= fl x)%Q /\ (fl x <= (1 + u) * x)%Q.

(** A distribution, exactly. *)
Definition distribution (l : list Q) : Prop := Forall (fun x => (0 <= x)%Q) l /\ (qsum l == 1)%Q.

(** A mixture id newer than every id seen before. *)
Definition newest (i : Z) (before : list Z) : Prop := 0 <= i /\ Forall (fun j => j < i) before.

(** Averaging: the mean loss of key [k] over a history (0 if it was never counted), and its share of the mixture: the
    mean loss divided by the sum of all mean losses; equal shares if all mean losses are 0. *)
Definition mean_loss (k : nat) (l : list fb) : Q :=
  let c := zsum (counts_of k l) in if 0 <? c then (qsum (losses_of k l) / inject_Z c)%Q else 0%Q.
Definition share (k : nat) (l : list fb) : Q :=
  let keys := seq 0 (widest l) in
  let total := qsum (map (fun j => mean_loss j l) keys) in
  let seen := filter (fun j => 0 <? zsum (counts_of j l)) keys in
  if 0 <? zsum (counts_of k l) then if Qeq_bool total 0 then (1 / inject_Z (Z.of_nat (length seen)))%Q else (mean_loss k l / total)%Q else 0%Q.

(** Single precision (or better: double precision, or a mix of the two): one operation rounds with relative error at most
    2^-24 (no underflow) and numbers up to 1 are rounded to numbers up to 1; numpy sums an array with additions at most
    32 + log2 n deep (pairwise summation). *)
Definition floating (fl : Q -> Q) : Prop := rounds fl (1 # 2 ^ 24) /\ (forall x, (0 <= x <= 1)%Q -> (fl x <= 1)%Q).
Definition sums (fl : Q -> Q) (nsum : list Q -> Q) : Prop := forall l, float_sum fl (32 + Nat.log2 (length l)) l (nsum l).
(** A distribution, up to rounding. *)
Definition near_distribution (l : list Q) : Prop := Forall (fun x => (0 <= x)%Q) l /\ (1 - (1 # 2 ^ 17) <= qsum l <= 1 + (1 # 2 ^ 17))%Q.
(** The precision [u] is enough to split chunks of [c] rows among [n] keys. *)
Definition enough (u : Q) (c n : Z) : Prop := (0 <= u <= 1 # 2 ^ 24)%Q /\ (inject_Z n * u <= 1 # 2 ^ 11)%Q /\ ((inject_Z c + 1) * (inject_Z n + 3) * u < 1)%Q.

(** What happens to a DynamicMixture: the map from keys to ids is updated, or feedback arrives. *)
Inductive devent (K : Type) := Ids (key_id : list (K * Z)) | Feedback (f : fb).
Arguments Ids {K}. Arguments Feedback {K}.
(** Ids and keys are distinct; feedback is well formed, with at most [n] keys and non-negative losses. *)
Definition devent_ok {K} (n : Z) (e : devent K) : Prop :=
  match e with
  | Ids key_id => NoDup (map fst key_id) /\ NoDup (map snd key_id)
  | Feedback f => well_formed f /\ Z.of_nat (length (fb_losses f)) <= n /\ Forall (fun x => (0 <= x)%Q) (fb_losses f)
  end.
