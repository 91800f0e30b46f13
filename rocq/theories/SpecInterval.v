(** What the intervals of a query should be (C31). *)
From Verif Require Import Base.
Open Scope Z_scope.

(** [a, b) is a maximal run of sample ids for which [P] holds. *)
Definition maximal_run (P : Z -> Prop) (a b : Z) : Prop :=
  a < b /\ (forall x, a <= x < b -> P x) /\ ~ P (a - 1) /\ ~ P b.
(** Ordered by group, then by interval; intervals of one group neither overlap nor touch. *)
Definition before {G} (lt : G -> G -> bool) (i j : G * (Z * Z)) : Prop :=
  lt (fst i) (fst j) = true \/ (fst i = fst j /\ snd (snd i) < fst (snd j)).
