(** Specification of C90: the quantities of ADO's mixture, as functions of the key, in exact arithmetic. *)
From Verif Require Import Base UtilsModel DynModel SpecDyn SpecAdoFit.
From Coq Require Import QArith Qminmax.
Open Scope Z_scope.

(** The sum of [f] over the first [n] keys, and [f] divided by it. *)
Definition total (n : nat) (f : nat -> Q) : Q := qsum (map f (seq 0 n)).
Definition part (n : nat) (f : nat -> Q) (k : nat) : Q := (f k / total n f)%Q.
(** A weighted mean of [a] (weight [w]) and [b]. *)
Definition mean (w : Q) (a b : nat -> Q) (k : nat) : Q := (w * a k + (1 - w) * b k)%Q.
(** How much the loss of key [k] still falls ([slope] is the derivative of its law, [h] its credit, [mu] its prior). *)
Definition demand (pow : Q -> Q) (mu h slope : nat -> Q) (k : nat) : Q := Qmax (mu k * pow (h k) * - slope k) 0.
(** The preference distribution: demand, normalised; without any demand the prior, divided by the number of keys. *)
Definition preference (n : nat) (pow : Q -> Q) (mu h slope : nat -> Q) (k : nat) : Q :=
  if Qle_bool (total n (demand pow mu h slope)) 0 then (mu k / inject_Z (Z.of_nat n))%Q else part n (demand pow mu h slope) k.
(** [p] raised to [least] for the keys sampled so far. *)
Definition raised (least : Q) (sampled : nat -> bool) (p : nat -> Q) (k : nat) : Q := if sampled k then Qmax (p k) least else p k.
Definition sampled (l : list fb) (k : nat) : bool := 0 <? zsum (counts_of k l).
(** The derivative of the law of key [k] at its tokens up to step [T] (from 1). *)
Definition slope_at {P} (deriv : P -> Q -> Q) (same : bool) (d : option Z) (l : list fb) (laws : list P) (T : nat) (k : nat) : Q :=
  match nth_error laws k with
  | Some p => let x := in_samples (fun x => x) d (upto same l (T - 1) k) in if Qle_bool x 0 then 0%Q else deriv p x
  | None => 0%Q
  end.

(** The client works with a new mixture at step [T] (from 1): the id is newer than all before. *)
Definition renewed (l : list fb) (T : nat) : Prop := newest (fb_mixture (msg l (T - 1))) (map fb_mixture (firstn (T - 1) l)).
(** The last such step from [start] on and before [T]; 0 if there is none. *)
Definition last_renewal (start : Z) (l : list fb) (T : nat) (U : Z) : Prop :=
  (forall t, (t < T)%nat -> start <= Z.of_nat t -> renewed l t -> Z.of_nat t <= U)
  /\ (U = 0 \/ exists t, U = Z.of_nat t /\ (t < T)%nat /\ start <= U /\ renewed l t).

(** How the credit [h1] after step [T] follows from the credit [h0] before it and the mixture [pi] of the step. *)
Definition credited (v : variant) (gamma1 : Q) (start : Z) (l : list fb) (T : nat) (n : nat) (pi h0 h1 : nat -> Q) : Prop :=
  match v with
  | Vanilla | AdjustedV3 => forall k, (k < n)%nat -> h1 k = mean gamma1 pi h0 k
  | AdjustedV1 => (renewed l T -> forall k, (k < n)%nat -> h1 k = mean gamma1 pi h0 k) /\ (~ renewed l T -> forall k, (k < n)%nat -> h1 k = h0 k)
  | AdjustedV2 => (renewed l T -> exists U, last_renewal start l T U /\ forall k, (k < n)%nat -> (h1 k == mean (1 - Qpower (1 - gamma1) (Z.of_nat T - U)) pi h0 k)%Q)
                  /\ (~ renewed l T -> forall k, (k < n)%nat -> h1 k = h0 k)
  | OtherVariant => False
  end.
(** ** The quantities of the specification, step by step *)
Section Spec.
  Variables (cfg : config) (pow : Q -> Q) (P : Type) (deriv : P -> Q -> Q).
  (** The prior, the messages, the laws in force after every step, and the credits and averages after every step. *)
  Variables (mu : nat -> Q) (l : list fb) (laws : nat -> list P) (h b : nat -> nat -> Q).
  (** The keys known at step [T]; the preference of step [T]; the mixture of step [T], before and after the minimum is enforced. *)
  Definition keys_at (T : nat) : nat := widest (firstn T l).
  Definition demand_at (T : nat) : nat -> Q := demand pow mu (h (T - 1)) (slope_at deriv (c_same_step cfg) (c_normalizer cfg) (firstn T l) (laws T) T).
  Definition preference_at (T : nat) : nat -> Q := preference (keys_at T) pow mu (h (T - 1)) (slope_at deriv (c_same_step cfg) (c_normalizer cfg) (firstn T l) (laws T) T).
  Definition policy_at (T : nat) : nat -> Q := part (keys_at T) (mean (c_gamma2 cfg) (preference_at T) (b (T - 1))).
  Definition mixture_at (T : nat) : nat -> Q := part (keys_at T) (raised (c_delta_min cfg) (sampled (firstn T l)) (policy_at T)).
  (** The weight of step [T] in the average. *)
  Definition weight_at (T : nat) : Q := (1 / (inject_Z (Z.of_nat T) + 1))%Q.
  (** [h] and [b] start as the prior and follow the mixture and the preference. *)
  Definition start_with_prior : Prop := forall T k, T = 0%nat \/ Z.of_nat T < c_start cfg -> h T k = mu k /\ b T k = mu k.
  Definition mixed_step (T : nat) : Prop :=
    ~ (total (keys_at T) (mean (c_gamma2 cfg) (preference_at T) (b (T - 1))) == 0)%Q
    /\ ~ (total (keys_at T) (mean (weight_at T) (preference_at T) (b (T - 1))) == 0)%Q
    /\ (forall k, (k < keys_at T)%nat -> b T k = part (keys_at T) (mean (weight_at T) (preference_at T) (b (T - 1))) k)
    /\ (forall k, (keys_at T <= k)%nat -> b T k = 0%Q /\ h T k = 0%Q)
    /\ credited (c_variant cfg) (c_gamma1 cfg) (c_start cfg) l T (keys_at T) (mixture_at T) (h (T - 1)) (h T).
  Definition idle_step (T : nat) : Prop := forall k, h T k = h (T - 1)%nat k /\ b T k = b (T - 1)%nat k.
  (** [answer T] is the mixture handed out at step [T], if any. *)
  Definition follows_averages (answer : nat -> option (list Q)) : Prop :=
    start_with_prior
    /\ forall T, (1 <= T <= length l)%nat ->
         (Z.of_nat T < c_start cfg -> answer T = None)
         /\ (c_start cfg <= Z.of_nat T ->
               (answer T = Some (map (mixture_at T) (seq 0 (keys_at T))) /\ length (laws T) = keys_at T /\ mixed_step T)
               \/ (answer T = None /\ c_variant cfg = AdjustedV3 /\ idle_step T)).
  (** The steps from the first mixture up to [T]; on each of them some loss still falls. *)
  Definition steps_to (T : nat) : list nat := seq (Z.to_nat (c_start cfg)) (S T - Z.to_nat (c_start cfg)).
  Definition progress_to (T : nat) : Prop := forall t, In t (steps_to T) -> (0 < total (keys_at t) (demand_at t))%Q.
End Spec.
