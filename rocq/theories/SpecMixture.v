(** Specification vocabulary for mixtures (C13-C15, C46), written without the model's helpers. *)
From Verif Require Import Base MixtureKeyModel UtilsModel MixtureModel.
From Coq Require Import QArith.
Open Scope Z_scope.

(** The paths from the root of a hierarchical mixture to its leaves: the properties met on the way, outermost first,
    and the product of the weights met on the way. *)
Fixpoint paths (n : mnode) : list (mkey * Q) :=
  match n with
  | Node name comps =>
      flat_map (fun c => match c with
                         | Comp values weight None => [([(name, values)], weight)]
                         | Comp values weight (Some sub) => map (fun p => ((name, values) :: fst p, (weight * snd p)%Q)) (paths sub)
                         end) comps
  end.

(** On every level the weights are non-negative and sum to one. *)
Definition weight_of (c : mcomp) : Q := match c with Comp _ w _ => w end.
Fixpoint weights_ok (n : mnode) : Prop :=
  match n with
  | Node _ comps =>
      (qsum (map weight_of comps) == 1)%Q
      /\ fold_right (fun c P => (match c with Comp _ w sub => (0 <= w)%Q /\ match sub with Some s => weights_ok s | None => True end end) /\ P)
                    True comps
  end.

(** The user's schedule [l] prescribes its [i]-th entry at step [s]: the one with the largest start step not above
    [s], the later one if two start together; before all start steps, the earliest (first) one. *)
Definition prescribed (l : list (Z * mixture)) (s : Z) (i : nat) (e : Z * mixture) : Prop :=
  nth_error l i = Some e /\
  ((fst e <= s /\ forall j e', nth_error l j = Some e' -> fst e' <= s -> fst e' < fst e \/ (fst e' = fst e /\ (j <= i)%nat))
   \/ ((forall j e', nth_error l j = Some e' -> s < fst e')
       /\ forall j e', nth_error l j = Some e' -> fst e < fst e' \/ (fst e = fst e' /\ (i <= j)%nat))).

(** [s] is the largest of the numbers in [l]. *)
Definition largest (l : list Z) (s : Z) : Prop := In s l /\ forall t, In t l -> t <= s.
