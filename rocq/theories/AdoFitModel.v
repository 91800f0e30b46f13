(** Model of what ADO hands to the curve fit of one domain: algo/ado/ado.py 648-815 (fit_scaling_law_for_domain).
    The optimiser itself (scipy's minimize on the grid of starting points, 757-795) and scipy's savgol_filter are
    parameters; numpy rounding is [fl].  Left out: shared memory (the copy 372-383 is the array itself; every process
    writes to a column of its own), the logging. *)
From Verif Require Import Base UtilsModel ChunkGenModel DynModel.
From Coq Require Import QArith.
Open Scope Z_scope.

(** ado.py 37-52: the parameters used by the fit (the others are in DynModel.config). *)
Record fitcfg := mkFit { f_savgol : bool; f_sub : Z; f_ignore : Z }.
(** ado.py 90-91: the check in __init__ (ValueError otherwise). *)
Definition ado_accepts (start : Z) (fc : fitcfg) : bool := negb (start <=? f_ignore fc).

(** ado.py 675-676: [counts_over_time[:, k]]. *)
Definition column {A} (z : A) (k : nat) (rows : list (list A)) : list A := map (fun r => nth k r z) rows.
(** ado.py 680: np.cumsum. *)
Fixpoint cumsum (from : Z) (l : list Z) : list Z := match l with [] => [] | c :: l' => (from + c) :: cumsum (from + c) l' end.
(** ado.py 691-693: a zero loss is replaced by the value before it; the first one stays. *)
Fixpoint impute_after (prev : Q) (l : list Q) : list Q :=
  match l with [] => [] | x :: l' => let y := if Qeq_bool x 0 then prev else x in y :: impute_after y l' end.
(** ado.py 691-693. *)
Definition impute (l : list Q) : list Q := match l with [] => [] | x :: l' => x :: impute_after x l' end.
(** ado.py 736-738: [l[::n]]. *)
Fixpoint every_from {A} (n i : nat) (l : list A) : list A :=
  match l with
  | [] => []
  | x :: l' => match i with O => x :: every_from n (n - 1) l' | S i' => every_from n i' l' end
  end.

Section Fit.
  Variable fl : Q -> Q.
  (** scipy.signal.savgol_filter with this window length and polyorder 3. *)
  Variable smooth : nat -> list Q -> list Q.
  Variable same_step : bool.
  Variable normalizer : option Z.
  Variable fc : fitcfg.

  (** ado.py 705-712: the window of the filter, and whether it is applied. *)
  Definition window (n : nat) : nat := let w := Nat.min 101 n in if Nat.even w then (w - 1)%nat else w.
  (** ado.py 704-714: smoothing the losses. *)
  Definition smoothed (l : list Q) : list Q :=
    if f_savgol fc && Nat.ltb 3 (window (length l)) then smooth (window (length l)) l else l.
  (** ado.py 752-755: tokens to samples. *)
  Definition per_sample (x : Z) : Q :=
    match normalizer with Some d => if 1 <? d then fl (inject_Z x / inject_Z d)%Q else inject_Z x | None => inject_Z x end.

  (** ado.py 675-755: the points (step, x, y) of domain [k]; a mask of the wrong length is an IndexError. *)
  Definition fit_points (psc : list (list Z)) (psl : list (list Q)) (k : nat) : res (list (nat * Q * Q)) :=
    let cs := column 0 k psc in
    let ls := column 0%Q k psl in
    if negb (Nat.eqb (length cs) (length ls)) then Err IndexError
    else
      let raw := combine (combine (seq 0 (length cs)) (cumsum 0 cs)) (if same_step then impute ls else ls) in   (* 680-693 *)
      let l1 := if same_step then raw else filter (fun p => qpos (snd p)) raw in                               (* 695-700 *)
      let l2 := combine (map fst l1) (smoothed (map snd l1)) in                                                 (* 703-714 *)
      let l3 := filter (fun p => 0 <? snd (fst p)) l2 in                                                        (* 719-723 *)
      let l4 := filter (fun p => f_ignore fc <? Z.of_nat (fst (fst p))) l3 in                                   (* 726-730 *)
      let l5 := if 1 <? f_sub fc then every_from (Z.to_nat (f_sub fc)) 0 l4 else l4 in                          (* 733-738 *)
      Ok (map (fun p => (fst (fst p), per_sample (snd (fst p)), snd p)) l5).

  (** Parameters of a fit; the result without data (743, [-1, -1, -1]); the optimiser (757-795: parameters or RuntimeError). *)
  Variable P : Type.
  Variable p_few : P.
  Variable optimise : list (Q * Q) -> res P.

  (** ado.py 648-815 for domain [k]; the logarithm of a negative loss makes the objective raise (451-456). *)
  Definition fit_domain (psc : list (list Z)) (psl : list (list Q)) (steps : Z) (k : nat) : res P :=
    match fit_points psc psl k with
    | Err e => Err e
    | Ok [] => Ok p_few                                                                                         (* 742-749 *)
    | Ok pts => if existsb (fun p => qpos (- snd p)) pts then Err RuntimeError
                else optimise (map (fun p => (snd (fst p), snd p)) pts)
    end.
End Fit.
