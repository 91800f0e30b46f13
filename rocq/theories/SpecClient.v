(** Specification vocabulary for the clients (C43, C44). *)
From Verif Require Import Base MixtureKeyModel ClientModel.
Open Scope Z_scope.

(** How many executions of [job] were accepted. *)
Fixpoint accepted {Q M Dst W A : Type} (job_of : Q -> str) (job : str) (ops : list (lop Q M Dst W A)) (rs : list lres) : nat :=
  match ops, rs with
  | Execute q _ _ _ _ :: ops', RExec (inl true) :: rs' => (if list_eq_dec Z.eq_dec (job_of q) job then 1 else 0) + accepted job_of job ops' rs'
  | _ :: ops', _ :: rs' => accepted job_of job ops' rs'
  | _, _ => 0
  end%nat.

(** The mixture ids of the chunks started in a history, and the largest. *)
Definition started (evs : list wevent) : list Z := flat_map (fun e => match e with WChunk _ m => [m] | WEnd _ => [] end) evs.
Definition is_largest (o : option Z) (l : list Z) : Prop :=
  match o with None => l = [] | Some m => In m l /\ Forall (fun x => x <= m) l end.
Definition no_end (evs : list wevent) : Prop := Forall (fun e => match e with WEnd _ => False | _ => True end) evs.
(** "Not yet known" is below every id. *)
Definition id_le (a b : option Z) : Prop := match a, b with None, _ => True | Some x, Some y => x <= y | Some _, None => False end.
