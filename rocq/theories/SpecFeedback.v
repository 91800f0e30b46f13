(** What feedback should do to the mixture of a job, in terms of the calls alone (C66). *)
From Coq Require Import QArith.
From Verif Require Import Base MixtureKeyModel UtilsModel ChunkGenModel ClientModel MixtureModel DynModel FeedbackModel.
Open Scope Z_scope.

(** The mixture id a process is training with, from the events so far: the largest id of a chunk one of its workers
    started since one of its workers last ended; none before the first. *)
Definition live_step (e : fevent) (ids : Z -> option Z) : Z -> option Z :=
  match e with
  | FWorker who (WChunk _ i) => fun p => if p =? who then if i <? 0 then ids p else Some (match ids p with Some j => Z.max i j | None => i end) else ids p
  | FWorker who (WEnd _) => fun p => if p =? who then None else ids p
  | _ => ids
  end.
(** The messages that should reach the mixture: those of calls by processes with ranks (0, 0), with the mixture id they
    train with. *)
Fixpoint sent (ids : Z -> option Z) (evs : list fevent) : list message :=
  match evs with
  | [] => []
  | e :: evs' =>
      match e with
      | FCall who c => if (c_dp c =? 0) && (c_tp c =? 0) && (0 <=? c_steps c)
                       then match ids who with Some i => [Message (c_steps c) i (c_losses c) (c_counts c)] | None => [] end else []
      | _ => []
      end ++ sent (live_step e ids) evs'
  end.
(** The same with the key ids the query tells the mixture, in order. *)
Fixpoint told (ids : Z -> option Z) (evs : list fevent) : list (message + list (mkey * Z)) :=
  match evs with
  | [] => []
  | e :: evs' =>
      match e with
      | FCall who c => if (c_dp c =? 0) && (c_tp c =? 0) && (0 <=? c_steps c)
                       then match ids who with Some i => [inl (Message (c_steps c) i (c_losses c) (c_counts c))] | None => [] end else []
      | FIds k => [inr k]
      | _ => []
      end ++ told (live_step e ids) evs'
  end.
(** Events that say something about losses: calls of ranks (0, 0) with losses and counts; and the key ids. *)
Definition matters (e : fevent) : bool :=
  match e with
  | FCall _ c => (c_dp c =? 0) && (c_tp c =? 0) && match c_losses c, c_counts c with Some _, Some _ => true | _, _ => false end
  | FOther _ _ => false
  | FWorker _ _ | FIds _ => true
  end.
(** Other jobs are other jobs. *)
Definition foreign (job : str) (e : fevent) : Prop := match e with FOther j _ => j <> job | _ => True end.
