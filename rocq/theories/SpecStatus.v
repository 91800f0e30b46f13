(** What a worker's status should be: the index, in its chunk, of the last sample it yielded since it started (0 if none). *)
From Verif Require Import Base MixtureKeyModel UtilsModel ChunkGenModel StatusModel.
Open Scope Z_scope.

Fixpoint position_from (p : Z) (w : Z) (evs : list sev) : Z :=
  match evs with
  | [] => p
  | SStart w' :: evs' => position_from (if w' =? w then 0 else p) w evs'
  | SYield w' i :: evs' => position_from (if w' =? w then i else p) w evs'
  | SEnd _ :: evs' => position_from p w evs'
  end.
Definition position (w : Z) (evs : list sev) : Z := position_from 0 w evs.
Definition worker_of (e : sev) : Z := match e with SStart w | SYield w _ | SEnd w => w end.
Definition ends (e : sev) : Prop := match e with SEnd _ => True | _ => False end.
