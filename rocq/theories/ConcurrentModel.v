(** Model of several processes that forked one QueryResult (query_result.py 568-596).

    After a fork every process owns a private copy of the object, including its generator; the counter [_index] is an
    [mp.Value] in shared memory.  [__next__] first takes its target from the counter (570-572, under the counter's
    lock), later runs its private generator (574-586, under [_lock]) and possibly decrements the counter (587-594).
    Between the two, other processes may do anything.  The generator part touches only private state, so it and the
    decrement are one step.  Mixture objects are private copies too and constant here. *)
From Verif Require Import Base MixtureKeyModel UtilsModel ChunkGenModel SpecChunk.
Open Scope Z_scope.

(** query_result.py 568-596: a process with its own copy of the generator. *)
Record proc := mkProc { p_qr : qr; p_pending : option Z (** target taken, call not finished *) }.
(** query_result.py 568-575: the shared counter and the processes. *)
Record world := mkWorld { w_count : Z (** _index *); w_procs : nat -> proc }.

(** [Take p]: process [p] enters [__next__] and takes its target; [Finish p]: it runs the rest of the call. *)
(** query_result.py 570-575 (Take, under the lock) and 576-596 (Finish). *)
Inductive event := Take (p : nat) | Finish (p : nat).

(** A finished call: process, target, result. *)
(** query_result.py 568-598: process, chunk index asked for, outcome. *)
Definition result := (nat * Z * nout)%type.

(** Record update; query_result.py 570-575. *)
Definition set_proc (w : world) (p : nat) (c : Z) (x : proc) : world :=
  mkWorld c (fun p' => if Nat.eqb p p' then x else w_procs w p').

(** Record update; query_result.py 570-575. *)
Definition set_count (q : qr) (t : Z) : qr :=
  mkQR (q_idx q) (q_order q) (q_self q) t (q_gen q) (q_nret q) (q_son q).

(** query_result.py 570-572 and 574-596; an event a process cannot do is skipped. *)
Definition wstep (fuel : nat) (h : heap) (ev : event) (w : world) : world * list result :=
  match ev with
  | Take p =>
      match p_pending (w_procs w p) with
      | Some _ => (w, [])
      | None => (set_proc w p (w_count w + 1) (mkProc (p_qr (w_procs w p)) (Some (w_count w))), [])
      end
  | Finish p =>
      match p_pending (w_procs w p) with
      | None => (w, [])
      | Some t =>
          let '(q', o) := qr_next fuel h (set_count (p_qr (w_procs w p)) t) in
          (* [qr_next] starts at count t: what it adds beyond the increment of 570-572 is the decrement of 587-594 *)
          (set_proc w p (w_count w + (q_count q' - (t + 1))) (mkProc q' None), [(p, t, o)])
      end
  end.

(** query_result.py 568-596: any interleaving of the processes. *)
Fixpoint wrun (fuel : nat) (h : heap) (evs : list event) (w : world) : world * list result :=
  match evs with
  | [] => (w, [])
  | ev :: evs' => let '(w1, r1) := wstep fuel h ev w in
                  let '(w2, r2) := wrun fuel h evs' w1 in (w2, r1 ++ r2)
  end.

(** All processes right after the fork of [q]. *)
(** query_result.py 43-92 after a fork: every process starts with the same QueryResult. *)
Definition forked (q : qr) : world := mkWorld (q_count q) (fun _ => mkProc q None).
