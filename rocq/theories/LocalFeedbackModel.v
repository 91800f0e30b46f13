(** Model of feedback in local training: every process has its own copy of the mixture objects.

    local_stub.py 215-223 process_feedback changes the mixture object of the process it is called in; the trainer calls it
    in the training process (mixtera/core/client: handle of the training loop), the data loader workers stream from copies
    made when they were started (LocalModel.v).

    Simplification: the new contents of the mixture objects are a parameter of the report (they are computed as in
    FeedbackModel.v and DynModel.v); a report is never in the middle of a call of [next] of the same process. *)
From Verif Require Import Base MixtureKeyModel UtilsModel ChunkGenModel DistributorModel ConcurrentModel LocalModel.
Open Scope Z_scope.

(** local_stub.py 215-223: processes, each with its own mixture objects. *)
Record fworld := mkFW { f_heaps : nat -> heap; f_streams : lworld }.

(** local_stub.py 134-141 (a step of a stream), 215-223 (a report made in process [p], leaving the mixtures [h]). *)
Inductive fevent := Work (ev : event) | Report (p : nat) (h : heap).

(** chunk_distributor.py 191-213: the process that does a step. *)
Definition ev_proc (ev : event) : nat := match ev with Take p => p | Finish p => p end.

(** local_stub.py 134-141, 215-223. *)
Definition fstep (fuel : nat) (wid : nat -> Z) (ev : fevent) (w : fworld) : fworld * list (nat * lout) :=
  match ev with
  | Work e => let '(lw, r) := lstep fuel (f_heaps w (ev_proc e)) wid e (f_streams w) in (mkFW (f_heaps w) lw, r)
  | Report p h => (mkFW (fun p' => if Nat.eqb p p' then h else f_heaps w p') (f_streams w), [])
  end.

(** local_stub.py 134-141, 215-223: any interleaving. *)
Fixpoint frun (fuel : nat) (wid : nat -> Z) (evs : list fevent) (w : fworld) : fworld * list (nat * lout) :=
  match evs with
  | [] => (w, [])
  | ev :: evs' => let '(w1, r1) := fstep fuel wid ev w in
                  let '(w2, r2) := frun fuel wid evs' w1 in (w2, r1 ++ r2)
  end.

(** local_stub.py 150-176 and a fork: every process starts with the mixtures of the parent. *)
Definition fforked (h : heap) (q : qr) (s : dist rchunk) : fworld := mkFW (fun _ => h) (lforked q s).

(** local_stub.py 150-176 without data loader workers: the training process (0) streams itself. *)
Definition fmain (h : heap) (q : qr) (s : dist rchunk) : fworld :=
  mkFW (fun _ => h) (mkLW (q_count q) (fun _ => mkLP q s None false)).

(** The training process alternates between asking for a chunk and reporting. *)
(** local_stub.py 134-141, 215-223. *)
Inductive mevent := MAsk | MReport (h : heap).

(** chunk_distributor.py 191-213, local_stub.py 215-223: what they are in terms of the processes. *)
Definition main_event (ev : mevent) : list fevent :=
  match ev with MAsk => [Work (Take 0); Work (Finish 0)] | MReport h => [Report 0 h] end.
