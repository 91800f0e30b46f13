(** Model of local training with data loader workers: every worker process owns a private copy of the LocalStub, hence of
    the ChunkDistributor (chunk_distributor.py 29-213) and of the QueryResult; local_stub.py 134-141 streams from the copy.

    Fork (the default on Linux; chunk_distributor.py 105-106 "In the local case, the process is forked"): the copies share
    the counter [_index] in shared memory (ConcurrentModel.v).  Spawn (mixtera_data_collection.py 593-608 "a dataloader
    worker running locally using spawn"): the QueryResult is pickled (query_result.py 600-645) and every copy gets a
    counter of its own.

    Simplifications: the mixtures are private copies and constant; a call of [next] on the generator of a worker's stream
    is two steps, as in ConcurrentModel.v: drawing the number from the counter, and the rest. *)
From Verif Require Import Base MixtureKeyModel UtilsModel ChunkGenModel DistributorModel ConcurrentModel.
Open Scope Z_scope.

(** local_stub.py 134-141 with chunk_distributor.py 191-213: a worker process and its stream. *)
Record lproc := mkLP {
  l_qr : qr;                       (** the private copy of the QueryResult *)
  l_dist : dist rchunk;            (** the private copy of the ChunkDistributor *)
  l_pend : option Z;               (** number drawn, call not finished *)
  l_done : bool                    (** the stream has ended or raised *)
}.

(** query_result.py 568-575: the counter the processes share, and the processes. *)
Record lworld := mkLW { lw_count : Z; lw_procs : nat -> lproc }.

(** What the consumer of a stream sees: a chunk, the end of the stream, an exception. *)
(** chunk_distributor.py 208-213. *)
Inductive lout := LChunk (c : rchunk) | LEnd | LRaise (e : exn).

(** chunk_distributor.py 150-151: outcome of [next(self._query_result)]. *)
Definition to_qout (o : nout) : qout rchunk :=
  match o with NChunk c => QChunk c | NNone => QNone | NStop => QStop | NErr e => QErr e end.

(** chunk_distributor.py 208-213: StopIteration of next_chunk_for ends the stream, other exceptions leave it. *)
Definition to_lout (d : dout rchunk) : lout :=
  match d with DChunk _ c _ => LChunk c | DStop => LEnd | DErr e => LRaise e end.

(** chunk_distributor.py 208-213: the stream is over after StopIteration or an exception. *)
Definition l_over (o : lout) : bool := match o with LChunk _ => false | _ => true end.

(** Record update; query_result.py 570-575. *)
Definition set_lproc (w : lworld) (p : nat) (c : Z) (x : lproc) : lworld :=
  mkLW c (fun p' => if Nat.eqb p p' then x else lw_procs w p').

(** chunk_distributor.py 141-150: does next_chunk_for ask the query result?  (It does iff its call counter moves.) *)
Definition asks (w : Z) (s : dist rchunk) : bool :=
  negb (Nat.eqb (d_calls (fst (next_chunk_for (fun _ => QNone) 0 0 w true s))) (d_calls s)).

(** chunk_distributor.py 191-213 (one element of the stream of worker [wid p] of group 0, node 0), query_result.py
    568-596.  A step a process cannot do is skipped. *)
Definition lstep (fuel : nat) (h : heap) (wid : nat -> Z) (ev : event) (w : lworld) : lworld * list (nat * lout) :=
  match ev with
  | Take p =>
      let x := lw_procs w p in
      match l_pend x with
      | Some _ => (w, [])
      | None =>
          if l_done x then (w, [])
          else if asks (wid p) (l_dist x)
          then (set_lproc w p (lw_count w + 1) (mkLP (l_qr x) (l_dist x) (Some (lw_count w)) false), [])
          else let '(d', o) := next_chunk_for (fun _ => QNone) 0 0 (wid p) true (l_dist x) in
               (set_lproc w p (lw_count w) (mkLP (l_qr x) d' None (l_over (to_lout o))), [(p, to_lout o)])
      end
  | Finish p =>
      let x := lw_procs w p in
      match l_pend x with
      | None => (w, [])
      | Some t =>
          let '(q', o) := qr_next fuel h (set_count (l_qr x) t) in
          let '(d', o') := next_chunk_for (fun _ => to_qout o) 0 0 (wid p) true (l_dist x) in
          (set_lproc w p (lw_count w + (q_count q' - (t + 1))) (mkLP q' d' None (l_over (to_lout o'))),
           [(p, to_lout o')])
      end
  end.

(** chunk_distributor.py 191-213: any interleaving of the workers. *)
Fixpoint lrun (fuel : nat) (h : heap) (wid : nat -> Z) (evs : list event) (w : lworld) : lworld * list (nat * lout) :=
  match evs with
  | [] => (w, [])
  | ev :: evs' => let '(w1, r1) := lstep fuel h wid ev w in
                  let '(w2, r2) := lrun fuel h wid evs' w1 in (w2, r1 ++ r2)
  end.

(** local_stub.py 150-176 and a fork: the workers' copies of the registered job (distributor [s], query result [q]).
    There are as many processes as one likes: the workers of a second data loader, or of a second pass, are further
    processes forked from the same parent. *)
Definition lforked (q : qr) (s : dist rchunk) : lworld := mkLW (q_count q) (fun _ => mkLP q (fork s) None false).

(** query_result.py 602-645 __getstate__, __setstate__: the generator is dropped, the counter starts at 0, everything
    else (the number of calls made so far included) is kept. *)
Definition unpickled (q : qr) : qr := mkQR (q_idx q) (q_order q) (q_self q) 0 None (q_nret q) (q_son q).

(** Spawned workers: each has a world of its own. *)
(** query_result.py 632-645, chunk_distributor.py 29-90. *)
Definition lspawned (q : qr) (s : dist rchunk) : lworld := mkLW 0 (fun _ => mkLP (unpickled q) (fork s) None false).
