(** Model of mixtera/core/client/local/local_stub.py (jobs) and of the mixture id kept by
    mixtera/core/client/mixtera_client.py.

    A query has a job id; executing it (or finding it in the cache) yields a result or raises, and may change the rest
    of the client (metadata, caches, logs: [W]).  A chunk distributor is abstract ([Dst]); what is done with it (next
    chunks, checkpoints, feedback) is an arbitrary function on it. *)
From Verif Require Import Base MixtureKeyModel.
Open Scope Z_scope.

(** local_stub.py 71-97, 148-182, 194-214: kinds of exceptions raised. *)
Inductive cexn := CAssertion | CRuntime | COther.

Section Local.
  Context {Q M R Dst W A : Type}.
  Variable job_of : Q -> str.
  (** local_stub.py 81-93: QueryCache.get_queryresults_if_cached or Query.execute and QueryCache.cache_query. *)
  Variable results : Q -> M -> W -> W * (R + cexn).
  (** chunk_distributor.py ChunkDistributor(...), ChunkDistributor.from_checkpoint(...) *)
  Variable new_distributor : Z -> Z -> Z -> R -> str -> Dst.
  Variable from_checkpoint : str -> str -> W -> Dst + cexn.
  Variable mixture_of : Dst -> M.

  (** local_stub.py 22-41. *)
  Record local := mkLocal { lo_world : W; lo_jobs : list (str * (Dst * option Q * M)) }.   (* self._training_query_map *)

  (** local_stub.py 148-172 _register_query *)
  Definition register_query (q : Q) (m : M) (dp nodes workers : Z) (r : R) (s : local) : local * (bool + cexn) :=
    if amem str_eqb (job_of q) (lo_jobs s) then (s, inl false)
    else (mkLocal (lo_world s) (aset str_eqb (job_of q) (new_distributor dp nodes workers r (job_of q), Some q, m) (lo_jobs s)), inl true).
  (** local_stub.py 71-96 execute_query *)
  Definition execute_query (q : Q) (m : M) (dp nodes workers : Z) (s : local) : local * (bool + cexn) :=
    if negb ((0 <? dp) && (0 <? nodes) && (0 <=? workers)) then (s, inr CAssertion)                    (* 72 *)
    else if amem str_eqb (job_of q) (lo_jobs s) then (s, inl false)                                    (* 74-78 *)
    else match results q m (lo_world s) with
         | (w, inr e) => (mkLocal w (lo_jobs s), inr e)
         | (w, inl r) => register_query q m dp nodes workers r (mkLocal w (lo_jobs s))
         end.
  (** local_stub.py 194-213 restore_checkpoint *)
  Definition restore_checkpoint (job chk : str) (s : local) : local * (unit + cexn) :=
    let old := aget str_eqb job (lo_jobs s) in
    match from_checkpoint job chk (lo_world s) with
    | inr e => (s, inr e)
    | inl d => (mkLocal (lo_world s)
                  (aset str_eqb job (d, match old with Some (_, q, _) => q | None => None end, match old with Some (_, _, m) => m | None => mixture_of d end) (lo_jobs s)), inl tt)
    end.
  (** local_stub.py 174-182 and the methods that use the job's distributor: 133-146, 184-192, 215-223.  An unknown job
      raises (after a wait). *)
  Definition use_job (job : str) (f : Dst -> W -> Dst * W * A) (s : local) : local * (A + cexn) :=
    match aget str_eqb job (lo_jobs s) with
    | None => (s, inr CRuntime)
    | Some (d, q, m) => let '(d', w', a) := f d (lo_world s) in (mkLocal w' (aset str_eqb job (d', q, m) (lo_jobs s)), inl a)
    end.

  (** local_stub.py 71-97, 133-147, 184-223: the calls that touch the jobs. *)
  Inductive lop :=
  | Execute (q : Q) (m : M) (dp nodes workers : Z)
  | Restore (job chk : str)
  | Use (job : str) (f : Dst -> W -> Dst * W * A)
  | World (f : W -> W).                                     (* datasets, properties, parsers: the job map is not involved *)
  (** local_stub.py 71-97: what execute_query returns or raises; other results are not observed. *)
  Inductive lres := RExec (r : bool + cexn) | ROther.
  (** local_stub.py 71-97, 133-147, 184-223: one call. *)
  Definition lstep (o : lop) (s : local) : local * lres :=
    match o with
    | Execute q m dp nodes workers => let '(s', r) := execute_query q m dp nodes workers s in (s', RExec r)
    | Restore job chk => (fst (restore_checkpoint job chk s), ROther)
    | Use job f => (fst (use_job job f s), ROther)
    | World f => (mkLocal (f (lo_world s)) (lo_jobs s), ROther)
    end.
  (** local_stub.py 71-97, 133-147, 184-223: a sequence of calls. *)
  Fixpoint lrun (ops : list lop) (s : local) : local * list lres :=
    match ops with
    | [] => (s, [])
    | o :: ops' => let '(s1, r) := lstep o s in let '(s2, rs) := lrun ops' s1 in (s2, r :: rs)
    end.

  (** ** Two threads in execute_query at once: the check and the insertion are separate steps (the lock of
      local_stub.py 150 covers the assignment only).  [Check] = 74-95 and the check of 145; [Insert] = 149-157. *)
  Inductive tstep := Check (t : nat) (q : Q) (m : M) | Insert (t : nat).
  (** local_stub.py 71-97 called from several threads (server.py 95): calls whose job check is done but not their registration. *)
  Record threads := mkThreads { th_local : local; th_pending : list (nat * (Q * M * R)); th_done : list (nat * bool) }.
  (** local_stub.py 71-97 and 148-172: check and registration as separate steps. *)
  Definition thread_step (x : tstep) (s : threads) : threads :=
    match x with
    | Check t q m =>
        if amem str_eqb (job_of q) (lo_jobs (th_local s)) then mkThreads (th_local s) (th_pending s) ((t, false) :: th_done s)
        else match results q m (lo_world (th_local s)) with
             | (w, inr _) => mkThreads (mkLocal w (lo_jobs (th_local s))) (th_pending s) (th_done s)
             | (w, inl r) => mkThreads (mkLocal w (lo_jobs (th_local s))) ((t, (q, m, r)) :: th_pending s) (th_done s)
             end
    | Insert t =>
        match aget Nat.eqb t (th_pending s) with
        | Some (q, m, r) => mkThreads (mkLocal (lo_world (th_local s)) (aset str_eqb (job_of q) (new_distributor 1 1 0 r (job_of q), Some q, m) (lo_jobs (th_local s))))
                                      (adel Nat.eqb t (th_pending s)) ((t, true) :: th_done s)
        | None => s
        end
    end.
End Local.
Arguments local : clear implicits.
Arguments lop : clear implicits.

(** ** mixtera_client.py: the mixture id shared by all workers of a client (an mp.Value) *)
Inductive wevent :=
| WChunk (worker : nat) (mixture_id : Z)        (* 279-283: a worker starts a chunk *)
| WEnd (worker : nat).                          (* 291-293: a worker's stream is over *)
(** mixtera_client.py 138: initially -1 *)
Definition id_init : Z := -1.
(** mixtera_client.py 278-292: a chunk started, or the stream ended. *)
Definition id_step (e : wevent) (v : Z) : Z :=
  match e with WChunk _ mid => Z.max mid v | WEnd _ => -1 end.
(** mixtera_client.py 138, 278-292. *)
Definition id_after (evs : list wevent) : Z := fold_left (fun v e => id_step e v) evs id_init.
(** mixtera_client.py 142-149 current_mixture_id *)
Definition current_mixture_id (v : Z) : option Z := if v <? 0 then None else Some v.
