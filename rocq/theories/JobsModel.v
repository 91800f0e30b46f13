(** Model of several jobs run by one local client (mixtera/core/client/local/local_stub.py 71-95, 134-190, 215-223).

    Mixture objects are shared by reference: [execute_query] stores the object it is given and informs it about the index of
    the query (query_result.py 60-67, 262-276).

    Simplifications: DynamicMixture is left out (as in MixtureModel.v); a query is its chunker index (C72) and the shuffled
    order of its keys (C74); the mixture log and the id map a mixture is told are left out; the stream of a job is asked
    directly (C82). *)
From Verif Require Import Base MixtureKeyModel ChunkGenModel MixtureModel.
From Coq Require Import QArith.
Open Scope Z_scope.

(** local_stub.py 40-60: the mixture objects of the process and the table of jobs. *)
Record jclient := mkJC { jc_objs : ref -> mixture; jc_jobs : nat -> option qr }.

(** query_result.py 313-324: what a query result reads of a mixture object. *)
Definition heap_of (objs : ref -> mixture) : heap :=
  fun r => mkMix (mixture_in_rows (objs r)) (mx_strict (objs r)) (mx_csize (objs r)).

(** local_stub.py 71-95 execute_query, 134-141 the next chunk, 215-223 process_feedback. *)
Inductive jevent :=
| JExecute (j : nat) (idx : index) (order : list mkey) (r : ref)
| JAsk (j : nat)
| JReport (j : nat) (steps : Z).
(** local_stub.py 71-95, 134-141, 215-223: what the caller sees. *)
Inductive jout := JTrue | JFalse | JRaised (e : exn) | JNext (o : nout).

(** local_stub.py 71-223: the job a call is about. *)
Definition jev_job (ev : jevent) : nat := match ev with JExecute j _ _ _ => j | JAsk j => j | JReport j _ => j end.

(** Attribute assignment; query_result.py 262-276. *)
Definition set_obj (r : ref) (m : mixture) (objs : ref -> mixture) : ref -> mixture := fun r' => if r' =? r then m else objs r'.
(** Dict assignment; local_stub.py 165-172. *)
Definition set_job (j : nat) (q : qr) (jobs : nat -> option qr) : nat -> option qr := fun j' => if Nat.eqb j' j then Some q else jobs j'.

(** local_stub.py 71-95, 134-141, 215-223. *)
Definition jstep (fuel : nat) (fl : Q -> Q) (ev : jevent) (s : jclient) : jclient * jout :=
  match ev with
  | JExecute j idx order r =>
      match jc_jobs s j with
      | Some _ => (s, JFalse)                                                                 (* 74-78 *)
      | None =>
          match process_index (depth (jc_objs s r)) fl idx (jc_objs s r) with
          | Err e => (s, JRaised e)
          | Ok m => let objs := set_obj r m (jc_objs s) in
                    (mkJC objs (set_job j (qr_init idx order (heap_of objs) r false) (jc_jobs s)), JTrue)
          end
      end
  | JAsk j =>
      match jc_jobs s j with
      | None => (s, JRaised RuntimeError)                                                     (* 187-190 *)
      | Some q => let '(q', o) := qr_next fuel (heap_of (jc_objs s)) q in
                  (mkJC (jc_objs s) (set_job j q' (jc_jobs s)), JNext o)
      end
  | JReport j steps =>
      match jc_jobs s j with
      | None => (s, JFalse)                                                                   (* 216-218 *)
      | Some q => let r := s_mix (q_self q) in (mkJC (set_obj r (feedback (jc_objs s r) steps) (jc_objs s)) (jc_jobs s), JTrue)
      end
  end.

(** local_stub.py 71-223: a history of calls, with the job each result belongs to. *)
Fixpoint jrun (fuel : nat) (fl : Q -> Q) (evs : list jevent) (s : jclient) : jclient * list (nat * jout) :=
  match evs with
  | [] => (s, [])
  | ev :: evs' => let '(s1, o) := jstep fuel fl ev s in
                  let '(s2, os) := jrun fuel fl evs' s1 in (s2, (jev_job ev, o) :: os)
  end.
