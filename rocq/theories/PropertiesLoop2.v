(** C88: waiting for a job that is still being registered holds up the other clients.  Model: LoopModel.v. *)
From Coq Require Import ZArith List Bool Lia.
Import ListNotations.
From Verif Require Import LocalWaitModel PropertiesLocalWait LoopModel.
Open Scope Z_scope.

(** A chunk request for a job whose query takes [T] (10 to 60 seconds) to execute gets its chunk; the execution runs in a thread of its own, but the
    request waits for it in the event loop, so another client's question sent a millisecond later, and answered in no time, fails. *)
Theorem C88_slow_job_refuted : forall T (ds : list delays) lag late work, 10001 <= T <= 60000 -> (122 <= length ds)%nat ->
  forall k, (k = DatasetExists \/ k = ListDatasets \/ k = DatasetStatus \/ k = RemoveDataset) ->
  exists e1 e2, answered [Asg T 7 tt] 0 [Req 0 NextChunk 7 0 work lag ds late; Req 1 k 0 0 0 0 [] 0] = Some [e1; e2] /\
    T + Z.of_nat work <= e1 /\ e1 <= e2 /\ in_time (Req 1 k 0 0 0 0 [] 0) e2 = false.
Proof.
  intros T ds lag late work HT L k K.
  destruct (C87_job_lookup [Asg T 7 tt] 7 0 lag ds late L) as (g & e & E & S & R).
  destruct R as [v ->].
  { exists (Asg T 7 tt). cbn. split; [auto|]. split; [reflexivity|lia]. }
  assert (Te : T <= e).
  { destruct S as (h1 & a & h2 & Q & _ & Ta & _). destruct h1 as [|x h1]; [injection Q as <- _; exact Ta|]. destruct h1; discriminate. }
  exists (e + Z.of_nat work), (e + Z.of_nat work).
  assert (H2 : handled [Asg T 7 tt] (Req 1 k 0 0 0 0 [] 0) (Z.max (e + Z.of_nat work) 1) = Some (e + Z.of_nat work)).
  { unfold handled. destruct K as [Ek|[Ek|[Ek|Ek]]]; rewrite Ek; cbn; f_equal; lia. }
  cbn [answered rq_at]. unfold handled at 1. cbn [rq_kind background needs_job rq_job rq_lag rq_ds rq_late rq_io rq_work].
  change (Z.max 0 0) with 0. rewrite E. change (Z.of_nat 0) with 0. rewrite Z.add_0_r, H2. split; [reflexivity|]. split; [lia|]. split; [lia|].
  unfold in_time. apply Z.ltb_ge. destruct K as [Ek|[Ek|[Ek|Ek]]]; rewrite Ek; cbn; lia.
Qed.
Print Assumptions C88_slow_job_refuted.

(** A query that takes 30 seconds: the chunk comes after 30.08 seconds, the other client's question is answered then. *)
Example C88_slow_example :
  answered [Asg 30000 7 tt] 0 [Req 0 NextChunk 7 0 80 0 (repeat (Delays 0 0 0) 122) 0; Req 1 ListDatasets 0 0 0 0 [] 0] = Some [30080; 30080].
Proof. vm_compute. reflexivity. Qed.
