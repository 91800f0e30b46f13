(** C88: the clients of a server do not hold up each other.

    Claim: a request is answered before its client gives up, however long other clients' requests compute.
    True of the computations that run in the background (executing a query, registering a dataset, restoring a checkpoint):
    how long they take changes no answer time; and if all requests are short or in the background and the jobs they name are
    registered, everybody is answered in time.  False in two cases: a request that names a job nobody registered stops the
    whole server for a minute, and the calculation of a property stops it for as long as it takes, so that even
    its own client gives up after ten seconds. *)
From Coq Require Import ZArith List Bool Lia.
Import ListNotations.
From Verif Require Import LocalWaitModel PropertiesLocalWait LoopModel.
Open Scope Z_scope.

(** Specification: the kinds of requests whose computation may take long without an effect on others. *)
Definition runs_aside (k : kind) : Prop := k = RegisterQuery \/ k = RegisterDataset \/ k = Restore.

(** Specification: the same request, except that a background computation may take another time. *)
Definition same_but_aside (r r' : request) : Prop :=
  exists w, r' = Req (rq_at r) (rq_kind r) (rq_job r) (rq_io r) w (rq_lag r) (rq_ds r) (rq_late r) /\
            (w = rq_work r \/ runs_aside (rq_kind r)).

(** Specification: the kinds of requests about a running job's data. *)
Definition about_job (k : kind) : Prop := k = MetaResult \/ k = NextChunk \/ k = Checkpoint \/ k = CheckpointCompleted.

(** Specification: a request whose own steps take at most [c] altogether and that does not name a missing job. *)
Definition short {V} (h : history V) (c : nat) (r : request) : Prop :=
  (runs_aside (rq_kind r) /\ (rq_io r <= c)%nat) \/
  (~ about_job (rq_kind r) /\ (rq_work r + rq_io r <= c)%nat) \/
  (about_job (rq_kind r) /\ registered_by h (rq_job r) (rq_at r) /\ (122 <= length (rq_ds r))%nat /\
   (rq_lag r + match rq_ds r with d :: _ => d_ret d | [] => 0 end + rq_late r + rq_work r + rq_io r <= c)%nat).

Section P.
Context {V : Type} (h : history V).

Lemma handled_aside : forall r r' t, same_but_aside r r' -> handled h r' t = handled h r t /\ rq_at r' = rq_at r.
Proof.
  intros r r' t (w & -> & C). split; [|reflexivity]. unfold handled. cbn [rq_kind rq_io rq_work rq_job rq_lag rq_ds rq_late].
  destruct C as [->|C]; [reflexivity|]. destruct C as [E|[E|E]]; rewrite E; reflexivity.
Qed.

(** How long queries execute, datasets are registered and checkpoints are restored changes no answer time. *)
Theorem C88_background_partial : forall rs rs' now,
  Forall2 same_but_aside rs rs' -> answered h now rs' = answered h now rs.
Proof.
  intros rs rs' now F. revert now. induction F as [|r r' rs rs' A F IH]; intros now; [reflexivity|].
  cbn [answered]. destruct (handled_aside r r' (Z.max now (rq_at r)) A) as [E1 E2]. rewrite E2, E1.
  destruct (handled h r (Z.max now (rq_at r))); [|reflexivity]. rewrite IH. reflexivity.
Qed.

Lemma get_registered : forall j t lag ds late, registered_by h j t -> (1 <= length ds)%nat ->
  exists v, get_job h j t lag ds late = Some (Got v, t + Z.of_nat lag + Z.of_nat (match ds with d :: _ => d_ret d | [] => 0%nat end) + Z.of_nat late).
Proof.
  intros j t lag ds late R L. destruct ds as [|d ds]; [cbn in L; lia|].
  unfold get_job, wait_for_key. cbn [wait_loop].
  assert (M : forall x, t <= x -> present h j x = true).
  { intros x G. apply present_iff. eapply registered_mono; eauto. }
  rewrite M by lia. rewrite M by lia. cbv zeta.
  destruct (lookup h j (t + Z.of_nat lag + Z.of_nat (d_ret d) + Z.of_nat late)) eqn:E; [eauto|].
  exfalso. apply lookup_none in E. apply E. eapply registered_mono; [|exact R]. lia.
Qed.

Lemma handled_short : forall c r t, short h c r -> rq_at r <= t -> exists e, handled h r t = Some e /\ t <= e <= t + Z.of_nat c.
Proof.
  intros c r t S G. unfold handled. destruct S as [(A & B)|[(A & B)|(A & B & C & D)]].
  - destruct A as [E|[E|E]]; rewrite E; cbn [background]; eexists; (split; [reflexivity|lia]).
  - destruct (background (rq_kind r)); [eexists; split; [reflexivity|lia]|].
    destruct (needs_job (rq_kind r)) eqn:N; [|eexists; split; [reflexivity|lia]].
    exfalso. apply A. unfold about_job. destruct (rq_kind r); cbn in N; try discriminate; auto.
  - assert (X : background (rq_kind r) = false /\ needs_job (rq_kind r) = true).
    { destruct A as [E|[E|[E|E]]]; rewrite E; cbn; auto. }
    destruct X as [X1 X2]. rewrite X1, X2.
    destruct (get_registered (rq_job r) t (rq_lag r) (rq_ds r) (rq_late r)) as (v & E); [eapply registered_mono; eauto|lia|].
    rewrite E. eexists. split; [reflexivity|]. destruct (rq_ds r); lia.
Qed.

(** If every request is short or runs aside and names no missing job, then the [i]-th is answered within [i + 1] times the
    longest of their times after it (or the loop) was ready, and in particular in time if there are not too many. *)
Theorem C88_answered_partial : forall rs now c,
  Forall (short h c) rs -> Forall (fun r => now <= rq_at r) rs ->
  (forall i j, (i <= j < length rs)%nat -> rq_at (nth i rs (Req 0 QueryStatus 0 0 0 0 [] 0)) <= rq_at (nth j rs (Req 0 QueryStatus 0 0 0 0 [] 0))) ->
  exists es, answered h now rs = Some es /\ length es = length rs /\
    forall i r, nth_error rs i = Some r -> exists e, nth_error es i = Some e /\
      rq_at r <= e <= rq_at r + Z.of_nat (S i) * Z.of_nat c /\
      (Z.of_nat (length rs) * Z.of_nat c < 10000 -> in_time r e = true).
Proof.
  intros rs now c F G Hs.
  assert (X : forall rs t, Forall (short h c) rs ->
    (forall i j, (i <= j < length rs)%nat -> rq_at (nth i rs (Req 0 QueryStatus 0 0 0 0 [] 0)) <= rq_at (nth j rs (Req 0 QueryStatus 0 0 0 0 [] 0))) ->
    exists es, answered h t rs = Some es /\ length es = length rs /\
    forall i r, nth_error rs i = Some r -> exists e, nth_error es i = Some e /\ rq_at r <= e <= Z.max t (rq_at r) + Z.of_nat (S i) * Z.of_nat c).
  { clear. induction rs as [|r rs IH]; intros t F O.
    - exists []. repeat split; auto. intros i r E. destruct i; discriminate.
    - inversion F as [|? ? Sh F']; subst.
      destruct (handled_short c r (Z.max t (rq_at r)) Sh) as (e & E & B); [lia|].
      destruct (IH e F') as (es & A & L & P).
      { intros i j Q. apply (O (S i) (S j)). cbn. lia. }
      exists (e :: es). cbn [answered]. rewrite E, A. split; [reflexivity|]. split; [cbn; lia|].
      intros i r' N. destruct i as [|i]; cbn in N.
      + injection N as <-. exists e. split; [reflexivity|]. lia.
      + destruct (P i r' N) as (e' & N' & Q). exists e'. split; [exact N'|].
        assert (At : rq_at r <= rq_at r').
        { specialize (O 0%nat (S i)). cbn in O. rewrite (nth_error_nth rs i _ N) in O. apply O.
          assert (i < length rs)%nat by (apply nth_error_Some; congruence). lia. }
        nia. }
  destruct (X rs now F Hs) as (es & A & L & P). exists es. split; [exact A|]. split; [exact L|].
  intros i r N. destruct (P i r N) as (e & N' & Q). exists e. split; [exact N'|].
  assert (Lt : (i < length rs)%nat) by (apply nth_error_Some; congruence).
  rewrite Forall_forall in G. specialize (G r (nth_error_In _ _ N)). split; [lia|].
  intros B. unfold in_time. apply Z.ltb_lt.
  assert (10000 <= patience (rq_kind r)) by (destruct (rq_kind r); cbn; lia). nia.
Qed.

End P.

(** A chunk request that names a job nobody has registered stops the whole server for a minute: another client's question, sent a
    millisecond later and answered in no time, fails, and so would every other. *)
Theorem C88_unknown_job_refuted : forall (ds : list delays) lag late, (122 <= length ds)%nat ->
  forall k, (k = DatasetExists \/ k = ListDatasets \/ k = DatasetStatus \/ k = RemoveDataset) ->
  exists e1 e2, answered (V := unit) [] 0 [Req 0 NextChunk 7 0 0 lag ds late; Req 1 k 0 0 0 0 [] 0] = Some [e1; e2] /\
    60000 < e2 /\ in_time (Req 1 k 0 0 0 0 [] 0) e2 = false.
Proof.
  intros ds lag late L k K.
  destruct (C87_job_lookup (V := unit) [] 7 0 lag ds late L) as (g & e & E & S & _).
  assert (NR : forall t, ~ registered_by (V := unit) [] 7 t) by (intros t (a & [] & _)).
  destruct g as [v| |].
  - exfalso. destruct S as (h1 & a & h2 & Q & _). destruct h1; discriminate.
  - destruct S as [_ S]. exists e, e.
    assert (H2 : handled (V := unit) [] (Req 1 k 0 0 0 0 [] 0) (Z.max e 1) = Some e).
    { unfold handled. destruct K as [Ek|[Ek|[Ek|Ek]]]; rewrite Ek; cbn; f_equal; lia. }
    cbn [answered rq_at]. unfold handled at 1. cbn [rq_kind background needs_job rq_job rq_lag rq_ds rq_late rq_io].
    change (Z.max 0 0) with 0. rewrite E. cbn [Z.of_nat]. rewrite Z.add_0_r, H2. split; [reflexivity|]. split; [lia|].
    unfold in_time. apply Z.ltb_ge. destruct K as [Ek|[Ek|[Ek|Ek]]]; rewrite Ek; cbn; lia.
  - contradiction.
Qed.

(** The calculation of a property, which reads every sample, keeps the server busy: if it takes ten seconds its own client is
    told nothing (its method raises a timeout) although the property is added, and the clients behind it fail as well. *)
Theorem C88_property_refuted : forall w, 10000 <= Z.of_nat w ->
  answered (V := unit) [] 0 [Req 0 AddProperty 0 0 w 0 [] 0; Req 0 ListDatasets 0 0 0 0 [] 0] = Some [Z.of_nat w; Z.of_nat w] /\
  in_time (Req 0 AddProperty 0 0 w 0 [] 0) (Z.of_nat w) = false /\
  in_time (Req 0 ListDatasets 0 0 0 0 [] 0) (Z.of_nat w) = false.
Proof.
  intros w L. split; [ |split; unfold in_time; apply Z.ltb_ge; cbn [rq_at rq_kind patience]; lia].
  cbn [answered]. unfold handled at 1. cbn [rq_kind background needs_job rq_io rq_work rq_at]. cbn [Z.of_nat].
  change (Z.max 0 0) with 0. rewrite Z.add_0_l, Z.add_0_r. unfold handled. cbn [rq_kind background needs_job rq_io rq_work rq_at].
  cbn [Z.of_nat]. rewrite !Z.add_0_r. f_equal. f_equal. f_equal. lia.
Qed.

(** A dataset registration of 900 ms, a chunk request of a registered job and a listing: all answered within 15 ms. *)
Definition c88_queue : list request :=
  [Req 0 RegisterDataset 0 5 900 0 [] 0; Req 3 NextChunk 7 4 6 0 (repeat (Delays 0 0 0) 122) 0; Req 4 ListDatasets 0 1 2 0 [] 0].
Example C88_ex : answered [Asg (-50) 7 tt] 0 c88_queue = Some [5; 15; 18].
Proof. vm_compute. reflexivity. Qed.
Example C88_ex_short : Forall (short [Asg (-50) 7 tt] 10) c88_queue /\ Forall (fun r => 0 <= rq_at r) c88_queue.
Proof.
  split.
  - constructor; [left; split; [right; left; reflexivity|cbn; lia]|].
    constructor; [right; right; split; [right; left; reflexivity|]|].
    { split; [exists (Asg (-50) 7 tt); cbn; split; [auto|split; [reflexivity|lia]]|]. split; [apply Nat.leb_le; reflexivity|]. cbn. lia. }
    constructor; [right; left; split; [intros [E|[E|[E|E]]]; discriminate E|cbn; lia]|constructor].
  - constructor; [cbn; lia|]. constructor; [cbn; lia|]. constructor; [cbn; lia|constructor].
Qed.
Example C88_ex_aside : Forall2 same_but_aside c88_queue
  (Req 0 RegisterDataset 0 5 7 0 [] 0 :: tl c88_queue).
Proof.
  constructor; [exists 7%nat; split; [reflexivity|right; right; left; reflexivity]|].
  constructor; [eexists; split; [reflexivity|left; reflexivity]|]. constructor; [eexists; split; [reflexivity|left; reflexivity]|constructor].
Qed.

Print Assumptions C88_background_partial.
Print Assumptions C88_answered_partial.
Print Assumptions C88_unknown_job_refuted.
Print Assumptions C88_property_refuted.
