(** C87: waiting for a job in a program that uses the local client (no server).

    The table of running jobs is filled by other threads at any time.  [h] is everything that is ever assigned to it, [ds]
    how long each step of the waiting thread takes; both are arbitrary.

    - the answer of [wait_for_execution] is the truth at the moment of the answer;
    - a job registered within the 30 seconds is never missed, and "no" is never said before they are over;
    - the wait ends: after at most 62 looks, at the latest half a second (and the delays of the steps) after the 30 seconds,
      and at the latest half a second after the job appears;
    - a call that needs the job (streaming, metadata, checkpoint: 60 seconds) gets an entry that was registered for this very
      job, the last one at the moment of reading, or fails with "Unknown job" after the 60 seconds if there was none;
      it never dies of a KeyError. *)
From Coq Require Import ZArith List Bool Lia Ascii.
Import ListNotations.
From Verif Require Import LocalWaitModel.
Open Scope Z_scope.

(** Specification: an entry was registered for job [j] by time [t]. *)
Definition registered_by {V} (h : history V) (j t : Z) : Prop :=
  exists a, In a h /\ a_job a = j /\ a_time a <= t.

(** Specification: [v] is the last entry registered for [j] by time [t]. *)
Definition last_entry {V} (h : history V) (j t : Z) (v : V) : Prop :=
  exists h1 a h2, h = h1 ++ a :: h2 /\ a_job a = j /\ a_time a <= t /\ a_val a = v /\
                  forall b, In b h2 -> a_job b = j -> t < a_time b.

(** Specification: every step of the schedule takes at most [L]. *)
Definition steps_within (L : nat) (ds : list delays) : Prop :=
  forall d, In d ds -> (d_clock d <= L)%nat /\ (d_over d <= L)%nat /\ (d_ret d <= L)%nat.

Section P.
Context {V : Type}.
Implicit Types h : history V.

Lemma lookup_none : forall h j t, lookup h j t = None <-> ~ registered_by h j t.
Proof.
  induction h as [|a h IH]; intros j t; cbn.
  - split; [intros _ (b & [] & _)|auto].
  - specialize (IH j t). destruct (lookup h j t) eqn:E.
    + split; [discriminate|]. intros H. exfalso.
      destruct IH as [_ IH]. assert (X : Some v = None); [|discriminate]. apply IH.
      intros (b & Hb & R). apply H. exists b. split; [right|]; auto.
    + destruct IH as [IH _]. specialize (IH eq_refl).
      destruct (Z.eqb_spec (a_job a) j) as [Ej|Ej]; cbn.
      * destruct (Z.leb_spec (a_time a) t) as [Et|Et]; cbn.
        -- split; [discriminate|]. intros H. exfalso. apply H. exists a. cbn; auto.
        -- split; auto. intros _ (b & [<-|Hb] & R1 & R2); [lia|]. apply IH. exists b; auto.
      * split; auto. intros _ (b & [<-|Hb] & R1 & R2); [contradiction|]. apply IH. exists b; auto.
Qed.

Lemma lookup_some : forall h j t v, lookup h j t = Some v -> last_entry h j t v.
Proof.
  induction h as [|a h IH]; intros j t v; cbn; [discriminate|].
  destruct (lookup h j t) eqn:E.
  - intros [= ->]. destruct (IH _ _ _ E) as (h1 & b & h2 & -> & R). exists (a :: h1), b, h2. split; auto.
  - destruct (Z.eqb_spec (a_job a) j) as [Ej|Ej]; cbn; [|discriminate].
    destruct (Z.leb_spec (a_time a) t) as [Et|Et]; cbn; [|discriminate].
    intros [= <-]. exists [], a, h. repeat split; auto.
    intros b Hb Hj. destruct (Z_lt_le_dec t (a_time b)) as [|L]; auto. exfalso.
    apply lookup_none in E. apply E. exists b. auto.
Qed.

Lemma present_iff : forall h j t, present h j t = true <-> registered_by h j t.
Proof.
  intros h j t. unfold present. destruct (lookup h j t) eqn:E.
  - split; auto. intros _. destruct (lookup_some _ _ _ _ E) as (h1 & a & h2 & -> & A & B & _).
    exists a. split; auto. apply in_or_app. right. now left.
  - apply lookup_none in E. split; [discriminate|contradiction].
Qed.

Lemma registered_mono : forall h j t t', t <= t' -> registered_by h j t -> registered_by h j t'.
Proof. intros h j t t' L (a & A & B & C). exists a. repeat split; auto. lia. Qed.

Lemma loop_spec : forall ds h j dl now b e,
  wait_loop h j dl now ds = Some (b, e) ->
  now <= e /\ (b = true <-> registered_by h j e) /\ (b = false -> dl < e).
Proof.
  induction ds as [|d ds IH]; intros h j dl now b e; cbn; [discriminate|].
  destruct (present h j now) eqn:P.
  - intros [= <- <-]. split; [lia|]. split; [apply present_iff|].
    intros F. exfalso. apply present_iff in P.
    assert (X : registered_by h j (now + Z.of_nat (d_ret d))) by (eapply registered_mono; [|exact P]; lia).
    apply present_iff in X. congruence.
  - destruct (Z.leb_spec (now + Z.of_nat (d_clock d)) dl) as [L|L].
    + intros H. apply IH in H. destruct H as (A & B & C). split; [unfold nap in A; lia|]. split; auto.
    + intros [= <- <-]. split; [lia|]. split; [apply present_iff|]. lia.
Qed.

(** The answer is the truth at the moment of the answer; a job registered within the 30 seconds is never missed; a "no" is
    never given before the 30 seconds are over. *)
Theorem C87_wait_answer : forall h j start lag ds b e,
  wait_for_execution h j start lag ds = Some (b, e) ->
  (b = true <-> registered_by h j e) /\
  (registered_by h j (start + 30000) -> b = true) /\
  (b = false -> start + 30000 < e).
Proof.
  intros h j start lag ds b e H. unfold wait_for_execution, wait_for_key in H. apply loop_spec in H.
  destruct H as (A & B & C). split; [exact B|]. split; [|exact C].
  intros R. destruct b; auto. exfalso. specialize (C eq_refl).
  assert (X : registered_by h j e) by (eapply registered_mono; [|exact R]; lia).
  apply B in X. discriminate.
Qed.

Lemma loop_ends : forall n ds h j dl now,
  dl < now + 500 * Z.of_nat n -> (n < length ds)%nat -> exists b e, wait_loop h j dl now ds = Some (b, e).
Proof.
  induction n as [|n IH]; intros ds h j dl now B L.
  - destruct ds as [|d ds]; cbn in L; [lia|]. cbn. destruct (present h j now); [eauto|].
    destruct (Z.leb_spec (now + Z.of_nat (d_clock d)) dl); [|eauto]. exfalso. lia.
  - destruct ds as [|d ds]; cbn [length] in L; [lia|]. cbn [wait_loop]. destruct (present h j now); [eauto|].
    destruct (Z.leb_spec (now + Z.of_nat (d_clock d)) dl); [|eauto].
    apply IH; [unfold nap|]; lia.
Qed.

Lemma loop_time : forall ds h j dl now L b e,
  steps_within L ds -> wait_loop h j dl now ds = Some (b, e) ->
  e <= Z.max now (dl + 500 + Z.of_nat L) + 2 * Z.of_nat L /\
  (forall t, registered_by h j t -> e <= Z.max now (t + 500 + 2 * Z.of_nat L) + 2 * Z.of_nat L).
Proof.
  induction ds as [|d ds IH]; intros h j dl now L b e S; cbn [wait_loop]; [discriminate|].
  destruct (S d (or_introl eq_refl)) as (S1 & S2 & S3).
  destruct (present h j now) eqn:P.
  - intros [= <- <-]. split; [lia|]. intros t _. lia.
  - assert (NR : forall t, registered_by h j t -> now < t).
    { intros t R. destruct (Z_lt_le_dec now t); auto. exfalso.
      assert (X : registered_by h j now) by (eapply registered_mono; eauto). apply present_iff in X. congruence. }
    destruct (Z.leb_spec (now + Z.of_nat (d_clock d)) dl) as [Q|Q].
    + intros H. apply IH with (L := L) in H; [|intros d' Hd'; apply S; now right].
      destruct H as (A & B). split; [unfold nap in A; lia|].
      intros t R. specialize (B t R). specialize (NR t R). unfold nap in B. lia.
    + intros [= <- <-]. split; [lia|]. intros t R. lia.
Qed.

(** The wait ends, whatever other threads do and however long each step takes: after at most 62 looks at the table.  When no
    step takes more than [L], the answer comes within the 30 seconds plus the last sleep plus the steps' own time, and within
    one sleep (plus the steps' own time) of the job's registration. *)
Theorem C87_wait_ends : forall h j start lag ds,
  (62 <= length ds)%nat ->
  exists b e, wait_for_execution h j start lag ds = Some (b, e) /\
    forall L, steps_within L ds -> (lag <= L)%nat ->
      e <= start + 30000 + 500 + 4 * Z.of_nat L /\
      forall t, registered_by h j t -> start <= t -> e <= t + 500 + 4 * Z.of_nat L.
Proof.
  intros h j start lag ds N. unfold wait_for_execution, wait_for_key.
  destruct (loop_ends 61 ds h j (start + 30000) (start + Z.of_nat lag)) as (b & e & E); [lia|lia|].
  exists b, e. split; auto. intros L S G.
  destruct (loop_time _ _ _ _ _ _ _ _ S E) as (A & B).
  split; [lia|]. intros t R T. specialize (B t R). lia.
Qed.

(** A call that needs the job gets the last entry registered for this very job, or "Unknown job" after 60 seconds without one;
    it ends, and it never dies of a KeyError. *)
Theorem C87_job_lookup : forall h j start lag ds late,
  (122 <= length ds)%nat ->
  exists g e, get_job h j start lag ds late = Some (g, e) /\
    match g with
    | Got v => last_entry h j e v
    | Unknown => ~ registered_by h j (start + 60000) /\ start + 60000 < e
    | KeyErr => False
    end /\
    (registered_by h j (start + 60000) -> exists v, g = Got v).
Proof.
  intros h j start lag ds late N. unfold get_job, wait_for_key.
  destruct (loop_ends 121 ds h j (start + 60000) (start + Z.of_nat lag)) as (b & e & E); [lia|lia|].
  rewrite E. apply loop_spec in E. destruct E as (A & B & C). destruct b.
  - destruct (lookup h j (e + Z.of_nat late)) eqn:K.
    + exists (Got v), (e + Z.of_nat late). split; auto. split; [now apply lookup_some|]. eauto.
    + exfalso. apply lookup_none in K. apply K. apply registered_mono with (t := e); [lia|]. now apply B.
  - exists Unknown, e. split; auto. specialize (C eq_refl).
    assert (NR : ~ registered_by h j (start + 60000)).
    { intros R. assert (X : registered_by h j e) by (eapply registered_mono; [|exact R]; lia). apply B in X. discriminate. }
    split; [auto|]. intros R. contradiction.
Qed.
End P.

(** A job that appears 1.2 seconds after the wait began: three looks in vain, then the answer, at 1.5 seconds. *)
Example C87_found :
  wait_for_execution [Asg 1200 7 "x"%char; Asg 100 3 "y"%char] 7 0 0 (repeat (Delays 0 0 0) 62) = Some (true, 1500).
Proof. vm_compute. reflexivity. Qed.
(** One that never appears: 30.5 seconds, exactly 62 looks. *)
Example C87_missing :
  wait_for_execution [Asg 100 3 tt] 7 0 0 (repeat (Delays 0 0 0) 62) = Some (false, 30500) /\
  wait_for_execution [Asg 100 3 tt] 7 0 0 (repeat (Delays 0 0 0) 61) = None.
Proof. vm_compute. auto. Qed.
Example C87_entry :
  get_job [Asg 0 7 1; Asg 0 3 2; Asg 900 7 5; Asg 5000 7 9] 7 1000 0 (repeat (Delays 1 1 1) 122) 10 = Some (Got 5, 1011).
Proof. vm_compute. reflexivity. Qed.

Print Assumptions C87_wait_answer.
Print Assumptions C87_wait_ends.
Print Assumptions C87_job_lookup.
