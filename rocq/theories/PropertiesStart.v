(** C78: the start of a distributed job.  Specification vocabulary: SpecStart.v, SpecProto.v. *)
From Verif Require Import Base MixtureKeyModel UtilsModel ChunkGenModel NetModel SpecNet NetProofs NetProofs2 ProtoModel ServerModel SpecProto ProtoProofs ProtoProofs2 ServerProofs PropertiesServer PollModel StartModel SpecStart StartProofs.
Open Scope Z_scope.

Section Start.
  Context {Ob Ar St D : Type} (dumps : Ob -> list Z) (loads : list Z -> option Ob) (save : Ar -> list Z) (load : list Z -> option Ar) (job_of : Ob -> str) (ops : stub Ob Ar St D).
  Variable procs : nat -> proc Ob.
  Notation server := (server Ob St D).
  Notation history := (history dumps loads load job_of ops).
  Notation jstep := (jstep dumps loads save load job_of ops procs).
  Notation jrun := (jrun dumps loads save load job_of ops procs).
  Notation job i := (job_of (pr_query (procs i))).

  (** What the answers say, whatever happens: invariant *)
  Definition told_ok (ph : nat -> phase) (ls : list (label Ob St)) : Prop := forall i,
    match ph i with
    | PNew => True
    | PWait got => Forall pending got /\ (length got <= 1801)%nat
    | PUp => In (LPoll (Some (job i)) 1) ls
    | PFail (Some (Status v)) => v <> 1 /\ In (LPoll (Some (job i)) v) ls
    | PFail _ => True
    end.
  Lemma told_mono ph l1 l2 : told_ok ph l1 -> told_ok ph (l1 ++ l2).
  Proof. intros H i. specialize (H i). destruct (ph i) as [|got| |[[v| | |]|]]; try exact H; [apply in_or_app; auto|]. destruct H. split; [assumption|apply in_or_app; auto]. Qed.
  Lemma told_put ph ls i x : told_ok ph ls -> told_ok (put i x (fun _ => PNew)) ls -> told_ok (put i x ph) ls.
  Proof.
    intros H H' k. specialize (H k). specialize (H' k). unfold put in *. destruct (Nat.eqb_spec k i) as [->|N]; [exact H'|exact H].
  Qed.
  Lemma told_one ls i x : match x with PNew => True | PWait got => Forall pending got /\ (length got <= 1801)%nat | PUp => In (LPoll (Some (job i)) 1) ls
    | PFail (Some (Status v)) => v <> 1 /\ In (LPoll (Some (job i)) v) ls | PFail _ => True end -> told_ok (put i x (fun _ => PNew)) ls.
  Proof. intros H k. unfold put. destruct (Nat.eqb_spec k i) as [->|N]; [exact H|exact I]. Qed.

  Lemma next_ok got x : Forall pending got -> (length got <= 1801)%nat ->
    match polled_next got x with
    | PUp => x = Status 1
    | PFail l => l = Some x /\ x <> Status 1
    | PWait g => Forall pending g /\ (length g <= 1801)%nat
    | PNew => False
    end.
  Proof.
    intros H L. unfold polled_next, wait_for_execution. destruct (wait_snoc got 1801 x H L) as (A & B & _). destruct (wait_from 1801 (got ++ [x])) as [[]| |].
    - exact A.
    - auto.
    - auto.
    - split; [apply Forall_app; split; [exact H|constructor; [exact A|constructor]]|]. rewrite app_length. cbn [length]. specialize (B eq_refl). lia.
  Qed.

  Hypothesis Hs : sendable dumps loads save load job_of procs.

  Lemma jstep_told e (s s' : server) ph ph' l0 ls : jwhole e -> told_ok ph l0 -> jstep e (s, ph) = ((s', ph'), ls) -> told_ok ph' (l0 ++ ls).
  Proof using Hs.
    intros Hd H. destruct e as [i d|i d|e]; cbn [StartModel.jstep].
    - unfold start. destruct (ph i) eqn:Ei; try (intros [= <- <- <-]; apply told_mono, H).
      destruct (negb (placed (procs i))); [intros [= <- <- <-]; apply told_put; [apply told_mono, H|apply told_one; exact I]|].
      destruct (primary (procs i)); [|intros [= <- <- <-]; apply told_put; [apply told_mono, H|apply told_one; split; [constructor|cbn; lia]]].
      destruct (ask dumps loads save load job_of ops (start_request job_of (procs i)) d s) as [[s1 l1] r] eqn:Ea. intros [= <- <- <-].
      apply told_put; [apply told_mono, H|]. apply told_one. destruct r as [r|]; [destruct (goes_on (procs i) r)|destruct (pr_ckpt (procs i))]; try exact I; (split; [constructor|cbn; lia]).
    - unfold poll_once. destruct (ph i) as [|got| |] eqn:Ei; try (intros [= <- <- <-]; apply told_mono, H).
      pose proof (H i) as Hi. rewrite Ei in Hi. destruct Hi as [Hg Lg].
      destruct (ask dumps loads save load job_of ops (CQueryStatus (job i)) d s) as [[s1 l1] r] eqn:Ea. intros [= <- <- <-].
      apply told_put; [apply told_mono, H|]. apply told_one.
      destruct (ask_poll dumps loads save load job_of ops (job i) d s s1 l1 r (proj1 (Hs i)) Hd Ea) as (_ & Hv & _). fold (seen_poll r).
      pose proof (next_ok got (seen_poll r) Hg Lg) as N. destruct (polled_next got (seen_poll r)) as [|g| |[x|]]; [exact I|exact N| | |exact I].
      + rewrite (Hv 1 N). apply in_or_app. right. left. reflexivity.
      + destruct N as [[= ->] N]. destruct (seen_poll r) as [v| | |] eqn:Er; try exact I. split; [congruence|]. rewrite (Hv v eq_refl). apply in_or_app. right. left. reflexivity.
    - cbn [fst snd]. destruct (step dumps loads load job_of ops e s) as [s1 l]. intros [= <- <- <-]. apply told_mono, H.
  Qed.
  Lemma jrun_told evs : forall (s s' : server) ph ph' l0 ls, Forall jwhole evs -> told_ok ph l0 -> jrun evs (s, ph) = ((s', ph'), ls) -> told_ok ph' (l0 ++ ls).
  Proof using Hs.
    induction evs as [|e evs IH]; intros s s' ph ph' l0 ls Hd H E; cbn [StartModel.jrun] in E; [injection E as <- <- <-; apply told_mono, H|].
    inversion Hd as [|? ? Hd1 Hd2]; subst.
    destruct (jstep e (s, ph)) as [[s1 ph1] l1] eqn:Es. destruct (jrun evs (s1, ph1)) as [[s2 ph2] l2] eqn:Er. injection E as <- <- <-.
    rewrite app_assoc. apply (IH s1 s2 ph1 ph2 (l0 ++ l1) l2 Hd2 (jstep_told _ _ _ _ _ _ _ Hd1 H Es) Er).
  Qed.

  (** One job *)
  Variable j : str.
  Definition of_primary (t : qtask Ob) : Prop := task_job job_of t = Some j -> exists i, primary (procs i) = true /\ t = asked_task job_of (procs i).
  Definition one_ok (s : server) (ph : nat -> phase) (ls : list (label Ob St)) : Prop :=
    Forall of_primary (sv_queue s) /\ (forall t st, In (LRun t st) ls -> of_primary t)
    /\ (starts (Some j) ls = 0%nat \/ (starts (Some j) ls <= 1)%nat /\ exists i, primary (procs i) = true /\ ph i <> PNew).
  Hypothesis Hj : one_job job_of j procs.
  Lemma primary_one i k : primary (procs i) = true -> primary (procs k) = true -> i = k.
  Proof using Hj. unfold primary. intros A B. apply (proj2 Hj); lia. Qed.
  Lemma jstep_one e (s s' : server) ph ph' l0 ls : jwhole e -> jalone loads load job_of j e -> one_ok s ph l0 -> jstep e (s, ph) = ((s', ph'), ls) -> one_ok s' ph' (l0 ++ ls).
  Proof using Hs Hj.
    intros Hd Ha (Q & R & C).
    assert (Keep : forall i x, x <> PNew -> starts (Some j) l0 = 0%nat \/ (starts (Some j) l0 <= 1)%nat /\ exists k, primary (procs k) = true /\ put i x ph k <> PNew).
    { intros i x Nx. destruct C as [C|(C & k & K1 & K2)]; [left; exact C|right]. split; [exact C|]. exists k. split; [exact K1|]. unfold put. destruct (Nat.eqb k i); assumption. }
    destruct e as [i d|i d|e]; cbn [StartModel.jstep].
    - unfold start. destruct (ph i) eqn:Ei; try (intros [= <- <- <-]; rewrite app_nil_r; repeat split; assumption).
      destruct (negb (placed (procs i))); [intros [= <- <- <-]; rewrite app_nil_r; repeat split; try assumption; apply Keep; discriminate|].
      destruct (primary (procs i)) eqn:Ep; [|intros [= <- <- <-]; rewrite app_nil_r; repeat split; try assumption; apply Keep; discriminate].
      destruct (ask dumps loads save load job_of ops (start_request job_of (procs i)) d s) as [[s1 l1] r] eqn:Ea. intros [= <- <- <-].
      set (x := if match r with Some r => goes_on (procs i) r | None => match pr_ckpt (procs i) with Some _ => true | None => false end end then PWait [] else PFail None).
      assert (Nx : x <> PNew) by (unfold x; destruct (match r with Some _ => _ | None => _ end); discriminate). clearbody x.
      destruct (ask_start dumps loads save load job_of ops (procs i) d s s1 l1 r (proj2 (Hs i)) Hd Ea) as [(-> & ->)|(Eq & b & ->)].
      + rewrite app_nil_r. repeat split; try assumption. apply Keep, Nx.
      + split; [|split].
        * rewrite Eq. apply Forall_app. split; [exact Q|]. constructor; [|constructor]. intros _. exists i. auto.
        * intros t st I. apply in_app_or in I as [I|[I|[]]]; [exact (R t st I)|discriminate].
        * right. rewrite starts_app. unfold starts at 2. cbn. rewrite (proj1 Hj i). destruct (ostr_dec (Some j) (Some j)); [|congruence]. cbn.
          split; [|exists i; split; [exact Ep|unfold put; rewrite Nat.eqb_refl; exact Nx]].
          destruct C as [C|(_ & k & K1 & K2)]; [lia|]. exfalso. rewrite (primary_one k i K1 Ep), Ei in K2. congruence.
    - unfold poll_once. destruct (ph i) as [|got| |] eqn:Ei; try (intros [= <- <- <-]; rewrite app_nil_r; repeat split; assumption).
      destruct (ask dumps loads save load job_of ops (CQueryStatus (job i)) d s) as [[s1 l1] r] eqn:Ea. intros [= <- <- <-].
      destruct (ask_poll dumps loads save load job_of ops (job i) d s s1 l1 r (proj1 (Hs i)) Hd Ea) as (-> & _ & F & _). rewrite Forall_forall in F.
      split; [exact Q|]. split.
      + intros t st I. apply in_app_or in I as [I|I]; [exact (R t st I)|]. destruct (F _ I). discriminate.
      + assert (Z0 : starts (Some j) l1 = 0%nat).
        { unfold starts. destruct (filter _ l1) as [|y l] eqn:Ef; [reflexivity|exfalso]. assert (I : In y (y :: l)) by (left; reflexivity). rewrite <- Ef in I. apply filter_In in I as [I E]. destruct (F _ I) as (v & ->). discriminate. }
        rewrite starts_app, Z0, Nat.add_0_r. apply Keep. unfold polled_next. destruct (wait_for_execution _) as [[]| |]; discriminate.
    - cbn [fst snd]. destruct (step dumps loads load job_of ops e s) as [s1 l] eqn:Es. intros [= <- <- <-].
      destruct (step_queue dumps loads load job_of ops e s s1 l Es) as [A B]. split; [|split].
      + rewrite Forall_forall in *. intros t It. destruct (A t It) as [I|(u & r & -> & M)]; [exact (Q t I)|]. cbn [jalone leaves_alone] in Ha. intros Ej. exfalso.
        destruct (snd (read_request loads load r)) as [[[]|]|]; try contradiction.
        * destruct query; [|contradiction]. subst t. cbn in Ej. congruence.
        * subst t. cbn in Ej. congruence.
      + intros t st I. apply in_app_or in I as [I|[I|[]]]; [exact (R t st I)|]. rewrite Forall_forall in Q. exact (Q t (B t st I)).
      + rewrite starts_app, (alone_starts dumps loads load job_of ops j e s s1 l Ha Es), Nat.add_0_r. exact C.
  Qed.
  Lemma jrun_one evs : forall (s s' : server) ph ph' l0 ls, Forall jwhole evs -> Forall (jalone loads load job_of j) evs -> one_ok s ph l0 -> jrun evs (s, ph) = ((s', ph'), ls) -> one_ok s' ph' (l0 ++ ls).
  Proof using Hs Hj.
    induction evs as [|e evs IH]; intros s s' ph ph' l0 ls Hd Ha H E; cbn [StartModel.jrun] in E; [injection E as <- <- <-; rewrite app_nil_r; exact H|].
    inversion Hd as [|? ? Hd1 Hd2]; subst. inversion Ha as [|? ? Ha1 Ha2]; subst.
    destruct (jstep e (s, ph)) as [[s1 ph1] l1] eqn:Es. destruct (jrun evs (s1, ph1)) as [[s2 ph2] l2] eqn:Er. injection E as <- <- <-.
    rewrite app_assoc. apply (IH s1 s2 ph1 ph2 (l0 ++ l1) l2 Hd2 Ha2 (jstep_one _ _ _ _ _ _ _ Hd1 Ha1 H Es) Er).
  Qed.
End Start.

Lemma first_is {Ob St} (x : label Ob St) ls : In x ls -> exists l1 l2, ls = l1 ++ x :: l2.
Proof. apply in_split. Qed.

Section Theorems.
  Context {Ob Ar St D : Type} (dumps : Ob -> list Z) (loads : list Z -> option Ob) (save : Ar -> list Z) (load : list Z -> option Ar) (job_of : Ob -> str) (ops : stub Ob Ar St D).
  Variable procs : nat -> proc Ob.
  Notation jrun := (jrun dumps loads save load job_of ops procs).
  Notation job i := (job_of (pr_query (procs i))).
  Lemma init_told : told_ok (Ob:=Ob) (St:=St) job_of procs all_new [].
  Proof. intros i. exact I. Qed.

  (** Any processes, of any jobs, in any history of the server and with any other clients: a process that came up had been told
      that the last execution (or restore) of its job that ended had succeeded, and a request for this job had been run by the
      server and had worked.  Partial: it need not be the one of this training run (see the refutations). *)
  Theorem C78_up_partial evs st s ph ls i : sendable dumps loads save load job_of procs -> Forall jwhole evs ->
    jrun evs (init st, all_new) = ((s, ph), ls) -> ph i = PUp ->
    exists l1 l2, ls = l1 ++ LPoll (Some (job i)) 1 :: l2 /\ last_result (Some (job i)) l1 None = Some true
      /\ exists t st', In (LRun t st') l1 /\ task_job job_of t = Some (job i) /\ worked ops t st'.
  Proof.
    intros Hs Hd H Hi. pose proof (jrun_told dumps loads save load job_of ops procs Hs evs _ _ _ _ [] ls Hd init_told H i) as T. rewrite Hi in T. cbn [app] in T.
    apply in_split in T as (l1 & l2 & E). destruct (jrun_history _ _ _ _ _ _ _ _ _ _ _ _ _ H) as (sevs & Hh).
    exists l1, l2. split; [exact E|]. pose proof (C42_status_exact dumps loads load job_of ops sevs st s ls l1 _ 1 l2 Hh E) as X.
    destruct (last_result (Some (job i)) l1 None) as [[]|] eqn:L; try discriminate. split; [reflexivity|].
    assert (I : In (LEnd (Some (job i)) true) l1).
    { clear -L. assert (G : forall (l : list (label Ob St)) acc, last_result (Some (job i)) l acc = Some true -> acc = Some true \/ In (LEnd (Some (job i)) true) l).
      { induction l as [|x l IH]; intros acc; [auto|]. destruct x as [jj []| |jj b| | | | |]; cbn [last_result]; intros H; try (destruct (IH _ H); [auto|right; right; assumption]).
        - destruct (IH _ H) as [E|]; [|right; right; assumption]. destruct (ostr_dec jj (Some (job i))); [discriminate|auto].
        - destruct (IH _ H) as [E|]; [|right; right; assumption]. destruct (ostr_dec jj (Some (job i))) as [->|]; [injection E as ->; right; left; reflexivity|auto]. }
      destruct (G _ _ L) as [E|I]; [discriminate|exact I]. }
    apply in_split in I as (a & b & ->).
    destruct (C42_end_is_truthful dumps loads load job_of ops sevs st s ls a (Some (job i)) true (b ++ LPoll (Some (job i)) 1 :: l2) Hh) as (t & st' & la & lb & -> & _ & _ & A & B & _).
    { rewrite E, <- app_assoc. reflexivity. }
    exists t, st'. split; [|auto]. apply in_or_app. left. apply in_or_app. right. left. reflexivity.
  Qed.

  (** The processes of one job, at different positions, whose id nobody else executes or restores, on a server that was started
      before them, in any interleaving with any other clients and any loss of connections:
      the query is started at most once, with the arguments of process 0 of group 0 ... *)
  Theorem C78_started_once evs st s ph ls j : sendable dumps loads save load job_of procs -> one_job job_of j procs ->
    Forall jwhole evs -> Forall (jalone loads load job_of j) evs -> jrun evs (init st, all_new) = ((s, ph), ls) ->
    (starts (Some j) ls <= 1)%nat
    /\ (forall t st', In (LRun t st') ls -> task_job job_of t = Some j ->
         exists p, pr_group (procs p) = 0 /\ pr_node (procs p) = 0 /\ pr_exec (procs p) = true /\ t = asked_task job_of (procs p)).
  Proof.
    intros Hs Hj Hd Ha H. assert (I0 : one_ok (D:=D) job_of procs j (init st) all_new []).
    { split; [constructor|]. split; [intros t st' []|left; reflexivity]. }
    destruct (jrun_one dumps loads save load job_of ops procs Hs j Hj evs _ _ _ _ [] ls Hd Ha I0 H) as (_ & R & C). cbn [app] in *.
    split; [destruct C as [->|[C _]]; lia|]. intros t st' It Et. destruct (R t st' It Et) as (p & P & ->). exists p. unfold primary in P. repeat split; lia.
  Qed.
  (** ... a process comes up only after that query was executed (that checkpoint restored) ... *)
  Theorem C78_up_means_executed evs st s ph ls j i : sendable dumps loads save load job_of procs -> one_job job_of j procs ->
    Forall jwhole evs -> Forall (jalone loads load job_of j) evs -> jrun evs (init st, all_new) = ((s, ph), ls) -> ph i = PUp ->
    exists p st', pr_group (procs p) = 0 /\ pr_node (procs p) = 0 /\ pr_exec (procs p) = true
      /\ In (LRun (asked_task job_of (procs p)) st') ls /\ worked ops (asked_task job_of (procs p)) st'.
  Proof.
    intros Hs Hj Hd Ha H Hi. destruct (C78_up_partial evs st s ph ls i Hs Hd H Hi) as (l1 & l2 & E & _ & t & st' & It & Et & W).
    rewrite (proj1 Hj i) in *. assert (I : In (LRun t st') ls) by (rewrite E; apply in_or_app; left; exact It).
    destruct (proj2 (C78_started_once evs st s ph ls j Hs Hj Hd Ha H) t st' I Et) as (p & P1 & P2 & P3 & ->). exists p, st'. auto.
  Qed.
  (** ... and the processes agree: if one came up, then no process was told that the query had failed. *)
  Theorem C78_agree_partial evs st s ph ls j i k : sendable dumps loads save load job_of procs -> one_job job_of j procs ->
    Forall jwhole evs -> Forall (jalone loads load job_of j) evs -> jrun evs (init st, all_new) = ((s, ph), ls) ->
    ph i = PUp -> ph k <> PFail (Some (Status 2)).
  Proof.
    intros Hs Hj Hd Ha H Hi Hk. destruct (C78_started_once evs st s ph ls j Hs Hj Hd Ha H) as [C _].
    pose proof (jrun_told dumps loads save load job_of ops procs Hs evs _ _ _ _ [] ls Hd init_told H) as T. cbn [app] in T.
    pose proof (T i) as Ti. rewrite Hi in Ti. pose proof (T k) as Tk. rewrite Hk in Tk. destruct Tk as [_ Tk]. rewrite (proj1 Hj) in *.
    destruct (jrun_history _ _ _ _ _ _ _ _ _ _ _ _ _ H) as (sevs & Hh).
    assert (S : forall v, In (LPoll (Some j) v) ls -> exists l1 l2, ls = l1 ++ LPoll (Some j) v :: l2 /\ (starts (Some j) l1 <= 1)%nat).
    { intros v I. apply in_split in I as (l1 & l2 & E). exists l1, l2. split; [exact E|]. rewrite E, starts_app in C. lia. }
    destruct (S 1 Ti) as (a1 & a2 & Ea & Ca). destruct (S 2 Tk) as (b1 & b2 & Eb & Cb).
    pose proof (proj1 (proj1 (proj2 (C42_single_partial dumps loads load job_of ops sevs st s ls a1 (Some j) 1 a2 Hh Ea Ca))) eq_refl) as I1.
    pose proof (proj1 (proj2 (proj2 (C42_single_partial dumps loads load job_of ops sevs st s ls b1 (Some j) 2 b2 Hh Eb Cb))) eq_refl) as I2.
    pose proof (history_count dumps loads load job_of ops sevs (init st) s ls (Some j) Hh ls [] ltac:(symmetry; apply app_nil_r)) as N.
    change (queued job_of (Some j) (init st)) with 0%nat in N.
    assert (J1 : In (LEnd (Some j) true) ls) by (rewrite Ea; apply in_or_app; left; exact I1).
    assert (J2 : In (LEnd (Some j) false) ls) by (rewrite Eb; apply in_or_app; left; exact I2).
    apply in_split in J1 as (c1 & c2 & Ec). rewrite Ec in J2, N. change (LEnd (Some j) true :: c2) with ([LEnd (Some j) true] ++ c2) in *. rewrite !ended_app in N.
    assert (X : ended (Some j) [@LEnd Ob St (Some j) true] = 1%nat) by (unfold ended; cbn; destruct (ostr_dec (Some j) (Some j)); [reflexivity|congruence]).
    rewrite X in N. rewrite <- Ec in N. apply in_app_or in J2 as [J2|J2]; [|cbn in J2; destruct J2 as [J2|J2]; [discriminate|]]; apply ended_in in J2; lia.
  Qed.
  (** Any history: a process whose place is outside the shape it gives (its group number is not below the number of groups, or
      its node number not below the nodes of a group) never waits and never comes up. *)
  Theorem C78_position_checked evs (st : St) (s : server Ob St D) ph ls i : jrun evs (init st, all_new) = ((s, ph), ls) ->
    pr_groups (procs i) <= pr_group (procs i) \/ pr_nodes (procs i) <= pr_node (procs i) ->
    ph i = PNew \/ ph i = PFail None.
  Proof.
    intros H Out. assert (Np : placed (procs i) = false) by (unfold placed; destruct Out; lia).
    assert (G : forall evs (js js' : jstate (Ob:=Ob) (St:=St) (D:=D)) ls, snd js i = PNew \/ snd js i = PFail None -> jrun evs js = (js', ls) -> snd js' i = PNew \/ snd js' i = PFail None).
    { clear -Np. induction evs as [|e evs IH]; intros js js' ls P E; cbn [StartModel.jrun] in E; [injection E as <- _; exact P|].
      destruct (jstep dumps loads save load job_of ops procs e js) as [js1 l1] eqn:Es. destruct (jrun evs js1) as [js2 l2] eqn:Er. injection E as <- _.
      refine (IH js1 js2 l2 _ Er). clear IH Er js2 l2 evs. destruct js as [s0 ph0]. cbn [snd] in P.
      destruct e as [k d|k d|e]; cbn [jstep] in Es.
      - unfold start in Es. destruct (ph0 k) eqn:Ek; try (injection Es as <- _; exact P).
        destruct (Nat.eqb_spec i k) as [<-|Nik].
        + rewrite Np in Es. cbn in Es. injection Es as <- _. cbn. unfold put. rewrite Nat.eqb_refl. auto.
        + destruct (negb (placed (procs k))); [injection Es as <- _; cbn; unfold put; destruct (Nat.eqb_spec i k); [contradiction|exact P]|].
          destruct (primary (procs k)).
          * destruct (ask dumps loads save load job_of ops (start_request job_of (procs k)) d s0) as [[s1 ls1] r].
            injection Es as <- _. cbn. unfold put. destruct (Nat.eqb_spec i k); [contradiction|exact P].
          * injection Es as <- _. cbn. unfold put. destruct (Nat.eqb_spec i k); [contradiction|exact P].
      - unfold poll_once in Es. destruct (ph0 k) eqn:Ek; try (injection Es as <- _; exact P).
        destruct (ask dumps loads save load job_of ops (CQueryStatus (job k)) d s0) as [[s1 ls1] r].
        injection Es as <- _. cbn. unfold put. destruct (Nat.eqb_spec i k) as [<-|Nik]; [|exact P].
        destruct P as [P|P]; rewrite P in Ek; discriminate.
      - cbn [fst snd] in Es. destruct (step dumps loads load job_of ops e s0) as [s1 l]. injection Es as <- _. exact P. }
    exact (G evs (init st, all_new) (s, ph) ls (or_introl eq_refl) H).
  Qed.
  (** A process that still waits when the last execution of its job that ended has succeeded comes up with its next poll that is
      answered. *)
  Theorem C78_comes_up evs st s ph ls i got uuid fr fr' s' ph' ls' : sendable dumps loads save load job_of procs -> Forall jwhole evs ->
    jrun evs (init st, all_new) = ((s, ph), ls) -> ph i = PWait got -> last_result (Some (job i)) ls None = Some true -> timely fr -> timely fr' ->
    jstep dumps loads save load job_of ops procs (JPoll i (Answered uuid fr fr')) (s, ph) = ((s', ph'), ls') -> ph' i = PUp.
  Proof.
    intros Hs Hd H Hi L Hf Hf' Hp. pose proof (jrun_told dumps loads save load job_of ops procs Hs evs _ _ _ _ [] ls Hd init_told H i) as T. rewrite Hi in T. destruct T as [Hg Lg].
    destruct (jrun_history _ _ _ _ _ _ _ _ _ _ _ _ _ H) as (sevs & Hh).
    assert (Q : aget ostr_eqb (Some (job i)) (sv_qreg s) = Some true).
    { rewrite <- L. clear -Hh. assert (G : forall sevs (s0 : server Ob St D) s ls, NoDup (map fst (sv_qreg s0)) -> history dumps loads load job_of ops sevs s0 = (s, ls) ->
        aget ostr_eqb (Some (job i)) (sv_qreg s) = last_result (Some (job i)) ls (aget ostr_eqb (Some (job i)) (sv_qreg s0))).
      { clear. induction sevs as [|e sevs IH]; intros s0 s ls N H; cbn [history] in H; [injection H as <- <-; reflexivity|].
        destruct (step dumps loads load job_of ops e s0) as [s1 l] eqn:Es. destruct (history dumps loads load job_of ops sevs s1) as [s2 ls'] eqn:Eh. injection H as <- <-.
        destruct (step_status dumps loads load job_of ops e s0 s1 l (Some (job i)) N Es) as (N1 & G & _). rewrite (IH s1 s2 ls' N1 Eh), G. change (l :: ls') with ([l] ++ ls'). rewrite last_result_app. reflexivity. }
      exact (G sevs (init st) s ls (NoDup_nil _) Hh). }
    cbn [jstep] in Hp. unfold poll_once in Hp. rewrite Hi in Hp.
    destruct (ask dumps loads save load job_of ops (CQueryStatus (job i)) (Answered uuid fr fr') s) as [[s1 l1] r] eqn:Ea. injection Hp as <- <- <-.
    destruct (ask_poll dumps loads save load job_of ops (job i) (Answered uuid fr fr') s s1 l1 r (proj1 (Hs i)) (conj Hf Hf') Ea) as (_ & _ & _ & A).
    assert (B : exists b, client_write dumps save (CQueryStatus (Ar:=Ar) (job i)) = inl b).
    { clear -Hs. destruct (client_write dumps save (CQueryStatus (job i))) as [b|e] eqn:E; [eauto|exfalso]. destruct (proj1 (Hs i)) as [S1 S2]. destruct (utf8_roundtrip _ S1) as (x & X1 & _). specialize (S2 x X1).
      unfold client_write in E. cbn [client_args] in E. unfold write_utf8 in E. rewrite X1 in E. destruct (to_bytes_ok IDN (Z.of_nat (length x)) ltac:(vm_compute; lia) (Zle_0_nat _) S2) as [W _]. rewrite W in E. vm_compute in E. discriminate. }
    destruct B as (b & B). specialize (A b uuid fr fr' B eq_refl). rewrite Q in A. fold (seen_poll r). rewrite A. cbn [code_of].
    unfold put. rewrite Nat.eqb_refl. unfold polled_next, wait_for_execution. destruct (wait_snoc got 1801 (Status 1) Hg Lg) as (_ & _ & X). rewrite (X eq_refl). reflexivity.
  Qed.
End Theorems.

(** ** A concrete server (PropertiesServer.v) and job, for the refutations and the examples *)
Definition tproc (ck : option str) (i : nat) : proc str := mkProc (Z.of_nat (i / 2)) (Z.of_nat (i mod 2)) 2 2 0 [0] jobA ck true.
Definition tjrun ck evs := jrun tdumps tloads tsave tload tjob tops (tproc ck) evs (init [], all_new).
Definition ok : delivery := Answered [99] [Some 3%nat] [].
Definition earlier_run : list jevent := [JServer (reg jobA); JServer ERun; JServer EFinish].

Lemma ok_whole : whole ok.
Proof. split; intros H; cbn in H; intuition discriminate. Qed.
Lemma un_whole u b : whole (Unanswered u [Some 3%nat] b).
Proof. intros H. cbn in H. intuition discriminate. Qed.
Ltac whole_all := repeat (apply Forall_cons; [first [exact I|exact ok_whole|exact (un_whole _ _)]|]); apply Forall_nil.

(** False of the code: the processes of a job agree when the training is restarted with the same job id on a running server.
    Process 1 is told the success of the earlier run and comes up; process 0, whose execution is refused because the job
    exists, is told that it failed. *)
Theorem C78_restarted_refuted : exists evs ph s ls, tjrun None (earlier_run ++ evs) = ((s, ph), ls) /\ ph 1%nat = PUp /\ ph 0%nat = PFail (Some (Status 2)).
Proof.
  exists [JStart 1 ok; JPoll 1 ok; JStart 0 ok; JServer ERun; JServer EFinish; JPoll 0 ok]. eexists. eexists. eexists. split; [vm_compute; reflexivity|]. split; vm_compute; reflexivity.
Qed.
(** ... nor does coming up mean that the checkpoint has been restored: a process may come up before process 0 has asked for it ... *)
Theorem C78_before_restore_refuted : exists evs ph s ls, tjrun (Some [5]) (earlier_run ++ evs) = ((s, ph), ls) /\ ph 1%nat = PUp
  /\ sv_queue s = [TRestore (Some jobA) (Some [5])] /\ forall t st, In (LRun t st) ls -> t <> TRestore (Some jobA) (Some [5]).
Proof.
  exists [JStart 1 ok; JPoll 1 ok; JStart 0 ok]. eexists. eexists. eexists. split; [vm_compute; reflexivity|]. split; [vm_compute; reflexivity|]. split; [vm_compute; reflexivity|].
  cbn. intros t st H. repeat (destruct H as [H|H]; [try discriminate H; injection H as <- _; discriminate|]). destruct H.
Qed.
(** ... and all of them may come up although the request to restore never reached the server: restore_checkpoint reports nothing. *)
Theorem C78_lost_restore_refuted : exists evs ph s ls, tjrun (Some [5]) (earlier_run ++ evs) = ((s, ph), ls) /\ (forall i, (i < 4)%nat -> ph i = PUp)
  /\ sv_queue s = [] /\ ~ In (LStart (Some jobA) true) ls.
Proof.
  exists [JStart 0 Unreached; JPoll 0 ok; JStart 1 ok; JPoll 1 ok; JStart 2 ok; JPoll 2 ok; JStart 3 ok; JPoll 3 ok]. eexists. eexists. eexists. split; [vm_compute; reflexivity|].
  split; [intros [|[|[|[|i]]]] H; try (vm_compute; reflexivity); lia|]. split; [vm_compute; reflexivity|]. cbn. intros H. repeat (destruct H as [H|H]; [discriminate H|]). destruct H.
Qed.
(** Even at the first start of a job: if the answer to process 0's request is lost, process 0 raises and the others come up. *)
Theorem C78_lost_answer_refuted : exists evs ph s ls, tjrun None evs = ((s, ph), ls) /\ Forall jwhole evs /\ Forall (jalone tloads tload tjob jobA) evs
  /\ ph 0%nat = PFail None /\ ph 1%nat = PUp /\ ph 2%nat = PUp.
Proof.
  exists [JStart 0 (Unanswered [99] [Some 3%nat] false); JServer ERun; JServer EFinish; JStart 1 ok; JPoll 1 ok; JStart 2 ok; JPoll 2 ok]. eexists. eexists. eexists. split; [vm_compute; reflexivity|].
  split; [whole_all|]. split; [repeat (apply Forall_cons; [exact I|]); apply Forall_nil|]. repeat split; vm_compute; reflexivity.
Qed.

(** Non-vacuity: four processes of one job, one other client, a lost poll; all come up. *)
Example C78_ex_sendable ck : (ck = None \/ ck = Some [5]) -> sendable tdumps tloads tsave tload tjob (tproc ck).
Proof.
  intros H i. split; [apply str_ok_ex; [vm_compute; lia|repeat constructor; lia|reflexivity]|]. intros q ->.
  destruct H as [H|H]; rewrite H; cbn [start_request tproc pr_ckpt pr_mixture pr_query pr_groups pr_nodes pr_workers sent_ok]; unfold obj_ok.
  - repeat split; vm_compute; reflexivity.
  - split; (apply str_ok_ex; [vm_compute; lia|repeat constructor; lia|reflexivity]).
Qed.
Example C78_ex_one_job ck : one_job tjob jobA (tproc ck).
Proof.
  split; [reflexivity|]. intros i k A B. cbn [pr_group pr_node tproc] in *. apply Nat2Z.inj in A, B. rewrite (Nat.div_mod i 2), (Nat.div_mod k 2), A, B by lia. reflexivity.
Qed.
Definition ex_evs : list jevent :=
  [JStart 2 ok; JPoll 2 ok; JServer (reg [66]); JStart 0 ok; JPoll 0 ok; JStart 1 ok; JServer ERun; JPoll 1 Unreached; JServer EFinish; JServer ERun; JPoll 0 ok; JServer EFinish; JStart 3 ok;
   JPoll 0 ok; JPoll 1 ok; JPoll 2 ok; JPoll 3 ok].
Example C78_ex : exists s ph ls, tjrun None ex_evs = ((s, ph), ls) /\ Forall jwhole ex_evs /\ Forall (jalone tloads tload tjob jobA) ex_evs /\ forall i, (i < 4)%nat -> ph i = PUp.
Proof.
  eexists. eexists. eexists. split; [vm_compute; reflexivity|]. split; [whole_all|]. split; [repeat (apply Forall_cons; [vm_compute; try exact I; discriminate|]); apply Forall_nil|].
  intros [|[|[|[|i]]]] H; try (vm_compute; reflexivity); lia.
Qed.
Example C78_ex_restore : exists s ph ls, tjrun (Some [5]) ex_evs = ((s, ph), ls) /\ forall i, (i < 4)%nat -> ph i = PUp.
Proof. eexists. eexists. eexists. split; [vm_compute; reflexivity|]. intros [|[|[|[|i]]]] H; try (vm_compute; reflexivity); lia. Qed.
Example C78_ex_waits : exists s ph ls, tjrun None (firstn 13 ex_evs) = ((s, ph), ls) /\ ph 0%nat = PWait [Status 0; Status 0] /\ last_result (Some jobA) ls None = Some true.
Proof. eexists. eexists. eexists. split; [vm_compute; reflexivity|]. split; vm_compute; reflexivity. Qed.

Print Assumptions C78_up_partial.
Print Assumptions C78_started_once.
Print Assumptions C78_up_means_executed.
Print Assumptions C78_agree_partial.
Print Assumptions C78_comes_up.
Print Assumptions C78_position_checked.
Print Assumptions C78_restarted_refuted.
Print Assumptions C78_before_restore_refuted.
Print Assumptions C78_lost_restore_refuted.
Print Assumptions C78_lost_answer_refuted.
