(** C66: feedback from a distributed training run reaches the mixture of its job as intended. *)
From Coq Require Import String.
From Verif Require Import Base ParserModel MixtureKeyModel MixtureKeyProofs UtilsModel ChunkGenModel ClientModel MixtureModel DynModel FeedbackModel SpecFeedback FeedbackProofs
  NetModel SpecNet NetProofs ProtoModel ServerModel SpecProto ProtoProofs ProtoProofs2 ServerProofs PropertiesServer.
From Coq Require Import QArith.
Open Scope Z_scope.

Section Theorems.
  Context {S : Type} (fl : Q -> Q) (nsum : list Q -> Q) (process : list Q -> list Z -> Z -> S -> S * (option (list Q) + exn)) (inform : list Q -> S -> S).
  Notation client_feedback := (client_feedback fl nsum process).
  Notation process_feedback := (process_feedback fl nsum process).
  Notation id_map := (id_map fl nsum inform).
  Notation fstep := (fstep fl nsum process inform).
  Notation frun := (frun fl nsum process inform).
  (** At the start of a training run no worker has started a chunk. *)
  Definition start (t : jobs S) : run S := Run [] t.
  Definition none : Z -> option Z := fun _ => None.
  Lemma start_marks t : marks_are (start t) none.
  Proof. intros p. split; [reflexivity|]. unfold mark_of, start, id_init. cbn. lia. Qed.

  (** Whatever processes call handle_mixtera_feedback, in any interleaving with each other, with the data loader workers,
      with other jobs and with the query: the mixture has been told exactly the messages of the calls with ranks (0, 0),
      each once, in order, with the mixture id the process trains with.  Partial: see the refutations. *)
  Theorem C66_told_partial job evs t m : Forall (foreign job) evs -> aget str_eqb job t = Some m ->
    aget str_eqb job (r_jobs (frun job (start t) evs))
    = Some (fold_left (fun m x => match x with inl f => fst (client_feedback f m) | inr k => fst (id_map k m) end) (told none evs) m).
  Proof. intros F H. apply run_told; [exact F|apply start_marks|exact H]. Qed.

  (** Messages without losses (those of all pipeline stages but the last) change nothing but the training step: the
      rest of the mixture is as if only the calls with losses had been made ... *)
  Theorem C66_losses_only job evs t m : Forall (foreign job) evs -> aget str_eqb job t = Some m ->
    exists m1 m2, aget str_eqb job (r_jobs (frun job (start t) evs)) = Some m1
      /\ aget str_eqb job (r_jobs (frun job (start t) (filter matters evs))) = Some m2
      /\ m1 = set_step (step_of m1) m2.
  Proof.
    intros F H. destruct (run_losses fl nsum process inform job evs F (start t) (start t) m m eq_refl H H eq_refl) as (m1 & m2 & A & B & N).
    exists m1, m2. split; [exact A|]. split; [exact B|]. apply norm_back, N.
  Qed.
  (** ... and the training step is the largest one sent. *)
  Theorem C66_step job evs t m : Forall (foreign job) evs -> aget str_eqb job t = Some m ->
    exists m', aget str_eqb job (r_jobs (frun job (start t) evs)) = Some m'
      /\ step_of m' = fold_left Z.max (map f_steps (sent none evs)) (step_of m).
  Proof. intros F H. apply run_steps; [exact F|apply start_marks|exact H]. Qed.
  (** Sending a step again, or an older one, without losses is harmless. *)
  Theorem C66_repeat job r who c m : aget str_eqb job (r_jobs r) = Some m -> c_steps c <= step_of m -> (c_losses c = None \/ c_counts c = None) ->
    aget str_eqb job (r_jobs (fst (fstep job r (FCall who c)))) = Some m.
  Proof.
    intros J L N. rewrite (step_job fl nsum process inform job r (FCall who c) m I J). f_equal.
    destruct (to_send true (mark_of who r) c) as [[f|]|x] eqn:Es; try reflexivity. destruct (send_some _ _ _ Es) as (El & Ec & Et).
    unfold FeedbackModel.client_feedback. cbv zeta. rewrite El, Ec, Et. rewrite Z.max_l by lia.
    destruct N as [-> | ->]; [destruct (c_counts c)|]; apply set_self.
  Qed.
  (** The mixtures of other jobs never notice. *)
  Theorem C66_other_jobs job other evs r : other <> job -> Forall (fun e => match e with FOther _ _ => False | _ => True end) evs ->
    aget str_eqb other (r_jobs (frun job r evs)) = aget str_eqb other (r_jobs r).
  Proof.
    intros N F. revert r. induction F as [|e evs Fe _ IH]; intros r; [reflexivity|].
    change (frun job r (e :: evs)) with (frun job (fst (fstep job r e)) evs). rewrite IH. clear IH.
    destruct e as [who w|who c|j f|k]; cbn [FeedbackModel.fstep]; [reflexivity| |contradiction|].
    - destruct (to_send true (mark_of who r) c) as [[f|]|x]; try reflexivity.
      pose proof (pf_other fl nsum process other job f (r_jobs r) (fun E => N (eq_sym E))) as P. destruct (process_feedback job f (r_jobs r)). exact P.
    - destruct (aget str_eqb job (r_jobs r)); [|reflexivity]. cbn [fst r_jobs]. apply (aget_aset_other str_eqb str_eqb_spec). intros E. apply N. symmetry. exact E.
  Qed.

  (** False of the code: once one data loader worker of a process has ended its stream, feedback from that process raises an
      AssertionError and is lost until some worker starts a chunk - although other workers are still streaming and the
      samples they (and the one that ended) loaded are still being trained on. *)
  Theorem C66_after_end_refuted job evs r who w c : c_dp c = 0 -> c_tp c = 0 -> 0 <= c_steps c ->
    Forall (fun e => match e with FWorker p _ => p <> who | _ => True end) evs ->
    fstep job (frun job (fst (fstep job r (FWorker who (WEnd w)))) evs) (FCall who c)
    = (frun job (fst (fstep job r (FWorker who (WEnd w)))) evs, Some AssertionError).
  Proof.
    intros Hd Ht Hs F. set (r0 := fst (fstep job r (FWorker who (WEnd w)))).
    assert (M0 : mark_of who r0 = -1).
    { subst r0. cbn [FeedbackModel.fstep fst]. unfold mark_of. cbn [r_marks]. rewrite (aget_aset_same Z.eqb Z.eqb_eq). reflexivity. }
    assert (M : mark_of who (frun job r0 evs) = -1).
    { clearbody r0. revert r0 M0. induction F as [|e evs Fe _ IH]; intros r0 M0; [exact M0|].
      change (frun job r0 (e :: evs)) with (frun job (fst (fstep job r0 e)) evs). apply IH.
      destruct e as [p x|p x|j f|k]; cbn [FeedbackModel.fstep].
      - cbn [fst]. unfold mark_of at 1. cbn [r_marks]. rewrite (aget_aset_other Z.eqb Z.eqb_eq) by exact Fe. exact M0.
      - destruct (to_send true (mark_of p r0) x) as [[f|]|y]; [destruct (process_feedback job f (r_jobs r0))| |]; exact M0.
      - exact M0.
      - destruct (aget str_eqb job (r_jobs r0)); exact M0. }
    cbn [FeedbackModel.fstep]. unfold to_send. rewrite Hd, Ht, M. destruct (Z.ltb_spec (c_steps c) 0); [lia|]. reflexivity.
  Qed.

  (** False of the code: a schedule never forwards losses or key ids to the mixtures in it, so a dynamic mixture in a
      schedule never adapts. *)
  Theorem C66_schedule_refuted job evs t s entries : Forall (foreign job) evs -> aget str_eqb job t = Some (MSchedule s entries) ->
    exists s', aget str_eqb job (r_jobs (frun job (start t) evs)) = Some (MSchedule s' entries).
  Proof.
    intros F H. rewrite (C66_told_partial job evs t _ F H). clear F H. generalize (told none evs). intros l. revert s.
    induction l as [|[f|k] l IH]; intros s; [exists s; reflexivity| |cbn [fold_left]; apply IH].
    cbn [fold_left]. assert (E : exists s1, fst (client_feedback f (MSchedule s entries)) = MSchedule s1 entries).
    { unfold FeedbackModel.client_feedback. cbv zeta. destruct (f_counts f), (f_losses f); eexists; reflexivity. }
    destruct E as [s1 ->]. apply IH.
  Qed.

  (** ** With a server in between *)
  Context {Ob Ar D : Type} (dumps : Ob -> list Z) (loads : list Z -> option Ob) (save : Ar -> list Z) (load : list Z -> option Ar) (job_of : Ob -> str)
    (floats : Ar -> list Q) (ints : Ar -> list Z).
  (** A server whose stub is a LocalStub, as far as feedback is concerned (server.py 433 with local_stub.py 215-223; a missing
      training step or mixture id, of a broken connection, raises in max() or in a comparison). *)
  Definition stub_feedback (job : option str) (steps mid : option Z) (losses counts : option Ar) (t : jobs S) : jobs S * (bool + nexn) :=
    match job with
    | None => (t, inl false)
    | Some j => match aget str_eqb j t with
                | None => (t, inl false)
                | Some _ => match steps, mid with
                            | Some st, Some i => let '(t', a) := process_feedback j (Message st i (option_map floats losses) (option_map ints counts)) t in
                                                 (t', match a with inl b => inl b | inr _ => inr OtherError end)
                            | _, _ => (t, inr OtherError)
                            end
                end
    end.
  Variable ops : stub Ob Ar (jobs S) D.
  Hypothesis local : so_feedback ops = stub_feedback.

  (** Sending feedback over the network, however it is fragmented, does what calling the stub does; the client is told True
      if nothing was raised.  (That includes unknown jobs, see C41_feedback_unknown_job.) *)
  Theorem C66_remote job steps mid losses counts b uuid (s : server Ob (jobs S) D) fr fr' :
    sent_ok dumps loads save load (CFeedback job steps mid losses counts) -> client_write dumps save (CFeedback job steps mid losses counts) = inl b ->
    timely fr -> timely fr' ->
    let '(t, a) := process_feedback job (Message steps mid (option_map floats losses) (option_map ints counts)) (sv_stub s) in
    exists ab, serve dumps loads load job_of ops uuid (mkReader b true fr) s = (set_stub s t, ab)
      /\ snd (client_read loads job_of (CFeedback job steps mid losses counts) (mkReader ab false fr')) = inl (RBool (match a with inl _ => true | inr _ => false end)).
  Proof.
    intros Hs Hb Ht Ht'. destruct (process_feedback job _ (sv_stub s)) as [t a] eqn:E.
    set (f := Message steps mid (option_map floats losses) (option_map ints counts)) in *.
    assert (Hh : handle job_of ops uuid (seen (CFeedback job steps mid losses counts)) s
                 = (set_stub s t, match a with inl _ => inl (AInt 1) | inr _ => inr OtherError end)).
    { cbn [seen handle]. rewrite local. unfold stub_feedback, with_stub. pose proof E as E'. unfold FeedbackModel.process_feedback in E'.
      destruct (aget str_eqb job (sv_stub s)).
      - fold f. rewrite E. destruct a; reflexivity.
      - injection E' as <- <-. destruct s; reflexivity. }
    destruct a as [b0|x].
    - destruct (C41_exchange dumps loads save load job_of ops _ b uuid s (set_stub s t) (AInt 1) (be 8 1) fr fr' Hs Hb Ht Ht' Hh I eq_refl) as [A B].
      exists (be 8 1). split; [exact A|exact B].
    - destruct (C41_handler_raises dumps loads save load job_of ops _ b uuid s (set_stub s t) OtherError fr fr' Hs Hb Ht Ht' Hh) as [A B].
      exists []. split; [exact A|exact B].
  Qed.
  (** A request that is cut anywhere is applied as it is or changes nothing, never something else. *)
  Theorem C66_cut job steps mid losses counts b part lost uuid (s : server Ob (jobs S) D) fr :
    sent_ok dumps loads save load (CFeedback job steps mid losses counts) -> client_write dumps save (CFeedback job steps mid losses counts) = inl b ->
    b = part ++ lost ->
    let s' := fst (serve dumps loads load job_of ops uuid (mkReader part false fr) s) in
    s' = s \/ s' = set_stub s (fst (process_feedback job (Message steps mid (option_map floats losses) (option_map ints counts)) (sv_stub s))).
  Proof.
    intros Hs Hb E. cbv zeta. unfold serve. destruct (snd (read_request loads load (mkReader part false fr))) as [[sq|]|e] eqn:R; [|left; reflexivity|left; reflexivity].
    pose proof (C41_truncated dumps loads save load _ b part lost fr sq Hs Hb E R) as P. destruct sq; cbn [partly] in P; try contradiction.
    destruct P as (Pj & Ps & Pm & -> & ->). cbn [handle]. rewrite local. unfold stub_feedback, with_stub.
    destruct s as [st x1 x2 x3 x4 x5 x6]; cbn [sv_stub].
    destruct Pj as [-> | ->]; [left; reflexivity|]. destruct (aget str_eqb job st) eqn:J; [|left; reflexivity].
    destruct Ps as [-> | ->]; [left; reflexivity|]. destruct Pm as [-> | ->]; [left; reflexivity|]. right.
    destruct (process_feedback job _ st) as [t [a|a]]; cbn; [destruct (write_int 1 IDN)|]; reflexivity.
  Qed.
End Theorems.

(** ** Non-trivial cases *)
Definition keyf (v : string) : mkey := [(lit "lang", [lit v])].
Definition dyn0 : dyn savg := mkDyn savg 10 [(keyf "a", 5); (keyf "b", 5)] savg0 false None [].
Definition J : str := lit "job".
Definition exactq (q : Q) : Q := Qred q.
Definition frun_ex := frun exactq (fun l => Qred (qsum l)) (avg_process exactq (fun l => Qred (qsum l))) avg_inform.
(** Two pipeline stages (0 and 1) and another rank; stage 1 has the losses. *)
Definition evs_ex : list fevent :=
  [FWorker 0 (WChunk 0 0); FWorker 1 (WChunk 0 0); FIds [(keyf "a", 0); (keyf "b", 1)];
   FCall 0 (Call 0 0 1 None None); FCall 1 (Call 0 0 1 (Some [8%Q; 2%Q]) (Some [1; 1])); FCall 2 (Call 1 0 1 (Some [1%Q; 1%Q]) (Some [1; 1]));
   FCall 0 (Call 0 0 2 None None); FOther (lit "other") (Message 7 0 None None)].
Definition mixes : list (str * mix savg) := [(J, MDynamic 0 dyn0); (lit "other", MPlain 0 [])].
Example C66_example :
  match aget str_eqb J (r_jobs (frun_ex J (start mixes) evs_ex)) with
  | Some m => step_of m = 2 /\ rows_of 1 m = [(keyf "a", 8); (keyf "b", 2)]
  | None => False
  end /\ Forall (foreign J) evs_ex /\ sent none evs_ex = [Message 1 0 None None; Message 1 0 (Some [8%Q; 2%Q]) (Some [1; 1]); Message 2 0 None None].
Proof. split; [vm_compute; auto|]. split; [|reflexivity]. repeat constructor. cbn. vm_compute. discriminate. Qed.
(** The same dynamic mixture in a schedule keeps its rows. *)
Example C66_schedule_example :
  match aget str_eqb J (r_jobs (frun_ex J (start [(J, MSchedule 0 [(0, MDynamic 0 dyn0)])]) evs_ex)) with
  | Some m => step_of m = 2 /\ rows_of 1 m = [(keyf "a", 5); (keyf "b", 5)]
  | None => False
  end.
Proof. vm_compute. auto. Qed.
(** One of two workers has ended; the other one is still streaming. *)
Example C66_after_end_example :
  snd (fstep exactq (fun l => Qred (qsum l)) (avg_process exactq (fun l => Qred (qsum l))) avg_inform J
    (frun_ex J (start mixes) [FWorker 0 (WChunk 0 0); FWorker 0 (WChunk 1 0); FWorker 0 (WEnd 1)]) (FCall 0 (Call 0 0 1 None None))) = Some AssertionError.
Proof. reflexivity. Qed.
(** A stub as the hypothesis of C66_remote asks for. *)
Example C66_remote_example : exists ops : stub str str (jobs savg) unit, so_feedback ops = stub_feedback exactq (fun l => Qred (qsum l)) (avg_process exactq (fun l => Qred (qsum l))) (fun _ => []) (fun _ => []).
Proof.
  exists (mkStub (Ob:=str) (Ar:=str) (D:=unit) (fun _ _ _ _ _ t => (t, inl false)) (fun _ _ t => (t, inl tt)) (fun _ _ => inl tt) (fun _ _ _ _ t => (t, inl None)) (fun _ _ => inr OtherError)
    (fun _ _ _ _ _ t => (t, inl false)) (fun _ _ t => (t, inl false)) (fun _ _ => inl false) (fun _ => inr OtherError) (fun _ t => (t, inl false))
    (fun _ _ _ _ _ _ _ _ _ _ _ t => (t, inl false)) (fun _ _ _ _ t => (t, inr OtherError)) (fun _ _ _ t => (t, inl false))
    (stub_feedback exactq (fun l => Qred (qsum l)) (avg_process exactq (fun l => Qred (qsum l))) (fun _ => []) (fun _ => []))
    (fun _ => inr OtherError)).
  reflexivity.
Qed.

Print Assumptions C66_told_partial.
Print Assumptions C66_losses_only.
Print Assumptions C66_step.
Print Assumptions C66_repeat.
Print Assumptions C66_other_jobs.
Print Assumptions C66_after_end_refuted.
Print Assumptions C66_schedule_refuted.
Print Assumptions C66_remote.
Print Assumptions C66_cut.
