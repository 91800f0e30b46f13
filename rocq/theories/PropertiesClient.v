(** C43 (a job id is executed at most once by the local client), C44 (the client's mixture id). *)
From Verif Require Import Base MixtureKeyModel MixtureKeyProofs ClientModel SpecClient.
Open Scope Z_scope.

Section C43.
  Context {Q M R Dst W A : Type} (job_of : Q -> str) (results : Q -> M -> W -> W * (R + cexn)) (new_distributor : Z -> Z -> Z -> R -> str -> Dst)
    (from_checkpoint : str -> str -> W -> Dst + cexn) (mixture_of : Dst -> M).
  Notation lrun := (lrun job_of results new_distributor from_checkpoint mixture_of).
  Notation lstep := (lstep job_of results new_distributor from_checkpoint mixture_of).
  Notation execute := (execute_query job_of results new_distributor).
  Notation local := (local Q M Dst W).
  Implicit Type ops : list (lop Q M Dst W A).

  Lemma amem_aset {V} k k' (v : V) l : amem str_eqb k l = true -> amem str_eqb k (aset str_eqb k' v l) = true.
  Proof.
    unfold amem. intros H. destruct (aget str_eqb k l) eqn:E; [|discriminate].
    destruct (list_eq_dec Z.eq_dec k' k) as [->|Hne]; [rewrite (aget_aset_same _ str_eqb_spec); reflexivity|rewrite (aget_aset_other _ str_eqb_spec) by exact Hne; rewrite E; reflexivity].
  Qed.
  Lemma amem_same {V} k (v : V) l : amem str_eqb k (aset str_eqb k v l) = true.
  Proof. unfold amem. rewrite (aget_aset_same _ str_eqb_spec). reflexivity. Qed.

  Lemma step_keeps (o : lop Q M Dst W A) (s : local) job : amem str_eqb job (lo_jobs s) = true -> amem str_eqb job (lo_jobs (fst (lstep o s))) = true.
  Proof.
    intros H. destruct o as [q m dp nd w|j c|j f|f]; cbn [ClientModel.lstep].
    - unfold execute_query. destruct (negb _); [exact H|]. destruct (amem str_eqb (job_of q) (lo_jobs s)) eqn:E; [exact H|].
      destruct (results q m (lo_world s)) as [w' [r|e]]; [|exact H]. unfold register_query. cbn [lo_jobs]. rewrite E. cbn. apply amem_aset, H.
    - cbn. unfold restore_checkpoint. destruct (from_checkpoint j c (lo_world s)); [|exact H]. cbn. apply amem_aset, H.
    - cbn. unfold use_job. destruct (aget str_eqb j (lo_jobs s)) as [[[d q] m]|]; [|exact H]. destruct (f d (lo_world s)) as [[d' w'] a]. cbn. apply amem_aset, H.
    - exact H.
  Qed.
  Lemma execute_true q m dp nd w (s s' : local) : execute q m dp nd w s = (s', inl true) ->
    amem str_eqb (job_of q) (lo_jobs s) = false /\ amem str_eqb (job_of q) (lo_jobs s') = true.
  Proof.
    unfold execute_query. destruct (negb _); [discriminate|]. destruct (amem str_eqb (job_of q) (lo_jobs s)) eqn:E; [discriminate|].
    destruct (results q m (lo_world s)) as [w' [r|e]]; [|discriminate]. unfold register_query. cbn [lo_jobs]. rewrite E. intros [= <-]. split; [reflexivity|]. apply amem_same.
  Qed.
  Lemma accepted_none ops : forall (s s' : local) rs job, amem str_eqb job (lo_jobs s) = true -> lrun ops s = (s', rs) -> accepted job_of job ops rs = 0%nat.
  Proof.
    induction ops as [|o ops IH]; intros s s' rs job H Hr; [reflexivity|]. cbn [ClientModel.lrun] in Hr. destruct (lstep o s) as [s1 r] eqn:E1. destruct (lrun ops s1) as [s2 rs'] eqn:E2. injection Hr as <- <-.
    pose proof (step_keeps o s job H) as H1. rewrite E1 in H1. cbn in H1. specialize (IH s1 s2 rs' job H1 E2).
    destruct o as [q m dp nd w|j c|j f|f]; cbn [accepted]; try exact IH. destruct r as [[[]|e]|]; try exact IH.
    destruct (list_eq_dec Z.eq_dec (job_of q) job) as [<-|]; [|exact IH]. exfalso. cbn [ClientModel.lstep] in E1. destruct (execute q m dp nd w s) as [s1' r'] eqn:Ex. injection E1 as -> ->.
    destruct (execute_true q m dp nd w s s1 Ex) as [X _]. congruence.
  Qed.

  Lemma run_keeps ops : forall (s s' : local) rs job, amem str_eqb job (lo_jobs s) = true -> lrun ops s = (s', rs) -> amem str_eqb job (lo_jobs s') = true.
  Proof.
    induction ops as [|o ops IH]; intros s s' rs job X E2; [injection E2 as <- <-; exact X|].
    cbn [ClientModel.lrun] in E2. destruct (lstep o s) as [sc r] eqn:E3. destruct (lrun ops sc) as [sd rsd] eqn:E4. injection E2 as <- <-. eapply IH; [|exact E4].
    pose proof (step_keeps o s job X) as Y. rewrite E3 in Y. exact Y.
  Qed.
  Lemma accepted_in ops : forall (s s' : local) rs job, lrun ops s = (s', rs) -> accepted job_of job ops rs = 1%nat -> amem str_eqb job (lo_jobs s') = true.
  Proof.
    induction ops as [|o ops IH]; intros s s' rs job H1 Hacc; [cbn in Hacc; discriminate|].
    cbn [ClientModel.lrun] in H1. destruct (lstep o s) as [sa r] eqn:E1. destruct (lrun ops sa) as [sb rs'] eqn:E2. injection H1 as <- <-.
    assert (Hstep : accepted job_of job ops rs' = 1%nat -> amem str_eqb job (lo_jobs sb) = true) by (apply (IH sa sb rs' job E2)).
    destruct o as [q0 m dp nd wk|j c|j f|f]; cbn [accepted] in Hacc; try (apply Hstep, Hacc). destruct r as [[[]|e]|]; try (apply Hstep, Hacc).
    destruct (list_eq_dec Z.eq_dec (job_of q0) job) as [Eq|]; [|apply Hstep, Hacc]. cbn [ClientModel.lstep] in E1. destruct (execute q0 m dp nd wk s) as [s1' r'] eqn:Ex. injection E1 as -> ->.
    destruct (execute_true q0 m dp nd wk s sa Ex) as [_ X]. rewrite Eq in X. eapply run_keeps; [exact X|exact E2].
  Qed.

  (** In every history of operations, at most one execution of a job id is accepted. *)
  Theorem C43_at_most_once ops w (s' : local) rs job : lrun ops (mkLocal w []) = (s', rs) -> (accepted job_of job ops rs <= 1)%nat.
  Proof.
    generalize (mkLocal w [] : local). revert s' rs. induction ops as [|o ops IH]; intros s' rs s Hr; [cbn; lia|]. cbn [ClientModel.lrun] in Hr.
    destruct (lstep o s) as [s1 r] eqn:E1. destruct (lrun ops s1) as [s2 rs'] eqn:E2. injection Hr as <- <-. pose proof (IH s2 rs' s1 E2) as H.
    destruct o as [q m dp nd wk|j c|j f|f]; cbn [accepted]; try exact H. destruct r as [[[]|e]|]; try exact H.
    destruct (list_eq_dec Z.eq_dec (job_of q) job) as [<-|]; [|exact H]. cbn [ClientModel.lstep] in E1. destruct (execute q m dp nd wk s) as [s1' r'] eqn:Ex. injection E1 as -> ->.
    destruct (execute_true q m dp nd wk s s1 Ex) as [_ X]. rewrite (accepted_none ops s1 s2 rs' (job_of q) X E2). lia.
  Qed.
  (** Once an execution of a job was accepted (or the job restored), every further execution is refused (or raises, if
      its arguments are invalid) and leaves the client, and so the running job, exactly as it was, whatever happened in
      between. *)
  Theorem C43_refused_untouched ops1 ops2 w (s1 s2 : local) rs1 rs2 q q' m' dp nd wk :
    lrun ops1 (mkLocal w []) = (s1, rs1) -> (accepted job_of (job_of q) ops1 rs1 = 1%nat \/ aget str_eqb (job_of q) (lo_jobs s1) <> None) ->
    lrun ops2 s1 = (s2, rs2) -> job_of q' = job_of q ->
    exists r, execute q' m' dp nd wk s2 = (s2, r) /\ r <> inl true /\ (0 < dp -> 0 < nd -> 0 <= wk -> r = inl false).
  Proof.
    intros H1 Hacc H2 Ej.
    assert (Hin : amem str_eqb (job_of q) (lo_jobs s1) = true).
    { destruct Hacc as [Hacc|Hacc]; [eapply accepted_in; eassumption|unfold amem; destruct (aget str_eqb (job_of q) (lo_jobs s1)); [reflexivity|congruence]]. }
    pose proof (run_keeps ops2 s1 s2 rs2 (job_of q) Hin H2) as Hin2.
    unfold execute_query. rewrite Ej, Hin2. destruct (Z.ltb_spec 0 dp), (Z.ltb_spec 0 nd), (Z.leb_spec 0 wk); cbn [negb andb]; eexists; (split; [reflexivity|]; split; [discriminate|]); intros; try reflexivity; lia.
  Qed.
  (** The running job of another id is not affected by an execution either. *)
  Theorem C43_other_jobs q m dp nd wk (s s' : local) r job : execute q m dp nd wk s = (s', r) -> job <> job_of q -> aget str_eqb job (lo_jobs s') = aget str_eqb job (lo_jobs s).
  Proof.
    unfold execute_query. intros H Hne. destruct (negb _); [injection H as <- <-; reflexivity|]. destruct (amem str_eqb (job_of q) (lo_jobs s)) eqn:E; [injection H as <- <-; reflexivity|].
    destruct (results q m (lo_world s)) as [w' [r0|e]]; [|injection H as <- <-; reflexivity]. unfold register_query in H. cbn [lo_jobs] in H. rewrite E in H. injection H as <- <-. cbn.
    apply (aget_aset_other _ str_eqb_spec). congruence.
  Qed.
End C43.

(** Not with threads: two threads that execute the same job id at once are both told True, and the second distributor
    replaces the first (a user who calls one LocalStub from two threads; the server serialises its calls). *)
Theorem C43_threads_refuted : exists (steps : list (tstep (Q:=str) (M:=unit))),
  let s := fold_left (fun s x => thread_step (fun q => q) (fun q _ w => (w + 1, inl w)) (fun _ _ _ r _ => r) x s) steps (mkThreads (mkLocal 0 []) [] []) in
  th_done s = [(2%nat, true); (1%nat, true)] /\ lo_jobs (th_local s) = [([65], (1, Some [65], tt))].
Proof. exists [Check 1 [65] tt; Check 2 [65] tt; Insert 1; Insert 2]. split; vm_compute; reflexivity. Qed.

Definition c43_run := lrun (Q:=str) (M:=unit) (R:=Z) (Dst:=Z) (W:=Z) (A:=unit) (fun q => q) (fun q _ w => (w + 1, if w =? 7 then inr COther else inl w)) (fun _ _ _ r _ => r) (fun _ _ _ => inl 100) (fun _ => tt).
Example C43_ex : c43_run [Execute [65] tt 0 1 1; Execute [65] tt 1 1 0; Use [65] (fun d w => (d + 10, w, tt)); Execute [65] tt 2 2 2; Execute [66] tt 1 1 1; Restore [65] [1]; Execute [65] tt 1 1 1] (mkLocal 0 [])
  = (mkLocal 2 [([65], (100, Some [65], tt)); ([66], (1, Some [66], tt))],
     [RExec (inr CAssertion); RExec (inl true); ROther; RExec (inl false); RExec (inl true); ROther; RExec (inl false)]).
Proof. vm_compute. reflexivity. Qed.

(** ** C44 *)
Lemma id_after_snoc evs e : id_after (evs ++ [e]) = id_step e (id_after evs).
Proof. unfold id_after. rewrite fold_left_app. reflexivity. Qed.
(** As long as no worker's stream has ended, the reported id is the largest of the chunks started so far ... *)
Theorem C44_largest_partial evs : no_end evs -> Forall (fun m => 0 <= m) (started evs) ->
  is_largest (current_mixture_id (id_after evs)) (started evs).
Proof.
  assert (H : no_end evs -> Forall (fun m => 0 <= m) (started evs) -> (id_after evs = -1 /\ started evs = []) \/ (0 <= id_after evs /\ In (id_after evs) (started evs) /\ Forall (fun x => x <= id_after evs) (started evs))).
  { induction evs as [|e evs IH] using rev_ind; intros Hn Hf; [left; auto|]. rewrite id_after_snoc. unfold no_end in Hn. rewrite Forall_app in Hn. destruct Hn as [Hn He].
    unfold started in *. rewrite flat_map_app in *. rewrite Forall_app in Hf. destruct Hf as [Hf Hfe]. cbn [flat_map app] in *. rewrite app_nil_r in *.
    destruct e as [w m|w]; [|inversion He; contradiction]. inversion Hfe as [|? ? Hm _]; subst. right. cbn [id_step]. destruct (IH Hn Hf) as [[-> E]|(H0 & Hi & Hl)].
    - rewrite E. rewrite Z.max_l by lia. split; [exact Hm|]. split; [left; reflexivity|constructor; [lia|constructor]].
    - split; [lia|]. split.
      + apply in_or_app. destruct (Z.max_spec m (id_after evs)) as [[_ ->]|[_ ->]]; [left; exact Hi|right; left; reflexivity].
      + apply Forall_app. split; [eapply Forall_impl; [|exact Hl]; cbv beta; intros; lia|constructor; [lia|constructor]]. }
  intros Hn Hf. unfold current_mixture_id. destruct (H Hn Hf) as [[-> E]|(H0 & Hi & Hl)]; [exact E|]. destruct (Z.ltb_spec (id_after evs) 0); [lia|]. split; assumption.
Qed.
(** ... and never decreases, whatever happened before. *)
Theorem C44_monotone_partial evs evs' : no_end evs' -> id_le (current_mixture_id (id_after evs)) (current_mixture_id (id_after (evs ++ evs'))).
Proof.
  intros Hn. assert (H : id_after evs <= id_after (evs ++ evs')).
  { induction evs' as [|e evs' IH] using rev_ind; [rewrite app_nil_r; lia|]. unfold no_end in Hn. rewrite Forall_app in Hn. destruct Hn as [Hn He].
    rewrite app_assoc, id_after_snoc. specialize (IH Hn). destruct e as [w m|w]; [cbn; lia|inversion He; contradiction]. }
  unfold current_mixture_id, id_le. destruct (Z.ltb_spec (id_after evs) 0); [exact I|]. destruct (Z.ltb_spec (id_after (evs ++ evs')) 0); lia.
Qed.
(** In general: the largest id of the chunks started since the last time any worker's stream ended. *)
Theorem C44_since_last_end evs w evs' : no_end evs' -> Forall (fun m => 0 <= m) (started evs') -> is_largest (current_mixture_id (id_after (evs ++ WEnd w :: evs'))) (started evs').
Proof.
  intros Hn Hf. replace (id_after (evs ++ WEnd w :: evs')) with (id_after evs') by (unfold id_after; rewrite fold_left_app; reflexivity). apply C44_largest_partial; assumption.
Qed.
(** False with several workers: one worker reaching its end makes the client forget the id while another streams. *)
Theorem C44_shared_refuted : exists evs, current_mixture_id (id_after evs) = Some 3 /\ current_mixture_id (id_after (evs ++ [WEnd 1])) = None
  /\ current_mixture_id (id_after (evs ++ [WEnd 1; WChunk 0 2])) = Some 2 /\ In (WChunk 0 3) evs /\ ~ In (WEnd 0) evs.
Proof. exists [WChunk 0 1; WChunk 1 2; WChunk 0 3]. repeat split; try (vm_compute; reflexivity). - cbn; auto. - cbn. intuition discriminate. Qed.
Example C44_ex : no_end [WChunk 0 1; WChunk 1 0; WChunk 1 4] /\ current_mixture_id (id_after [WChunk 0 1; WChunk 1 0; WChunk 1 4]) = Some 4.
Proof. split; [repeat constructor|reflexivity]. Qed.

Print Assumptions C43_at_most_once.
Print Assumptions C43_refused_untouched.
Print Assumptions C43_other_jobs.
Print Assumptions C43_threads_refuted.
Print Assumptions C44_largest_partial.
Print Assumptions C44_monotone_partial.
Print Assumptions C44_since_last_end.
Print Assumptions C44_shared_refuted.
