From Coq Require Import QArith.
From Verif Require Import Base MixtureKeyModel MixtureKeyProofs UtilsModel ChunkGenModel ClientModel MixtureModel DynModel FeedbackModel SpecFeedback.
Open Scope Z_scope.

Section Proofs.
  Context {S : Type} (fl : Q -> Q) (nsum : list Q -> Q) (process : list Q -> list Z -> Z -> S -> S * (option (list Q) + exn)) (inform : list Q -> S -> S).
  Notation client_feedback := (client_feedback fl nsum process).
  Notation process_feedback := (process_feedback fl nsum process).
  Notation id_map := (id_map fl nsum inform).
  Notation fstep := (fstep fl nsum process inform).
  Notation frun := (frun fl nsum process inform).
  Notation take_losses := (take_losses fl nsum process).

  Definition norm (m : mix S) : mix S := set_step 0 m.
  Lemma norm_set s m : norm (set_step s m) = norm m.
  Proof. destruct m; reflexivity. Qed.
  Lemma step_set s (m : mix S) : step_of (set_step s m) = s.
  Proof. destruct m; reflexivity. Qed.
  Lemma set_self (m : mix S) : set_step (step_of m) m = m.
  Proof. destruct m; reflexivity. Qed.
  Lemma norm_back m m2 : norm m = norm m2 -> m = set_step (step_of m) m2.
  Proof. destruct m, m2; cbn; intros H; congruence. Qed.

  Lemma take_step l c i s m : take_losses l c i (set_step s m) = (set_step s (fst (take_losses l c i m)), snd (take_losses l c i m)).
  Proof. destruct m; try reflexivity. cbn. destruct (dyn_losses _ _ _ _ _ _ _). reflexivity. Qed.
  Lemma take_step_of l c i m : step_of (fst (take_losses l c i m)) = step_of m.
  Proof. destruct m; try reflexivity. cbn. destruct (dyn_losses _ _ _ _ _ _ _). reflexivity. Qed.
  Lemma fb_step f m : step_of (fst (client_feedback f m)) = Z.max (step_of m) (f_steps f).
  Proof.
    unfold FeedbackModel.client_feedback. cbv zeta. destruct (f_counts f), (f_losses f); cbn [fst]; rewrite ?take_step_of, ?step_set; reflexivity.
  Qed.
  Lemma fb_norm f m : norm (fst (client_feedback f m)) = match f_losses f, f_counts f with
     | Some l, Some c => norm (fst (take_losses l c (f_mixture f) m)) | _, _ => norm m end.
  Proof.
    unfold FeedbackModel.client_feedback. cbv zeta. destruct (f_counts f), (f_losses f); cbn [fst]; rewrite ?take_step; cbn [fst]; rewrite ?norm_set; reflexivity.
  Qed.
  Lemma take_norm l c i m m2 : norm m = norm m2 -> norm (fst (take_losses l c i m)) = norm (fst (take_losses l c i m2)).
  Proof. intros H. rewrite (norm_back _ _ H), take_step. cbn [fst]. apply norm_set. Qed.
  Lemma id_norm k m m2 : norm m = norm m2 -> norm (fst (id_map k m)) = norm (fst (id_map k m2)).
  Proof.
    intros H. rewrite (norm_back _ _ H). destruct m2; cbn; try reflexivity. destruct (process_id_map _ _ _ _ _). reflexivity.
  Qed.
  Lemma id_step_of k m : step_of (fst (id_map k m)) = step_of m.
  Proof. destruct m; cbn; try reflexivity. destruct (process_id_map _ _ _ _ _). reflexivity. Qed.

  Lemma pf_job job f t m : aget str_eqb job t = Some m -> aget str_eqb job (fst (process_feedback job f t)) = Some (fst (client_feedback f m)).
  Proof.
    intros H. unfold FeedbackModel.process_feedback. rewrite H. destruct (client_feedback f m). cbn. apply (aget_aset_same str_eqb str_eqb_spec).
  Qed.
  Lemma pf_other job j f t : j <> job -> aget str_eqb job (fst (process_feedback j f t)) = aget str_eqb job t.
  Proof.
    intros N. unfold FeedbackModel.process_feedback. destruct (aget str_eqb j t); [|reflexivity]. destruct (client_feedback f m). cbn.
    apply (aget_aset_other str_eqb str_eqb_spec). exact N.
  Qed.

  (** The marks of the model are the ids of the specification. *)
  Definition marks_are (r : run S) (ids : Z -> option Z) : Prop := forall p, current_mixture_id (mark_of p r) = ids p /\ -1 <= mark_of p r.
  Lemma marks_step job r e ids : marks_are r ids -> marks_are (fst (fstep job r e)) (live_step e ids).
  Proof.
    intros H. destruct e as [who w|who c|j f|k]; cbn [FeedbackModel.fstep].
    - intros p. destruct (H p) as [Hp Lp].
      assert (Em : mark_of p (fst (Run (aset Z.eqb who (id_step w (mark_of who r)) (r_marks r)) (r_jobs r), @None exn)) = if who =? p then id_step w (mark_of who r) else mark_of p r).
      { cbn [fst]. unfold mark_of at 1. cbn [r_marks]. rewrite (aget_aset Z.eqb Z.eqb_eq). destruct (who =? p); reflexivity. }
      rewrite Em. rewrite (Z.eqb_sym who p).
      destruct (Z.eqb_spec p who) as [->|N].
      + destruct w as [n i|n]; cbn [id_step live_step].
        * rewrite Z.eqb_refl. rewrite <- Hp. unfold current_mixture_id.
          destruct (Z.ltb_spec (mark_of who r) 0), (Z.ltb_spec i 0), (Z.ltb_spec (Z.max i (mark_of who r)) 0); split; try lia; try reflexivity; try (f_equal; lia).
        * rewrite Z.eqb_refl. split; [reflexivity|lia].
      + destruct w as [n i|n]; cbn [live_step]; rewrite (proj2 (Z.eqb_neq p who) N); exact (H p).
    - destruct (to_send true (mark_of who r) c) as [[f|]|x]; [destruct (process_feedback job f (r_jobs r))| |]; exact H.
    - exact H.
    - destruct (aget str_eqb job (r_jobs r)); exact H.
  Qed.
  Lemma marks_same job r r2 e : r_marks r = r_marks r2 -> r_marks (fst (fstep job r e)) = r_marks (fst (fstep job r2 e)).
  Proof.
    intros H. destruct e as [who w|who c|j f|k]; cbn [FeedbackModel.fstep].
    - cbn. unfold mark_of. rewrite H. reflexivity.
    - destruct (to_send true (mark_of who r) c) as [[f|]|x]; [destruct (process_feedback job f (r_jobs r))| |]; (destruct (to_send true (mark_of who r2) c) as [[g|]|y]; [destruct (process_feedback job g (r_jobs r2))| |]); exact H.
    - exact H.
    - destruct (aget str_eqb job (r_jobs r)), (aget str_eqb job (r_jobs r2)); exact H.
  Qed.
  Lemma marks_unless job r e : matters e = false -> r_marks (fst (fstep job r e)) = r_marks r.
  Proof.
    intros H. destruct e as [who w|who c|j f|k]; try discriminate; cbn [FeedbackModel.fstep].
    - destruct (to_send true (mark_of who r) c) as [[f|]|x]; [destruct (process_feedback job f (r_jobs r))| |]; reflexivity.
    - reflexivity.
  Qed.

  (** What one event does to the job's mixture. *)
  Lemma step_job job r e m : foreign job e -> aget str_eqb job (r_jobs r) = Some m ->
    aget str_eqb job (r_jobs (fst (fstep job r e))) = Some (match e with
      | FCall who c => match to_send true (mark_of who r) c with Ok (Some f) => fst (client_feedback f m) | _ => m end
      | FIds k => fst (id_map k m)
      | _ => m end).
  Proof.
    intros F H. destruct e as [who w|who c|j f|k]; cbn [FeedbackModel.fstep].
    - exact H.
    - destruct (to_send true (mark_of who r) c) as [[f|]|x]; [|exact H|exact H].
      pose proof (pf_job job f _ _ H) as P. destruct (process_feedback job f (r_jobs r)). exact P.
    - cbn [fst r_jobs]. rewrite (pf_other job j f _ F). exact H.
    - rewrite H. cbn [fst r_jobs]. apply (aget_aset_same str_eqb str_eqb_spec).
  Qed.
  Lemma send_none mark c : (c_dp c =? 0) && (c_tp c =? 0) = false -> match to_send true mark c with Ok (Some f) => False | _ => True end.
  Proof.
    intros H. unfold to_send. destruct (c_steps c <? 0); [exact I|]. rewrite <- negb_andb, H. exact I.
  Qed.
  Lemma send_some mark c f : to_send true mark c = Ok (Some f) -> f_losses f = c_losses c /\ f_counts f = c_counts c /\ f_steps f = c_steps c.
  Proof.
    unfold to_send. destruct (c_steps c <? 0); [discriminate|]. destruct (negb (c_dp c =? 0) || _); [discriminate|]. cbn [negb].
    destruct (current_mixture_id mark); [|discriminate]. intros E. injection E as <-. auto.
  Qed.

  Lemma run_losses job evs : Forall (foreign job) evs -> forall r r2 m m2, r_marks r = r_marks r2 ->
    aget str_eqb job (r_jobs r) = Some m -> aget str_eqb job (r_jobs r2) = Some m2 -> norm m = norm m2 ->
    exists m' m2', aget str_eqb job (r_jobs (frun job r evs)) = Some m'
      /\ aget str_eqb job (r_jobs (frun job r2 (filter matters evs))) = Some m2' /\ norm m' = norm m2'.
  Proof.
    induction 1 as [|e evs F FF IH]; intros r r2 m m2 M J1 J2 N; [exists m, m2; auto|].
    cbn [filter]. pose proof (step_job job r e m F J1) as P1. pose proof (step_job job r2 e m2 F J2) as P2.
    destruct (matters e) eqn:Em.
    - cbn [FeedbackModel.frun fold_left]. eapply IH; [apply marks_same, M|exact P1|exact P2|].
      destruct e as [who w|who c|j f|k]; try exact N.
      + assert (Hm : mark_of who r = mark_of who r2) by (unfold mark_of; rewrite M; reflexivity). rewrite Hm.
        destruct (to_send true (mark_of who r2) c) as [[f|]|x]; try exact N. rewrite !fb_norm.
        destruct (f_losses f), (f_counts f); try exact N. apply take_norm, N.
      + apply id_norm, N.
    - cbn [FeedbackModel.frun fold_left]. eapply IH; [rewrite (marks_unless job r e Em); exact M|exact P1|exact J2|].
      destruct e as [who w|who c|j f|k]; try exact N; try discriminate.
      destruct (to_send true (mark_of who r) c) as [[f|]|x] eqn:Es; try exact N. rewrite fb_norm.
      destruct (send_some _ _ _ Es) as (El & Ec & _). rewrite El, Ec. cbn [matters] in Em. apply andb_false_iff in Em as [Em|Em].
      + pose proof (send_none (mark_of who r) c Em) as X. rewrite Es in X. contradiction.
      + destruct (c_losses c); [|exact N]. destruct (c_counts c); [discriminate|exact N].
  Qed.

  Lemma run_steps job evs : Forall (foreign job) evs -> forall r m ids, marks_are r ids -> aget str_eqb job (r_jobs r) = Some m ->
    exists m', aget str_eqb job (r_jobs (frun job r evs)) = Some m'
      /\ step_of m' = fold_left Z.max (map f_steps (sent ids evs)) (step_of m).
  Proof.
    induction 1 as [|e evs F FF IH]; intros r m ids M J; [exists m; auto|].
    pose proof (step_job job r e m F J) as P. destruct (IH _ _ _ (marks_step job r e ids M) P) as (m' & A & B).
    exists m'. split; [exact A|]. rewrite B. cbn [sent]. rewrite map_app, fold_left_app.
    replace (step_of _) with (fold_left Z.max (map f_steps match e with
      | FCall who c => if (c_dp c =? 0) && (c_tp c =? 0) && (0 <=? c_steps c)
                       then match ids who with Some i => [Message (c_steps c) i (c_losses c) (c_counts c)] | None => [] end else []
      | _ => [] end) (step_of m)); [reflexivity|].
    destruct e as [who w|who c|j f|k]; try reflexivity; [|cbn; symmetry; apply id_step_of].
    destruct (M who) as [Hm _]. unfold to_send. rewrite <- negb_andb. rewrite (Z.ltb_antisym 0 (c_steps c)).
    destruct (0 <=? c_steps c); cbn [negb]; [|rewrite andb_false_r; reflexivity].
    rewrite andb_true_r. destruct ((c_dp c =? 0) && (c_tp c =? 0)); cbn [negb]; [|reflexivity].
    rewrite Hm. destruct (ids who) as [i|]; [|reflexivity]. rewrite fb_step. reflexivity.
  Qed.

  Lemma run_told job evs : Forall (foreign job) evs -> forall r m ids, marks_are r ids -> aget str_eqb job (r_jobs r) = Some m ->
    aget str_eqb job (r_jobs (frun job r evs))
    = Some (fold_left (fun m x => match x with inl f => fst (client_feedback f m) | inr k => fst (id_map k m) end) (told ids evs) m).
  Proof.
    induction 1 as [|e evs F FF IH]; intros r m ids M J; [exact J|].
    pose proof (step_job job r e m F J) as P. change (frun job r (e :: evs)) with (frun job (fst (fstep job r e)) evs).
    rewrite (IH _ _ _ (marks_step job r e ids M) P). f_equal. cbn [told]. rewrite fold_left_app. f_equal.
    destruct e as [who w|who c|j f|k]; try reflexivity.
    destruct (M who) as [Hm _]. unfold to_send. rewrite <- negb_andb. rewrite (Z.ltb_antisym 0 (c_steps c)).
    destruct (0 <=? c_steps c); cbn [negb]; [|rewrite andb_false_r; reflexivity].
    rewrite andb_true_r. destruct ((c_dp c =? 0) && (c_tp c =? 0)); cbn [negb]; [|reflexivity].
    rewrite Hm. destruct (ids who) as [i|]; reflexivity.
  Qed.
End Proofs.
