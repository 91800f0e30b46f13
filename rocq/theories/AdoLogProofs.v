(** Proofs about the log of ADO (C91). *)
From Verif Require Import Base MixtureKeyModel UtilsModel UtilsProofs ChunkGenModel MixtureModel MixtureProofs DynModel SpecDyn DynProofs DynProofs2 DynProofs3
  SpecAdoFit AdoFitProofs PropertiesDyn2 AdoLogModel SpecAdoLog.
From Coq Require Import QArith.
Open Scope Z_scope.

Section Log.
  Variables (fl : Q -> Q) (nsum : list Q -> Q) (cfg : config) (P : Type) (p_zero : P).
  Variable fit1 : list (list Z) -> list (list Q) -> Z -> nat -> res P.
  Variable deriv : P -> Q -> Q.
  Variable pow_s : Q -> Q.
  Notation ado := (ado P).
  Notation ado_mix := (ado_mix fl nsum cfg P deriv pow_s).
  Notation ado_calc := (ado_calc fl nsum cfg P p_zero fit1 deriv pow_s).
  Notation ado_process := (ado_process fl nsum cfg P p_zero fit1 deriv pow_s).
  Notation log_mix := (log_mix fl nsum cfg P deriv pow_s).
  Notation log_calc := (log_calc fl nsum cfg P p_zero fit1 deriv pow_s).
  Notation log_process := (log_process fl nsum cfg P p_zero fit1 deriv pow_s).
  Notation lstate := (lstate P).

  (** A write at the end of a step, if it is demanded. *)
  Definition finish (d : bool) (w : outcome) (m : option (list Q)) (s : lstate) : lstate * (option (list Q) + lexn) :=
    if d then let '(s, e) := write_logs P w s in match e with Some e => (s, inr e) | None => (s, inl m) end else (s, inl m).

  Lemma update_h_keeps k (o : ado) : o_pi P (fst (update_h fl cfg P k o)) = o_pi P o /\ o_params P (fst (update_h fl cfg P k o)) = o_params P o /\ o_handed P (fst (update_h fl cfg P k o)) = o_handed P o /\ o_mu P (fst (update_h fl cfg P k o)) = o_mu P o.
  Proof. unfold update_h. destruct (o_h P o); [|repeat split]. destruct (o_pi P o) eqn:E; [|repeat split; cbn; congruence]. destruct (blend _ _ _ _); repeat split; cbn; congruence. Qed.
  Lemma mix_answer b o o' m : ado_mix b o = (o', inl m) -> m = o_pi P o' /\ (exists pi, m = Some pi) /\ o_params P o' = o_params P o /\ (exists ps, o_params P o = Some ps).
  Proof.
    unfold DynModel.ado_mix. destruct (o_params P o) as [ps|] eqn:Eps; [|discriminate]. destruct (o_h P o) as [h|] eqn:Eh; [|discriminate]. destruct (o_mu P o) as [mu|]; [|discriminate].
    destruct (loss_derivative _ _ _ _ _ _) as [dl|]; [|discriminate]. destruct (compute_rho _ _ _ _ _ _ _) as [rho|]; [|discriminate].
    cbv zeta. destruct (blend _ (c_gamma2 cfg) _ _) as [pi0|]; [|discriminate]. destruct (normalise _ _ pi0) as [pi1|]; [|discriminate].
    destruct (enforce_min _ _ _ _ _ _) as [pi|]; [|discriminate]. set (o1 := set_pi P (Some pi) _).
    set (u1 := match c_variant cfg with Vanilla => _ | _ => _ end).
    assert (Hf : o_pi P (fst u1) = Some pi /\ o_params P (fst u1) = Some ps).
    { assert (H1 : o_pi P o1 = Some pi /\ o_params P o1 = Some ps) by (split; [reflexivity|exact Eps]). assert (Hu : forall k, o_pi P (fst (update_h fl cfg P k o1)) = Some pi /\ o_params P (fst (update_h fl cfg P k o1)) = Some ps).
      { intros k. destruct (update_h_keeps k o1) as (-> & -> & _). exact H1. }
      unfold u1. destruct (c_variant cfg); try apply Hu; try exact H1; destruct b; try apply Hu; exact H1. }
    destruct u1 as [o2 e2]. cbn [fst] in Hf. destruct e2; [discriminate|]. destruct (blend _ _ _ _); [|discriminate]. destruct (normalise _ _ _); [|discriminate].
    intros E. injection E as <- <-. cbn. destruct Hf as [-> ->]. repeat split; eauto.
  Qed.

  Lemma mix_handed b o o' m : ado_mix b o = (o', inl m) -> o_handed P o' = true.
  Proof.
    unfold DynModel.ado_mix. destruct (o_params P o) as [ps|]; [|discriminate]. destruct (o_h P o) as [h|]; [|discriminate]. destruct (o_mu P o) as [mu|]; [|discriminate].
    destruct (loss_derivative _ _ _ _ _ _) as [dl|]; [|discriminate]. destruct (compute_rho _ _ _ _ _ _ _) as [rho|]; [|discriminate].
    cbv zeta. destruct (blend _ (c_gamma2 cfg) _ _) as [pi0|]; [|discriminate]. destruct (normalise _ _ pi0) as [pi1|]; [|discriminate].
    destruct (enforce_min _ _ _ _ _ _) as [pi|]; [|discriminate]. set (o1 := set_pi P (Some pi) _).
    set (u1 := match c_variant cfg with Vanilla => _ | _ => _ end).
    destruct u1 as [o2 e2]. destruct e2; [discriminate|]. destruct (blend _ _ _ _); [|discriminate]. destruct (normalise _ _ _); [|discriminate].
    intros E. injection E as <- <-. reflexivity.
  Qed.
  Lemma log_mix_ok b force w (s : lstate) o' m : ado_mix b (l_ado P s) = (o', inl m) ->
    exists dl, log_mix b force w s = finish ((o_steps P o' mod 5000 =? 0) || force) w m
                 (add_entry P (Some (mkMixed P (o_h P o') (o_pi P o') (o_pibar P o') (o_rho P o') dl (o_params P o'))) (on_ado P o' s)).
  Proof. intros E. unfold AdoLogModel.log_mix. rewrite E. eexists. unfold finish. cbv zeta. reflexivity. Qed.
  Lemma log_mix_err b force w (s : lstate) o' e : ado_mix b (l_ado P s) = (o', inr e) -> log_mix b force w s = (on_ado P o' s, inr (Raised e)).
  Proof. intros E. unfold AdoLogModel.log_mix. rewrite E. reflexivity. Qed.

  (** The entry of a step, its fit lines, and the log after it. *)
  Definition entry_of (o' : ado) (m : option (list Q)) (dl : list Q) : list (entry P) :=
    let e x := mkEntry P (o_steps P o') (a_counts (o_acc P o')) (a_losses (o_acc P o')) x in
    if o_steps P o' <? c_start cfg then [e None]
    else match m with Some _ => [e (Some (mkMixed P (o_h P o') (o_pi P o') (o_pibar P o') (o_rho P o') dl (o_params P o')))] | None => [] end.
  Definition fit_due (T : Z) : bool := (T =? c_start cfg) || ((c_start cfg <=? T) && ((T - c_start cfg) mod c_interval cfg =? 0)).
  Definition lines_of (o' : ado) : list (law_entry P) :=
    if fit_due (o_steps P o') then match o_params P o' with Some ps => map (fun kp => mkLawEntry P (o_steps P o') (fst kp) (snd kp)) (combine (seq 0 (length ps)) ps) | None => [] end else [].
  Definition log_of (g : alog P) (o' : ado) (m : option (list Q)) (dl : list Q) : alog P :=
    mkAlog P (g_entries P g ++ entry_of o' m dl) (g_laws P g ++ lines_of o') (g_counts P g).
  (** Whether a step asks for a write. *)
  Definition wants (o o' : ado) (m : option (list Q)) : bool :=
    let x := match m with Some _ => true | None => false end in
    ((o_steps P o' mod 5000 =? 0) && ((o_steps P o' <? c_start cfg) || x))
    || match c_variant cfg with AdjustedV3 => o_handed P o && x && negb (o_steps P o' <? c_start cfg) | _ => false end.

  Lemma set_prior_keeps (o o1 : ado) e : set_prior nsum P o = (o1, e) -> o_steps P o1 = o_steps P o /\ o_handed P o1 = o_handed P o /\ o_params P o1 = o_params P o /\ o_acc P o1 = o_acc P o.
  Proof.
    unfold set_prior. destruct (o_mu P o); [intros E; injection E as <- <-; auto|]. cbv zeta.
    destruct (Nat.ltb _ _); [intros E; injection E as <- <-; auto|]. destruct (negb _); intros E; injection E as <- <-; auto.
  Qed.
  Lemma refit_due_ok T r : c_start cfg <= T -> refit_due cfg T = Ok r -> r = fit_due T.
  Proof.
    intros H. unfold refit_due, fit_due. destruct (T =? c_start cfg); [intros E; injection E as <-; reflexivity|]. destruct (c_interval cfg =? 0); [discriminate|].
    intros E. injection E as <-. apply Z.leb_le in H. rewrite H. reflexivity.
  Qed.
  Lemma log_fit_ok (s : lstate) : let '(o, e) := fit_scaling_laws P p_zero fit1 (l_ado P s) in
    match e with
    | Some _ => log_fit P p_zero fit1 s = (on_ado P o s, e)
    | None => exists ps, o_params P o = Some ps /\ length ps = length (a_counts (o_acc P o)) /\ o = set_params P (Some ps) (l_ado P s) /\ log_fit P p_zero fit1 s = (add_laws P ps (on_ado P o s), None)
    end.
  Proof.
    unfold log_fit. pose proof (fit_ok P p_zero fit1 (l_ado P s)) as H. destruct (fit_scaling_laws _ _ _ _) as [o e]. destruct H as [(ps & -> & L) _].
    destruct e; [reflexivity|]. exists ps. split; [reflexivity|]. split; [exact L|]. split; reflexivity.
  Qed.
  Lemma fit_due_warm T : T < c_start cfg -> fit_due T = false.
  Proof. intros H. unfold fit_due. destruct (Z.eqb_spec T (c_start cfg)); [lia|]. destruct (Z.leb_spec (c_start cfg) T); [lia|]. reflexivity. Qed.

  Lemma log_calc_ok w b (s : lstate) : let '(o', r) := ado_calc b (l_ado P s) in
    match r with
    | inr e => exists s', log_calc w b s = (s', inr (Raised e)) /\ l_ado P s' = o' /\ l_file P s' = l_file P s
    | inl m => exists dl, log_calc w b s = finish (wants (l_ado P s) o' m) w m (mkL P o' (log_of (l_log P s) o' m dl) (l_file P s))
    end.
  Proof.
    unfold DynModel.ado_calc, AdoLogModel.log_calc. set (o0 := set_steps P _ _). destruct (set_prior nsum P o0) as [o1 e1] eqn:E1. apply set_prior_keeps in E1. destruct E1 as (S1 & H1 & _).
    change (o_handed P o0) with (o_handed P (l_ado P s)) in H1.
    destruct e1 as [e1|]; [eexists; split; [reflexivity|split; reflexivity]|]. destruct (o_steps P o1 <? c_start cfg) eqn:Est.
    - exists []. unfold finish, wants, log_of, entry_of, lines_of. rewrite Est. rewrite fit_due_warm by (apply Z.ltb_lt; exact Est). rewrite app_nil_r. cbn [orb negb]. rewrite andb_true_r, andb_false_r.
      replace (match c_variant cfg with AdjustedV3 => false | _ => false end) with false by (destruct (c_variant cfg); reflexivity). rewrite orb_false_r. reflexivity.
    - cbv zeta. set (o2 := set_h P _ _ o1). change (o_steps P o1) with (o_steps P o2) in *. change (o_handed P o1) with (o_handed P o2) in H1.
      destruct (refit_due cfg (o_steps P o2)) as [rf|e] eqn:Erf; [|eexists; split; [reflexivity|split; reflexivity]].
      apply refit_due_ok in Erf; [|apply Z.ltb_ge; exact Est].
      set (s2 := on_ado P o2 (on_ado P o1 s)).
      assert (Hw : let '(o3, e3) := if rf then fit_scaling_laws P p_zero fit1 o2 else (o2, None) in
                   o_steps P o3 = o_steps P o2 /\ o_handed P o3 = o_handed P o2 /\
                   match e3 with
                   | Some e => (if rf then log_fit P p_zero fit1 s2 else (s2, None)) = (on_ado P o3 s2, Some e)
                   | None => exists s3, (if rf then log_fit P p_zero fit1 s2 else (s2, None)) = (s3, None) /\ l_ado P s3 = o3 /\ l_file P s3 = l_file P s
                       /\ l_log P s3 = mkAlog P (g_entries P (l_log P s)) (g_laws P (l_log P s) ++ lines_of o3) (g_counts P (l_log P s))
                   end).
      { destruct rf.
        - pose proof (log_fit_ok s2) as H. change (l_ado P s2) with o2 in H. destruct (fit_scaling_laws P p_zero fit1 o2) as [o3 e3] eqn:Ef. destruct e3 as [e3|].
          + pose proof (fit_ok P p_zero fit1 o2) as F. rewrite Ef in F. destruct F as [(ps & -> & _) _]. split; [reflexivity|]. split; [reflexivity|]. exact H.
          + destruct H as (ps & A1 & A2 & -> & A4). split; [reflexivity|]. split; [reflexivity|]. eexists. split; [exact A4|]. split; [reflexivity|]. split; [reflexivity|].
            unfold lines_of. cbn [o_steps set_params]. rewrite <- Erf. reflexivity.
        - split; [reflexivity|]. split; [reflexivity|]. exists s2. split; [reflexivity|]. split; [reflexivity|]. split; [reflexivity|]. unfold lines_of. rewrite <- Erf, app_nil_r. cbn. destruct (l_log P s); reflexivity. }
      destruct (if rf then fit_scaling_laws P p_zero fit1 o2 else (o2, None)) as [o3 e3]. destruct Hw as (S3 & H3 & Hw). destruct e3 as [e3|].
      { rewrite Hw. eexists. split; [reflexivity|]. split; reflexivity. }
      destruct Hw as (s3 & -> & <- & F3 & L3).
      (* the mixture *)
      assert (Hm : forall force s4, o_steps P (l_ado P s4) = o_steps P o2 -> o_params P (l_ado P s4) = o_params P (l_ado P s3) -> l_file P s4 = l_file P s3 -> l_log P s4 = l_log P s3 ->
                  (force = match c_variant cfg with AdjustedV3 => o_handed P (l_ado P s) | _ => false end) ->
                  let '(o', r) := ado_mix b (l_ado P s4) in
                  match r with
                  | inr e => exists s', log_mix b force w s4 = (s', inr (Raised e)) /\ l_ado P s' = o' /\ l_file P s' = l_file P s
                  | inl m => exists dl, log_mix b force w s4 = finish (wants (l_ado P s) o' m) w m (mkL P o' (log_of (l_log P s) o' m dl) (l_file P s))
                  end).
      { intros force s4 A1 A2 A3 A4 Hforce. pose proof (mix_steps fl nsum cfg P deriv pow_s b (l_ado P s4)) as Sx. destruct (ado_mix b (l_ado P s4)) as [o' [m|e]] eqn:Em; cbn [fst] in Sx.
        - destruct (log_mix_ok b force w s4 o' m Em) as (dl & ->). exists dl. destruct (mix_answer b _ _ _ Em) as (Em' & (pi & Epi) & Ep & (ps & Eps)).
          assert (Est' : o_steps P o' <? c_start cfg = false) by (rewrite Sx, A1; exact Est).
          f_equal.
          + unfold wants. rewrite Est', Epi, Hforce. cbn [orb negb]. rewrite !andb_true_r. reflexivity.
          + unfold add_entry, on_ado, log_of, entry_of. cbn [l_ado l_log l_file]. rewrite Est', A3, A4, F3, L3. cbn [g_entries g_laws g_counts]. rewrite Epi. f_equal. f_equal.
            unfold lines_of. rewrite Sx, A1, S3. rewrite Ep, A2. reflexivity.
        - rewrite (log_mix_err b force w s4 o' e Em). eexists. split; [reflexivity|]. split; [reflexivity|]. cbn. congruence. }
      destruct (c_variant cfg) eqn:Ev; try (apply (Hm false s3); auto; fail).
      destruct (o_handed P (l_ado P s3)) eqn:Eh; [|apply (Hm false s3); auto; congruence].
      set (o4 := if b then _ else l_ado P s3). assert (X4 : o_steps P o4 = o_steps P o2 /\ o_params P o4 = o_params P (l_ado P s3)) by (unfold o4; destruct b; cbn; auto).
      destruct (_ || rf)%bool; [apply (Hm true (on_ado P o4 s3)); try apply X4; try reflexivity; congruence|].
      assert (EL : log_of (l_log P s) o4 None [] = l_log P s3).
      { rewrite L3. unfold log_of, entry_of, lines_of. rewrite (proj1 X4), (proj2 X4), Est, app_nil_r, S3. reflexivity. }
      exists []. rewrite EL, <- F3. unfold finish, wants. rewrite (proj1 X4), Est. cbn [orb]. rewrite !andb_false_r, Ev. reflexivity.
  Qed.

  Lemma calc_facts b (o o' : ado) m : ado_calc b o = (o', inl m) ->
    (o_steps P o' < c_start cfg -> m = None) /\ (m <> None -> o_pi P o' = m)
    /\ (c_start cfg <= o_steps P o' -> c_variant cfg <> AdjustedV3 -> m <> None)
    /\ (fit_due (o_steps P o') = true -> exists ps, o_params P o' = Some ps /\ length ps = length (a_counts (o_acc P o')))
    /\ o_handed P o' = o_handed P o || match m with Some _ => true | None => false end.
  Proof.
    intros E. assert (Hs : o_steps P o' = o_steps P o + 1) by (rewrite <- (calc_steps fl nsum cfg P p_zero fit1 deriv pow_s b o), E; reflexivity).
    assert (Ha : o_acc P o' = o_acc P o) by (change o' with (fst (o', inl m : option (list Q) + exn)); rewrite <- E; apply (calc_frame fl nsum cfg P p_zero fit1 deriv pow_s b o)).
    unfold DynModel.ado_calc in E. set (o0 := set_steps P _ _) in E. destruct (set_prior nsum P o0) as [o1 e1] eqn:E1. apply set_prior_keeps in E1. destruct E1 as (S1 & H1 & _ & A1).
    change (o_steps P o0) with (o_steps P o + 1) in S1. change (o_handed P o0) with (o_handed P o) in H1. change (o_acc P o0) with (o_acc P o) in A1.
    destruct e1 as [e1|]; [discriminate|]. destruct (o_steps P o1 <? c_start cfg) eqn:Est.
    - injection E as <- <-. apply Z.ltb_lt in Est. split; [reflexivity|]. split; [congruence|]. split; [intros H; exfalso; lia|]. split; [rewrite fit_due_warm by lia; discriminate|]. rewrite orb_false_r. exact H1.
    - cbv zeta in E. set (o2 := set_h P _ _ o1) in E. change (o_steps P o1) with (o_steps P o2) in *. change (o_handed P o1) with (o_handed P o2) in H1. change (o_acc P o1) with (o_acc P o2) in A1.
      apply Z.ltb_ge in Est. destruct (refit_due cfg (o_steps P o2)) as [rf|e] eqn:Erf; [|discriminate]. apply refit_due_ok in Erf; [|exact Est].
      assert (Hw : let '(o3, e3) := if rf then fit_scaling_laws P p_zero fit1 o2 else (o2, None) in
                   o_handed P o3 = o_handed P o2 /\ (rf = true -> exists ps, o_params P o3 = Some ps /\ length ps = length (a_counts (o_acc P o2)))).
      { destruct rf; [|split; [reflexivity|discriminate]]. pose proof (fit_ok P p_zero fit1 o2) as F. destruct (fit_scaling_laws P p_zero fit1 o2) as [o3 e3]. destruct F as [(ps & -> & L) _].
        split; [reflexivity|]. intros _. exists ps. split; [reflexivity|exact L]. }
      destruct (if rf then fit_scaling_laws P p_zero fit1 o2 else (o2, None)) as [o3 e3]. destruct Hw as [H3 P3]. destruct e3; [discriminate|].
      rewrite S1 in Erf.
      assert (Hm : forall o4, o_params P o4 = o_params P o3 -> ado_mix b o4 = (o', inl m) ->
        (o_steps P o' < c_start cfg -> m = None) /\ (m <> None -> o_pi P o' = m)
        /\ (c_start cfg <= o_steps P o' -> c_variant cfg <> AdjustedV3 -> m <> None)
        /\ (fit_due (o_steps P o') = true -> exists ps, o_params P o' = Some ps /\ length ps = length (a_counts (o_acc P o')))
        /\ o_handed P o' = o_handed P o || match m with Some _ => true | None => false end).
      { intros o4 Hp Em. destruct (mix_answer b _ _ _ Em) as (Em' & (pi & Epi) & Ep & _). pose proof (mix_handed b _ _ _ Em) as Hh. split; [intros H; exfalso; lia|]. split; [intros _; congruence|].
        split; [intros _ _; congruence|]. split; [|rewrite Epi, orb_true_r; exact Hh]. intros Hf. rewrite Hs, <- Erf in Hf. destruct (P3 Hf) as (ps & E3 & L3). exists ps. rewrite Ep, Hp, Ha, <- A1. auto. }
      destruct (c_variant cfg) eqn:Ev; try (apply (Hm o3 eq_refl E)).
      destruct (o_handed P o3) eqn:Eh; [|apply (Hm o3 eq_refl E)].
      set (o4 := if b then _ else o3) in E. assert (X4 : o_params P o4 = o_params P o3 /\ o_handed P o4 = true) by (unfold o4; destruct b; cbn; auto).
      destruct (_ || rf)%bool; [apply (Hm o4 (proj1 X4) E)|]. injection E as <- <-. split; [reflexivity|]. split; [congruence|]. split; [congruence|]. split; [|rewrite orb_false_r; rewrite (proj2 X4); congruence].
      intros Hf. rewrite Hs, <- Erf in Hf. destruct (P3 Hf) as (ps & E3 & L3). exists ps. rewrite (proj1 X4), Ha, <- A1. auto.
  Qed.

  Lemma update_handed losses counts (o : ado) : o_handed P (fst (ado_update fl cfg P losses counts o)) = o_handed P o /\ o_steps P (fst (ado_update fl cfg P losses counts o)) = o_steps P o.
  Proof.
    unfold DynModel.ado_update. destruct (update_state _ _ _ _) as [a [e|]]; [split; reflexivity|]. cbv zeta. destruct (c_same_step cfg); [|split; reflexivity].
    destruct (negb _); [split; reflexivity|]. destruct (negb _); split; reflexivity.
  Qed.

  Definition with_counts (c : list Z) (g : alog P) : alog P := mkAlog P (g_entries P g) (g_laws P g) (g_counts P g ++ [c]).
  Lemma log_process_ok f w (s : lstate) : let '(o', r) := ado_process (fb_losses f) (fb_counts f) (fb_mixture f) (l_ado P s) in
    match r with
    | inr e => exists s', log_process f w s = (s', inr (Raised e)) /\ l_ado P s' = o' /\ l_file P s' = l_file P s
    | inl m => (exists dl, log_process f w s = finish (wants (l_ado P s) o' m) w m (mkL P o' (log_of (with_counts (fb_counts f) (l_log P s)) o' m dl) (l_file P s)))
        /\ o_steps P o' = o_steps P (l_ado P s) + 1
        /\ (o_steps P o' < c_start cfg -> m = None) /\ (m <> None -> o_pi P o' = m)
        /\ (c_start cfg <= o_steps P o' -> c_variant cfg <> AdjustedV3 -> m <> None)
        /\ (fit_due (o_steps P o') = true -> exists ps, o_params P o' = Some ps /\ length ps = length (a_counts (o_acc P o')))
        /\ o_handed P o' = o_handed P (l_ado P s) || match m with Some _ => true | None => false end
    end.
  Proof.
    unfold DynModel.ado_process, process_losses, AdoLogModel.log_process. set (flag := o_last P (l_ado P s) <? fb_mixture f). unfold log_update.
    set (s1 := if flag then on_ado P (set_olast P (fb_mixture f) (l_ado P s)) s else s).
    set (o1 := if flag then set_olast P (fb_mixture f) (l_ado P s) else l_ado P s).
    assert (X : l_ado P (add_counts P (fb_counts f) s1) = o1 /\ l_file P s1 = l_file P s /\ l_log P s1 = l_log P s /\ o_handed P o1 = o_handed P (l_ado P s) /\ o_steps P o1 = o_steps P (l_ado P s)) by (unfold s1, o1; destruct flag; repeat split).
    destruct X as (X1 & X2 & X3 & X4 & X5). rewrite X1. pose proof (update_handed (fb_losses f) (fb_counts f) o1) as [U1 U2]. destruct (ado_update _ _ _ _ _ o1) as [o2 [e|]]; cbn [fst] in U1, U2.
    - eexists. split; [reflexivity|]. split; [reflexivity|exact X2].
    - set (s2 := on_ado P o2 (add_counts P (fb_counts f) s1)). pose proof (log_calc_ok w flag s2) as H. change (l_ado P s2) with o2 in H.
      destruct (ado_calc flag o2) as [o' [m|e]] eqn:Ec.
      + split.
        * destruct H as (dl & ->). exists dl. f_equal; [unfold wants; rewrite U1, X4; reflexivity|]. unfold s2, on_ado, add_counts. cbn [l_log l_file]. rewrite X2, X3. reflexivity.
        * pose proof (calc_steps fl nsum cfg P p_zero fit1 deriv pow_s flag o2) as Hs. rewrite Ec in Hs. cbn [fst] in Hs. apply calc_facts in Ec. destruct Ec as (C1 & C2 & C3 & C4 & C5).
          split; [congruence|]. split; [exact C1|]. split; [exact C2|]. split; [exact C3|]. split; [exact C4|]. rewrite C5, U1, X4. reflexivity.
      + destruct H as (s' & -> & H1 & H2). exists s'. split; [reflexivity|]. split; [exact H1|]. rewrite H2. exact X2.
  Qed.
  Lemma finish_ado d w m s : l_ado P (fst (finish d w m s)) = l_ado P s /\ l_log P (fst (finish d w m s)) = l_log P s.
  Proof. unfold finish. destruct d; [|split; reflexivity]. destruct w; split; reflexivity. Qed.
End Log.
