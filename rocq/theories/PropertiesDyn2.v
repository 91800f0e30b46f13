(** C39, C40 for ADO and for the DynamicMixture; C59, C60. *)
From Verif Require Import Base MixtureKeyModel MixtureKeyProofs UtilsModel UtilsProofs ChunkGenModel MixtureModel MixtureProofs PropertiesMixture DynModel SpecDyn DynProofs DynProofs2 DynProofs3 DynProofs4 DynProofs5 DynProofs6 DynProofs7 PropertiesDyn.
From Coq Require Import QArith Qpower Qabs Qminmax Lqa Permutation.
Open Scope Z_scope.

(** The smoothing factors are proportions, and powers of non-negative numbers are non-negative. *)
Definition sane (cfg : config) (pow_s : Q -> Q) : Prop :=
  (0 <= c_gamma1 cfg <= 1)%Q /\ (0 <= c_gamma2 cfg <= 1)%Q /\ (forall x, (0 <= x)%Q -> (0 <= pow_s x)%Q).

Section Ado.
  Variables (fl : Q -> Q) (nsum : list Q -> Q).
  Variable cfg : config.
  Variable P : Type.
  Variable p_zero : P.
  Variable fit1 : list (list Z) -> list (list Q) -> Z -> nat -> res P.
  Variable deriv : P -> Q -> Q.
  Variable pow_s : Q -> Q.
  Notation ado_process := (ado_process fl nsum cfg P p_zero fit1 deriv pow_s).
  Notation ado_calc := (ado_calc fl nsum cfg P p_zero fit1 deriv pow_s).
  Notation ado_mix := (ado_mix fl nsum cfg P deriv pow_s).
  Notation ado_update := (ado_update fl cfg P).

  Lemma ado_acc_step f o : well_formed f -> length (a_losses (o_acc P o)) = length (a_counts (o_acc P o)) ->
    update_state fl (fb_losses f) (fb_counts f) (o_acc P o) = (o_acc P (fst (ado_process (fb_losses f) (fb_counts f) (fb_mixture f) o)), None).
  Proof.
    intros Hw Hl. unfold DynModel.ado_process, process_losses. set (flag := _ <? _). set (o1 := if flag then _ else o). assert (E1 : o_acc P o1 = o_acc P o) by (unfold o1; destruct flag; reflexivity).
    destruct (ado_update (fb_losses f) (fb_counts f) o1) as [o2 e] eqn:Eu. assert (Hup := Eu). eapply DynProofs3.ado_update_ok in Hup; [|exact Hw|rewrite E1; exact Hl]. destruct Hup as (Ua & _). rewrite E1 in Ua.
    destruct e; [exact Ua|]. pose proof (calc_frame fl nsum cfg P p_zero fit1 deriv pow_s flag o2) as F. rewrite (proj1 F). exact Ua.
  Qed.
  Lemma ado_acc_run initial l : Forall well_formed l -> accumulated fl l (o_acc P (run ado_process l (ado0 P initial))).
  Proof.
    induction l as [|f l IH] using rev_ind; intros Hl; [apply accumulated_nil|]. apply Forall_app in Hl as [Hl Hf]. inversion Hf as [|? ? Hw _]; subst. specialize (IH Hl). rewrite run_app. cbn [run]. set (o := run _ l _) in *.
    destruct (accumulated_snoc fl l f (o_acc P o) Hw IH) as (a' & E & H). destruct IH as (L1 & L2 & _). rewrite (ado_acc_step f o Hw ltac:(congruence)) in E. injection E as ->. exact H.
  Qed.

  (** ADO accounts like averaging, whatever it calculates and whether or not a calculation fails. *)
  Theorem C39_ado_accounts_partial initial l : Forall well_formed l ->
    let a := o_acc P (run ado_process l (ado0 P initial)) in
    length (a_losses a) = widest l /\ length (a_counts a) = widest l
    /\ forall k, nth k (a_counts a) 0 = zsum (counts_of k l) /\ float_sum fl (length (losses_of k l)) (losses_of k l) (nth k (a_losses a) 0%Q).
  Proof. intros Hl a. destruct (ado_acc_run initial l Hl) as (A1 & A2 & A3 & A4). fold a in A1, A2, A3, A4. split; [exact A1|]. split; [exact A2|]. intros k. split; [apply A4|]. rewrite A3. apply fsum_depth. Qed.

  (** ** Stale feedback and the credit assignment of adjusted_v1 and adjusted_v2 *)
  Lemma mix_h b o : b = false -> (c_variant cfg = AdjustedV1 \/ c_variant cfg = AdjustedV2) -> o_h P (fst (ado_mix b o)) = o_h P o.
  Proof.
    intros -> Hv. unfold DynModel.ado_mix. destruct (o_params P o) as [ps|]; [|reflexivity]. destruct (o_h P o) as [h|] eqn:Eh; [|cbn; congruence]. destruct (o_mu P o) as [mu|]; [|cbn; congruence].
    destruct (loss_derivative _ _ _ _ _ _) as [dl|]; [|exact Eh]. destruct (compute_rho _ _ _ _ _ _ _) as [rho|]; [|exact Eh].
    cbv zeta. destruct (blend _ (c_gamma2 cfg) _ _) as [pi0|]; [|exact Eh]. destruct (normalise _ _ pi0) as [pi1|]; [|exact Eh]. destruct (enforce_min _ _ _ _ _ _) as [pi|]; [|exact Eh].
    destruct Hv as [-> | ->]; (destruct (blend _ _ _ _); [|exact Eh]; destruct (normalise _ _ _); exact Eh).
  Qed.
  Lemma calc_h o h : (c_variant cfg = AdjustedV1 \/ c_variant cfg = AdjustedV2) -> o_h P o = Some h -> o_h P (fst (ado_calc false o)) = Some h.
  Proof.
    intros Hv Eh. unfold DynModel.ado_calc. set (o0 := set_steps P _ o). assert (H1 : o_h P (fst (set_prior nsum P o0)) = Some h).
    { unfold set_prior. destruct (o_mu P o0); [exact Eh|]. cbv zeta. destruct (Nat.ltb _ _); [exact Eh|]. destruct (negb _); exact Eh. }
    destruct (set_prior nsum P o0) as [o1 e1]. cbn [fst] in H1. destruct e1; [exact H1|]. destruct (o_steps P o1 <? c_start cfg); [exact H1|]. cbv zeta. rewrite H1. set (o2 := set_h P _ _ o1).
    destruct (refit_due cfg _) as [rf|]; [|reflexivity]. set (w := if rf then _ else _). assert (Hw : o_h P (fst w) = Some h).
    { unfold w. destruct rf; [|reflexivity]. pose proof (fit_ok P p_zero fit1 o2) as H. destruct (fit_scaling_laws P p_zero fit1 o2) as [o3 e3]. destruct H as [(ps & -> & _) _]. reflexivity. }
    destruct w as [o3 e3]. cbn [fst] in Hw. destruct e3; [exact Hw|]. destruct Hv as [Ev|Ev]; rewrite Ev, mix_h by auto; exact Hw.
  Qed.
  Lemma ado_last_run l o : o_last P (run ado_process l o) = fold_left Z.max (map fb_mixture l) (o_last P o).
  Proof.
    unfold DynModel.ado_process. apply run_last.
    - reflexivity.
    - intros a b s. unfold DynModel.ado_update. destruct (update_state fl a b (o_acc P s)) as [x [e|]]; [reflexivity|]. cbv zeta. destruct (c_same_step cfg); [|reflexivity]. destruct (negb (existsb _ _)); [reflexivity|]. destruct (negb _); reflexivity.
    - intros b s. apply (calc_frame fl nsum cfg P p_zero fit1 deriv pow_s b s).
  Qed.
  (** Feedback whose mixture id is not newer than all earlier ones leaves the credit assignment h(t) of the two adjusted
      variants as it was, key by key. *)
  Theorem C39_stale_credit_partial initial l f h : (c_variant cfg = AdjustedV1 \/ c_variant cfg = AdjustedV2) -> Forall well_formed (l ++ [f]) ->
    ~ newest (fb_mixture f) (map fb_mixture l) -> o_h P (run ado_process l (ado0 P initial)) = Some h ->
    exists h', o_h P (run ado_process (l ++ [f]) (ado0 P initial)) = Some h' /\ forall k, nth k h' 0%Q = nth k h 0%Q.
  Proof.
    intros Hv Hw Hn Eh. apply Forall_app in Hw as [Hl Hf]. inversion Hf as [|? ? Hwf _]; subst. rewrite run_app. cbn [run]. set (o := run _ l _) in *.
    assert (El : o_last P o <? fb_mixture f = false). { apply Z.ltb_ge. unfold o. rewrite ado_last_run. cbn [o_last ado0]. rewrite newest_iff in Hn. lia. }
    destruct (ado_acc_run initial l Hl) as (L1 & L2 & _). fold o in L1, L2.
    unfold DynModel.ado_process, process_losses. rewrite El. destruct (ado_update (fb_losses f) (fb_counts f) o) as [o2 e] eqn:Eu. eapply DynProofs3.ado_update_ok in Eu; [|exact Hwf|congruence].
    destruct Eu as (_ & (Uh & _) & _). rewrite Eh in Uh. cbn [option_map] in Uh. eexists. split; [|intros k; apply nth_grow with (k := (length (fb_losses f) - length (a_losses (o_acc P o)))%nat)].
    destruct e; [exact Uh|]. apply calc_h; assumption.
  Qed.

  (** ** Distributions *)
  Hypothesis Hd : floating fl.
  Hypothesis Hs : sums fl nsum.
  Hypothesis Hc : sane cfg pow_s.
  Lemma ado_distribution initial l f mix : nonneg initial -> some_pos initial -> Forall well_formed (l ++ [f]) -> few_keys (l ++ [f]) ->
    snd (ado_process (fb_losses f) (fb_counts f) (fb_mixture f) (run ado_process l (ado0 P initial))) = inl (Some mix) ->
    length mix = widest (l ++ [f]) /\ near_distribution mix /\ np_isclose (nsum mix) 1 = true.
  Proof.
    intros H1 H2 Hw Hk E. pose proof Hw as Hw0. apply Forall_app in Hw as [Hl Hf]. inversion Hf as [|? ? Hwf _]; subst. destruct Hc as (C1 & C2 & C3).
    pose proof (step_result fl nsum u32 dep u32_0 u32_1 (proj1 Hd) (proj2 Hd) Hs cfg P p_zero fit1 deriv pow_s C3 C1 C2 initial l f H1 H2 Hl Hwf) as R. unfold step_process in R.
    pose proof (ado_acc_run initial (l ++ [f]) Hw0) as (A1 & A2 & _). rewrite run_app in A1, A2. cbn [run] in A1, A2.
    destruct (ado_process _ _ _ (run ado_process l (ado0 P initial))) as [o' r]. cbn [fst snd] in *. subst r.
    destruct (clipped_ok fl nsum u32 dep u32_0 u32_1 (proj1 Hd) (proj2 Hd) Hs cfg P p_zero deriv pow_s C3 _ _ R) as (X1 & X2 & X3). rewrite A2 in X1, X3. split; [exact X1|]. destruct (X3 (eps_1000 _ Hk)) as [X4 X5]. apply (within_eps _ _ Hk) in X4, X5. split; [split; assumption|apply close_np, X5].
  Qed.

  (** ADO, for every fit, every derivative and every history: whatever mixture it returns has one entry per key, is a
      distribution up to rounding, and passes the DynamicMixture's check. *)
  Theorem C40_ado_float initial l f mix : Forall (fun x => (0 <= x)%Q) initial -> Exists (fun x => (0 < x)%Q) initial ->
    Forall well_formed (l ++ [f]) -> few_keys (l ++ [f]) ->
    snd (ado_process (fb_losses f) (fb_counts f) (fb_mixture f) (run ado_process l (ado0 P initial))) = inl (Some mix) ->
    length mix = widest (l ++ [f]) /\ near_distribution mix /\ np_isclose (nsum mix) 1 = true.
  Proof. apply ado_distribution. Qed.

  (** ** Which feedback ADO accepts *)
  (** If every message reports the same [n] keys, at least those of the initial mixture, and the fits succeed, ADO never
      fails: it returns nothing during the warm-up, and a mixture at every step after it (adjusted_v3 may wait). *)
  Theorem C59_ado_steady_partial n initial l f : 1 <= c_start cfg -> c_interval cfg <> 0 -> c_variant cfg <> OtherVariant ->
    (forall psc psl st k, exists p, fit1 psc psl st k = Ok p) ->
    Forall (fun x => (0 <= x)%Q) initial -> (1 - (1 # 2 ^ 18) <= qsum initial <= 1 + (1 # 2 ^ 18))%Q -> (length initial <= n)%nat -> Z.of_nat n <= 2 ^ 20 ->
    Forall (fun g => well_formed g /\ length (fb_losses g) = n) (l ++ [f]) ->
    (c_same_step cfg = true -> Forall (fun g => Forall (fun c => 0 <= c) (fb_counts g) /\ Exists (fun c => 0 < c) (fb_counts g)) (l ++ [f])) ->
    exists x, snd (ado_process (fb_losses f) (fb_counts f) (fb_mixture f) (run ado_process l (ado0 P initial))) = inl x
      /\ (Z.of_nat (length l) + 1 < c_start cfg -> x = None)
      /\ (c_start cfg <= Z.of_nat (length l) + 1 -> c_variant cfg <> AdjustedV3 -> x <> None).
  Proof.
    intros S1 S2 S3 S4 I1 I2 I3 Hn Hl Hp. destruct Hc as (C1 & C2 & C3). change (1 # 2 ^ 18)%Q with (1 # 262144)%Q in I2.
    assert (Ipos : some_pos initial) by (apply qsum_pos_ex; [exact I1|lra]).
    assert (Hcl : np_isclose 1 (nsum (grow 0%Q (n - length initial) initial)) = true).
    { set (g := grow 0%Q (n - length initial) initial). assert (Lg : length g = n) by (unfold g; rewrite grow_length; lia). assert (Ng : nonneg g) by (eapply nonneg_grow; eauto).
      assert (Sg : (qsum g == qsum initial)%Q). { unfold g, grow. rewrite qsum_app. assert (Z0 : (qsum (repeat 0%Q (n - length initial)) == 0)%Q) by (clear; induction (n - length initial)%nat as [|m IH]; [reflexivity|]; cbn [repeat]; rewrite qsum_cons, IH; reflexivity). rewrite Z0. ring. }
      pose proof (Hs g) as F. rewrite Lg in F. pose proof (dep_52 n Hn) as HD. unfold dep in HD. set (D := inject_Z (Z.of_nat (32 + Nat.log2 n))) in *.
      assert (HDu : (0 <= D * u32 <= 1 # 262144)%Q). { split; [apply Qmult_le_0_compat; [tauto|discriminate]|]. apply Qle_trans with (52 * u32)%Q; [apply Qmult_le_compat_r; [tauto|discriminate]|discriminate]. }
      destruct (float_sum_bounds fl u32 u32_0 u32_1 (proj1 Hd) _ _ _ F Ng) as (B0 & B1 & B2); [fold D; lra|]. fold D in B1, B2. rewrite Sg in B1, B2. apply close_np2.
      set (q := (D * u32)%Q) in *. set (v := nsum g) in *. set (S := qsum initial) in *. split; nra. }
    destruct (steady_step fl nsum u32 dep u32_0 u32_1 (proj1 Hd) (proj2 Hd) Hs cfg P p_zero fit1 deriv pow_s C3 C1 C2 n S1 S2 S3 S4 initial l f I1 Ipos I3 Hcl Hl Hp) as (_ & o' & x & E & _ & X1 & X2 & _).
    exists x. unfold step_process in E. rewrite E. auto.
  Qed.

  (** If the first message reports fewer keys than the initial mixture has, it is refused, and no mixture is ever returned
      again, whatever feedback follows: dynamic mixing is dead. *)
  Theorem C59_short_first_feedback_refuted initial f : Forall (fun x => (0 <= x)%Q) initial -> Exists (fun x => (0 < x)%Q) initial ->
    well_formed f -> c_same_step cfg = false -> (length (fb_losses f) < length initial)%nat ->
    snd (ado_process (fb_losses f) (fb_counts f) (fb_mixture f) (ado0 P initial)) = inr AssertionError
    /\ forall l g mix, Forall well_formed (l ++ [g]) ->
         snd (ado_process (fb_losses g) (fb_counts g) (fb_mixture g) (run ado_process (f :: l) (ado0 P initial))) <> inl (Some mix).
  Proof.
    intros I1 I2 Hw Hsame Hlt. destruct Hc as (C1 & C2 & C3).
    assert (X : snd (ado_process (fb_losses f) (fb_counts f) (fb_mixture f) (ado0 P initial)) = inr AssertionError
      /\ exists m, o_mu P (fst (ado_process (fb_losses f) (fb_counts f) (fb_mixture f) (ado0 P initial))) = Some m /\ length m = length initial).
    { unfold DynModel.ado_process, process_losses. set (flag := _ <? _). set (o1 := if flag then _ else _). unfold DynModel.ado_update.
      assert (E0 : o_acc P o1 = acc0 /\ o_mu P o1 = None /\ o_initial P o1 = initial) by (unfold o1; destruct flag; auto). destruct E0 as (E0 & E1 & E2). rewrite E0.
      destruct (update_ok fl f acc0 Hw eq_refl) as (a' & -> & A1 & A2 & _). cbn [a_losses acc0 length] in A1. rewrite Hsame. cbv zeta.
      unfold DynModel.ado_calc, set_prior. cbn [o_mu o_acc o_initial set_ps set_h set_mu set_pi set_pibar set_acc set_steps]. rewrite E1, E2. cbn [option_map].
      assert (La : (length (a_counts a') < length initial)%nat) by lia. rewrite (proj2 (Nat.ltb_lt _ _) La). split; [reflexivity|]. eexists. split; [reflexivity|]. rewrite grow_length. lia. }
    destruct X as [X (m & Xm & Lm)]. split; [exact X|]. intros l g mix Hlg. apply Forall_app in Hlg as [Hl Hg]. inversion Hg as [|? ? Hwg _]; subst. cbn [run].
    destruct (run_state fl nsum u32 dep u32_0 u32_1 (proj1 Hd) (proj2 Hd) Hs cfg P p_zero fit1 deriv pow_s C3 C1 C2 initial [f] I1 I2 ltac:(auto)) as [S1 S2]. cbn [run] in S1, S2.
    set (o := fst (ado_process (fb_losses f) (fb_counts f) (fb_mixture f) (ado0 P initial))) in *.
    assert (B : broken P o). { destruct S1 as (_ & _ & [[_ G]|B]); [|exact B]. exfalso. specialize (G m Xm). destruct S2 as (_ & S2 & _). unfold nd in G. rewrite S2 in G. unfold widest in G. cbn in G. lia. }
    apply (broken_forever fl nsum u32 dep u32_0 u32_1 (proj1 Hd) (proj2 Hd) Hs cfg P p_zero fit1 deriv pow_s C3 C1 C2 o l g S1 B Hl Hwg).
  Qed.
End Ado.
Print Assumptions C40_ado_float.
Print Assumptions C59_ado_steady_partial.
Print Assumptions C59_short_first_feedback_refuted.
