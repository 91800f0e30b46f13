(** ADO over whole histories. *)
From Verif Require Import Base MixtureKeyModel UtilsModel UtilsProofs ChunkGenModel MixtureModel MixtureProofs DynModel SpecDyn DynProofs DynProofs2 DynProofs3.
From Coq Require Import QArith Qpower Qabs Qminmax Lqa Permutation.
Open Scope Z_scope.

Section Hist.
  Variables (fl : Q -> Q) (nsum : list Q -> Q) (u : Q) (dep : nat -> nat).
  Hypothesis Hu : (0 <= u)%Q.
  Hypothesis Hu1 : (u <= 1 # 2)%Q.
  Hypothesis Hfl : rounds fl u.
  Hypothesis Hone : forall x, (0 <= x <= 1)%Q -> (fl x <= 1)%Q.
  Hypothesis Hsum : forall l, float_sum fl (dep (length l)) l (nsum l).
  Variable cfg : config.
  Variable P : Type.
  Variable p_zero : P.
  Variable fit1 : list (list Z) -> list (list Q) -> Z -> nat -> res P.
  Variable deriv : P -> Q -> Q.
  Variable pow_s : Q -> Q.
  Hypothesis Hpow : forall x, (0 <= x)%Q -> (0 <= pow_s x)%Q.
  Hypothesis Hg1 : (0 <= c_gamma1 cfg <= 1)%Q.
  Hypothesis Hg2 : (0 <= c_gamma2 cfg <= 1)%Q.
  Notation ado := (ado P).
  Notation ado_update := (ado_update fl cfg P).
  Notation ado_calc := (ado_calc fl nsum cfg P p_zero fit1 deriv pow_s).
  Notation ado_mix := (ado_mix fl nsum cfg P deriv pow_s).
  Notation ado_process := (ado_process fl nsum cfg P p_zero fit1 deriv pow_s).
  Notation good := (good P).
  Notation broken := (broken P).
  Notation nd := (nd P).
  Notation state_ok := (state_ok cfg P).
  Notation rows_ok := (rows_ok cfg P).
  Notation clipped := (clipped fl nsum cfg).

  Definition step_process f o := ado_process (fb_losses f) (fb_counts f) (fb_mixture f) o.
  Lemma run_snoc l f o : run ado_process (l ++ [f]) o = fst (step_process f (run ado_process l o)).
  Proof. rewrite run_app. reflexivity. Qed.

  Lemma run_state initial l : nonneg initial -> some_pos initial -> Forall well_formed l ->
    state_ok (run ado_process l (ado0 P initial)) /\ accumulated fl l (o_acc P (run ado_process l (ado0 P initial))).
  Proof.
    intros H1 H2. induction l as [|f l IH] using rev_ind; intros Hl.
    - split; [|apply accumulated_nil]. split; [reflexivity|]. split; [intros _; constructor|]. left. split; [apply inv0; assumption|]. intros m E. discriminate.
    - apply Forall_app in Hl as [Hl Hf]. inversion Hf as [|? ? Hw _]; subst. destruct (IH Hl) as [I1 I2]. rewrite run_snoc. set (o := run _ l _) in *.
      pose proof (process_ok fl nsum u dep Hu Hu1 Hfl Hone Hsum cfg P p_zero fit1 deriv pow_s Hpow Hg1 Hg2 f o Hw I1) as Hp. unfold step_process.
      destruct (ado_process _ _ _ o) as [o' r]. destruct Hp as (S1 & _ & Ea & _). cbn [fst]. split; [exact S1|].
      destruct (accumulated_snoc fl l f (o_acc P o) Hw I2) as (a' & Ea' & Ha). rewrite Ea in Ea'. injection Ea' as <-. exact Ha.
  Qed.
  Lemma step_result initial l f : nonneg initial -> some_pos initial -> Forall well_formed l -> well_formed f ->
    let '(o', r) := step_process f (run ado_process l (ado0 P initial)) in
    match r with
    | inl None => True
    | inl (Some pi) => clipped (a_counts (o_acc P o')) pi
    | inr e => ~ broken (run ado_process l (ado0 P initial)) -> blame cfg P fit1 o' e
    end.
  Proof.
    intros H1 H2 Hl Hw. destruct (run_state initial l H1 H2 Hl) as [I1 I2]. set (o := run _ l _) in *.
    pose proof (process_ok fl nsum u dep Hu Hu1 Hfl Hone Hsum cfg P p_zero fit1 deriv pow_s Hpow Hg1 Hg2 f o Hw I1) as Hp. unfold step_process.
    destruct (ado_process _ _ _ o) as [o' r]. destruct Hp as (_ & _ & _ & H). destruct r as [[pi|]|e]; [apply H|exact I|exact H].
  Qed.
  Lemma broken_forever o l f : state_ok o -> broken o -> Forall well_formed l -> well_formed f ->
    forall pi, snd (step_process f (run ado_process l o)) <> inl (Some pi).
  Proof.
    intros S B Hl Hw. assert (X : state_ok (run ado_process l o) /\ broken (run ado_process l o)).
    { induction l as [|g l IH] using rev_ind; [auto|]. apply Forall_app in Hl as [Hl Hg]. inversion Hg as [|? ? Hwg _]; subst. destruct (IH Hl) as [I1 I2]. rewrite run_snoc. set (o1 := run _ l _) in *.
      pose proof (process_ok fl nsum u dep Hu Hu1 Hfl Hone Hsum cfg P p_zero fit1 deriv pow_s Hpow Hg1 Hg2 g o1 Hwg I1) as Hp. unfold step_process. destruct (ado_process _ _ _ o1) as [o' r]. destruct Hp as (S1 & B1 & _). auto. }
    destruct X as [I1 I2]. set (o1 := run _ l _) in *.
    pose proof (process_ok fl nsum u dep Hu Hu1 Hfl Hone Hsum cfg P p_zero fit1 deriv pow_s Hpow Hg1 Hg2 f o1 Hw I1) as Hp. unfold step_process. destruct (ado_process _ _ _ o1) as [o' r]. destruct Hp as (_ & _ & _ & H). cbn [snd].
    intros pi ->. apply H, I2.
  Qed.

  (** What a returned mixture looks like. *)
  Lemma clipped_ok counts pi : clipped counts pi ->
    let e := ((2 * inject_Z (Z.of_nat (dep (length counts))) + 2) * u * (1001 # 1000))%Q in
    length pi = length counts /\ Forall (fun x => (0 <= x)%Q) pi /\ ((e <= 1 # 1000)%Q -> (1 - e <= qsum pi <= 1 + e)%Q /\ (1 - e <= nsum pi <= 1 + e)%Q).
  Proof.
    intros (pi0 & adj & N0 & P0 & L0 & Eadj & Na & Pa & ->). assert (La : length adj = length counts) by (rewrite Eadj, map_length, combine_length, map_length; lia).
    rewrite map_length. split; [exact La|]. rewrite <- La. exact (normalised_nsum fl u Hu Hu1 Hfl nsum dep adj Hsum Na Pa).
  Qed.

  (** ** Steady histories: every message reports the same [n] domains. *)
  Variable n : nat.
  Hypothesis Hstart : 1 <= c_start cfg.
  Hypothesis Hint : c_interval cfg <> 0.
  Hypothesis Hvar : c_variant cfg <> OtherVariant.
  Hypothesis Hfit : forall psc psl st k, exists p, fit1 psc psl st k = Ok p.
  Definition steady (k : Z) (o : ado) : Prop :=
    good o /\ o_steps P o = k /\ (k = 0 \/ nd o = n) /\ (nd o <= n)%nat
    /\ Forall (fun c => length c = n) (o_psc P o) /\ Forall (fun c => length c = n) (o_psl P o)
    /\ (c_start cfg <= k -> exists ps, o_params P o = Some ps /\ length ps = n)
    /\ (o_mu P o = None -> (length (o_initial P o) <= n)%nat /\ np_isclose 1 (nsum (grow 0%Q (n - length (o_initial P o)) (o_initial P o))) = true).

  Lemma calc_steady b o k : steady k o -> 0 <= k -> nd o = n -> o_psc P o <> [] ->
    exists o' x, ado_calc b o = (o', inl x) /\ steady (k + 1) o'
      /\ (k + 1 < c_start cfg -> x = None) /\ (c_start cfg <= k + 1 -> c_variant cfg <> AdjustedV3 -> x <> None)
      /\ (c_start cfg <= k + 1 -> o_handed P o = false -> x <> None).
  Proof.
    intros (G & Hk & _ & _ & Rc & Rl & Hps & Hmu) Hk0 Hn Hne. pose proof (calc_frame fl nsum cfg P p_zero fit1 deriv pow_s b o) as Fr. unfold DynModel.ado_calc in *. set (o0 := set_steps P _ o) in *.
    assert (G0 : good o0). { apply (good_ext fl u P o o0 G); try reflexivity. cbn. lia. }
    pose proof (set_prior_good fl nsum u P o0 G0) as Hp. pose proof (set_prior_frame nsum P o0) as F1. destruct (set_prior nsum P o0) as [o1 e1] eqn:Epr. cbn [fst] in F1.
    destruct Hp as [(G1 & S1 & P1 & (m & Em & _) & He)|(_ & _ & C1 & C2)]; [|exfalso; destruct (Hmu C1) as [C3 _]; change (nd o0) with (nd o) in C2; cbn in C2; lia].
    assert (He1 : e1 = None). { destruct e1 as [e|]; [|reflexivity]. exfalso. destruct He as (_ & C1 & C2). destruct (Hmu C1) as [_ C3]. change (nd o0) with (nd o) in C2. change (o_initial P o0) with (o_initial P o) in C2. rewrite Hn in C2. congruence. }
    assert (Hh0 : o_handed P o1 = o_handed P o). { unfold set_prior in Epr. destruct (o_mu P o0); [injection Epr as <- _; reflexivity|]. cbv zeta in Epr. repeat match type of Epr with (if ?c then _ else _) = _ => destruct c end; injection Epr as <- _; reflexivity. }
    rewrite He1 in *. clear He He1 Epr. assert (St1 : o_steps P o1 = k + 1) by (rewrite S1; cbn; lia). rewrite St1 in *.
    assert (Fbase : forall o', frame P o o' -> good o' -> o_steps P o' = k + 1 -> o_mu P o' <> None -> (c_start cfg <= k + 1 -> exists ps, o_params P o' = Some ps /\ length ps = n) -> steady (k + 1) o').
    { intros o' (F_1 & F_2 & F_3 & F_4 & F_5) G' S' M' P'. unfold steady, DynProofs3.nd in *. rewrite F_1, F_4, F_5, S'. split; [exact G'|]. split; [reflexivity|]. split; [right; exact Hn|]. split; [lia|]. split; [exact Rc|]. split; [exact Rl|]. split; [exact P'|]. intros C. congruence. }
    destruct (k + 1 <? c_start cfg) eqn:Est.
    { apply Z.ltb_lt in Est. exists o1, None. split; [reflexivity|]. split; [|split; [reflexivity|split; lia]]. apply Fbase; [exact Fr|exact G1|exact St1|congruence|lia]. }
    apply Z.ltb_ge in Est. cbv zeta in Fr |- *. set (o2 := set_h P _ _ o1) in *. assert (Hh : exists h, o_h P o2 = Some h). { unfold o2. cbn [o_h set_h]. destruct (o_h P o1); [eauto|]. rewrite Em. eauto. }
    assert (F2 : frame P o o2). { eapply frame_trans; [|unfold frame, o2; repeat split]. eapply frame_trans; [|exact F1]. unfold frame, o0. repeat split. }
    assert (G2 : good o2). { destruct G1 as [(I1 & I2 & I3 & I4 & I5) I6]. split; [|exact I6]. unfold inv, o2. cbn [o_acc o_steps o_initial o_mu o_h o_pibar set_h]. change (nd (set_h P _ _ o1)) with (nd o1). rewrite Em in I5 |- *. destruct I5 as (J1 & J2 & J3 & J4 & J5).
      split; [exact I1|]. split; [exact I2|]. split; [exact I3|]. split; [exact I4|]. split; [exact J1|]. split; [exact J2|]. split; [exact J3|]. split; [|exact J5]. destruct (o_h P o1); [exact J4|]. cbn [opt]. auto. }
    change (o_steps P o2) with (o_steps P o1) in *. rewrite St1 in *.
    assert (Erf : exists rf, refit_due cfg (k + 1) = Ok rf /\ (k + 1 = c_start cfg -> rf = true)).
    { unfold refit_due. destruct (k + 1 =? c_start cfg) eqn:E1; [exists true; auto|]. rewrite (proj2 (Z.eqb_neq _ _) Hint). eexists. split; [reflexivity|]. intros C. apply Z.eqb_neq in E1. congruence. }
    destruct Erf as (rf & Erf & Hrf). rewrite Erf in *.
    assert (Hw : exists o3, (if rf then fit_scaling_laws P p_zero fit1 o2 else (o2, None)) = (o3, None) /\ good o3 /\ (exists h, o_h P o3 = Some h) /\ frame P o o3 /\ o_steps P o3 = k + 1 /\ (exists ps, o_params P o3 = Some ps /\ length ps = n) /\ o_mu P o3 = Some m /\ o_handed P o3 = o_handed P o).
    { destruct rf.
      - pose proof (fit_ok P p_zero fit1 o2) as H. pose proof (fit_frame P p_zero fit1 o2) as Ff. destruct (fit_scaling_laws P p_zero fit1 o2) as [o3 e3]. cbn [fst] in Ff. destruct H as [(ps & -> & Lps) He3]. exists (set_params P (Some ps) o2).
        destruct e3 as [e3|]; [exfalso; destruct He3 as [[_ C]|[kk C]]|].
        + destruct F2 as (_ & _ & _ & E4 & E5). rewrite E4, E5 in C. rewrite (same_length_all _ n Rc), (same_length_all _ n Rl) in C. destruct C; discriminate.
        + destruct (Hfit (o_psc P o2) (o_psl P o2) (o_steps P o2) kk) as [p Ep]. congruence.
        + split; [reflexivity|]. split; [apply (good_ext fl u P o2 _ G2); try reflexivity; apply G2|]. split; [exact Hh|]. split; [eapply frame_trans; [exact F2|exact Ff]|]. split; [exact St1|]. split; [exists ps; split; [reflexivity|]|split; [exact Em|exact Hh0]]. rewrite Lps. unfold DynProofs3.nd in *. rewrite (proj1 F2). exact Hn.
      - exists o2. split; [reflexivity|]. split; [exact G2|]. split; [exact Hh|]. split; [exact F2|]. split; [exact St1|]. split; [|split; [exact Em|exact Hh0]]. change (o_params P o2) with (o_params P o1). rewrite P1. change (o_params P o0) with (o_params P o). apply Hps. assert (k + 1 <> c_start cfg) by (intros C; specialize (Hrf C); discriminate). lia. }
    destruct Hw as (o3 & Ew & G3 & H3 & F3 & St3 & (ps & Eps & Lps) & Em3 & Hh3). rewrite Ew in *.
    assert (Hmix : forall o4, good o4 -> frame P o o4 -> o_steps P o4 = k + 1 -> (exists h, o_h P o4 = Some h) -> o_params P o4 = Some ps -> o_mu P o4 = Some m -> exists o5 x, ado_mix b o4 = (o5, inl (Some x)) /\ steady (k + 1) o5).
    { intros o4 G4 F4 S4 H4 P4 M4. assert (R4 : rows_ok o4). { intros _. destruct F4 as (Fa & _ & _ & Fc & _). rewrite Fc. unfold DynProofs3.nd in *. rewrite Fa, Hn. auto. }
      pose proof (mix_ok fl nsum u dep Hu Hu1 Hfl Hone Hsum cfg P p_zero fit1 deriv pow_s Hpow Hg1 Hg2 b o4 G4 R4 ltac:(lia) H4) as M. pose proof (mix_frame fl nsum cfg P deriv pow_s b o4) as F5. destruct (ado_mix b o4) as [o5 r]. cbn [fst] in F5.
      destruct M as (M1 & M2 & M3 & M4' & M5). destruct r as [[x|]|e]; [|contradiction|].
      - exists o5, x. split; [reflexivity|]. apply Fbase; [eapply frame_trans; eassumption|exact M1|congruence|congruence|]. intros _. exists ps. split; [congruence|exact Lps].
      - exfalso. destruct M5 as [[_ [C|C]]|[(_ & ps' & C1 & C2)|[_ C]]]; try congruence. rewrite P4 in C1. injection C1 as <-. apply C2. unfold DynProofs3.nd in *. rewrite (proj1 F4). congruence. }
    assert (Hm3 : exists o' x, ado_mix b o3 = (o', inl x) /\ steady (k + 1) o' /\ (k + 1 < c_start cfg -> x = None) /\ (c_start cfg <= k + 1 -> c_variant cfg <> AdjustedV3 -> x <> None) /\ (c_start cfg <= k + 1 -> o_handed P o = false -> x <> None)).
    { destruct (Hmix o3 G3 F3 St3 H3 Eps Em3) as (o5 & x & E5 & S5). exists o5, (Some x). split; [exact E5|]. split; [exact S5|]. split; [lia|]. split; congruence. }
    destruct (c_variant cfg) eqn:Ev; try exact Hm3. rewrite Hh3 in *. destruct (o_handed P o); [|exact Hm3].
    set (o4 := if b then _ else o3) in *.
    assert (X4 : good o4 /\ frame P o o4 /\ o_steps P o4 = k + 1 /\ (exists h, o_h P o4 = Some h) /\ o_params P o4 = Some ps /\ o_mu P o4 = Some m).
    { unfold o4. destruct b; [|auto 10]. split; [apply (good_ext fl u P o3 _ G3); try reflexivity; apply G3|]. auto 10. }
    destruct X4 as (G4 & F4 & S4 & H4 & P4 & M4). destruct (_ || _)%bool.
    - destruct (Hmix o4 G4 F4 S4 H4 P4 M4) as (o5 & x & E5 & S5). exists o5, (Some x). split; [exact E5|]. split; [exact S5|]. split; [lia|]. split; congruence.
    - exists o4, None. split; [reflexivity|]. split; [|split; [lia|split; congruence]]. apply Fbase; [exact F4|exact G4|exact S4|congruence|]. intros _. exists ps. auto.
  Qed.

  (** One update in a steady history. *)
  Lemma update_steady f o k : well_formed f -> length (fb_losses f) = n -> steady k o -> 0 <= k ->
    (c_same_step cfg = true -> forall a', update_state fl (fb_losses f) (fb_counts f) (o_acc P o) = (a', None) -> existsb (fun c => 0 <? c) (a_counts a') = true) ->
    exists o', ado_update (fb_losses f) (fb_counts f) o = (o', None) /\ steady k o' /\ nd o' = n /\ o_psc P o' <> [] /\ o_handed P o' = o_handed P o.
  Proof.
    intros Hw Hlen (G & Hk & Hnd & Hle & Rc & Rl & Hps & Hmu) Hk0 Hpos. pose proof (proj1 (proj1 G)) as Hl.
    destruct (update_ok fl f (o_acc P o) Hw Hl) as (a' & Ea & A1 & A2 & _). rewrite Hl, Hlen in A1. assert (A3 : length (a_counts a') = n) by lia.
    destruct (ado_update (fb_losses f) (fb_counts f) o) as [o' e] eqn:Eu.
    assert (G' : good o') by (eapply DynProofs3.update_good; eassumption).
    assert (Hup := Eu). eapply DynProofs3.ado_update_ok in Hup; try eassumption. destruct Hup as (Ua & (_ & Um & _) & (K1 & K2 & K3 & K4 & K5 & K6) & _). rewrite Ea in Ua. injection Ua as Ua.
    assert (Hrows : e = None /\ o_psc P o' <> [] /\ Forall (fun c => length c = n) (o_psc P o') /\ Forall (fun c => length c = n) (o_psl P o')).
    { unfold DynModel.ado_update in Eu. rewrite Ea in Eu. cbv zeta in Eu. change (o_psc P (set_h P _ _ _)) with (o_psc P o) in Eu. change (o_psl P (set_h P _ _ _)) with (o_psl P o) in Eu.
      set (psc := map _ (o_psc P o)) in Eu. set (psl := _ ++ skipn _ _) in Eu. set (ls := map _ (combine (fb_losses f) _)) in Eu.
      assert (Hc : Forall (fun c => length c = n) psc). { unfold psc. rewrite Forall_map. eapply Forall_impl; [|exact Rc]. cbn. intros c Hc. rewrite grow_length. lia. }
      assert (Hls : length ls = n). { unfold ls. rewrite to_length_same by (symmetry; exact Hw). rewrite map_length, combine_length. unfold well_formed in Hw. lia. }
      assert (Hl2 : Forall (fun c => length c = n) (psl ++ [ls])).
      { apply Forall_app. split; [|constructor; [exact Hls|constructor]]. unfold psl. apply Forall_app. split.
        - rewrite Forall_map, Forall_forall. intros [x y] Hin. cbn [fst snd]. rewrite grow_length. pose proof (in_combine_l _ _ _ _ Hin) as I1. apply in_combine_r in Hin. apply in_map_iff in Hin as (c & <- & Ic). rewrite Forall_forall in Rc, Rl. rewrite (Rc c Ic), (Rl x I1). lia.
        - rewrite Forall_forall in *. intros x Hin. apply Rl. rewrite <- (firstn_skipn (length (o_psc P o)) (o_psl P o)). apply in_or_app. right. exact Hin. }
      destruct (c_same_step cfg) eqn:Es.
      - rewrite (Hpos eq_refl a' Ea) in Eu. cbn [negb] in Eu. unfold well_formed in Hw. rewrite (proj2 (Nat.eqb_eq _ _)) in Eu by lia. cbn [negb] in Eu. injection Eu as <- <-. split; [reflexivity|]. cbn [o_psc o_psl set_ps]. split; [destruct psc; discriminate|]. split; [|exact Hl2].
        apply Forall_app. split; [exact Hc|]. constructor; [rewrite map_length; exact A3|constructor].
      - injection Eu as <- <-. split; [reflexivity|]. cbn [o_psc o_psl set_ps]. split; [destruct psc; discriminate|]. split; [|exact Hl2]. apply Forall_app. split; [exact Hc|]. unfold well_formed in Hw. constructor; [lia|constructor]. }
    destruct Hrows as (-> & R1 & R2 & R3). exists o'. split; [reflexivity|]. assert (Hn' : nd o' = n) by (unfold DynProofs3.nd; rewrite <- Ua; exact A3). split; [|auto].
    unfold steady. rewrite K1, K2, K3. split; [exact G'|]. split; [exact Hk|]. split; [right; exact Hn'|]. split; [lia|]. split; [exact R2|]. split; [exact R3|]. split; [exact Hps|]. rewrite Um. intros C. apply Hmu. destruct (o_mu P o); [discriminate|reflexivity].
  Qed.

  Definition sampling (f : fb) : Prop := Forall (fun c => 0 <= c) (fb_counts f) /\ Exists (fun c => 0 < c) (fb_counts f).
  Lemma counts_of_nonneg l k : Forall (fun f => Forall (fun c => 0 <= c) (fb_counts f)) l -> 0 <= zsum (counts_of k l).
  Proof.
    induction 1 as [|f l Hf Hl IH]; [cbn; lia|]. change (counts_of k (f :: l)) with ((match nth_error (fb_counts f) k with Some x => [x] | None => [] end) ++ counts_of k l).
    destruct (nth_error (fb_counts f) k) as [x|] eqn:E; cbn [app]; [|exact IH]. rewrite zsum_cons. apply nth_error_In in E. rewrite Forall_forall in Hf. specialize (Hf x E). lia.
  Qed.
  Lemma sampled l f a : sampling f -> Forall sampling l -> well_formed f -> accumulated fl (l ++ [f]) a -> existsb (fun c => 0 <? c) (a_counts a) = true.
  Proof.
    intros [Hn Hp] Hl Hw (L1 & L2 & _ & Hc). apply Exists_exists in Hp as (x & Hx & Hx0). apply In_nth_error in Hx as (k & Ek).
    apply existsb_exists. exists (nth k (a_counts a) 0). split.
    - apply nth_In. rewrite L2. assert (k < length (fb_counts f))%nat by (apply nth_error_Some; congruence). rewrite widest_snoc. unfold well_formed in Hw. lia.
    - apply Z.ltb_lt. rewrite Hc, counts_of_app, zsum_app. assert (0 <= zsum (counts_of k l)) by (apply counts_of_nonneg; eapply Forall_impl; [|exact Hl]; intros g [H _]; exact H).
      change (counts_of k [f]) with ((match nth_error (fb_counts f) k with Some x => [x] | None => [] end) ++ []). rewrite Ek. cbn [app]. rewrite zsum_cons. cbn. lia.
  Qed.

  Lemma steady_one f o k : well_formed f -> length (fb_losses f) = n -> steady k o -> 0 <= k ->
    (c_same_step cfg = true -> forall a', update_state fl (fb_losses f) (fb_counts f) (o_acc P o) = (a', None) -> existsb (fun c => 0 <? c) (a_counts a') = true) ->
    exists o' x, step_process f o = (o', inl x) /\ steady (k + 1) o'
       /\ (k + 1 < c_start cfg -> x = None) /\ (c_start cfg <= k + 1 -> c_variant cfg <> AdjustedV3 -> x <> None) /\ (c_start cfg <= k + 1 -> o_handed P o = false -> x <> None).
  Proof.
    intros Hw Hlen S Hk Hpos. unfold step_process, DynModel.ado_process, process_losses. set (flag := o_last P o <? fb_mixture f). set (o1 := if flag then set_olast P (fb_mixture f) o else o).
    assert (S1 : steady k o1). { unfold o1. destruct flag; [|exact S]. destruct S as (G & R). split; [apply (good_ext fl u P o _ G); try reflexivity; apply G|exact R]. }
    assert (E1 : o_acc P o1 = o_acc P o /\ o_handed P o1 = o_handed P o) by (unfold o1; destruct flag; auto). destruct E1 as [E1 E2].
    destruct (update_steady f o1 k Hw Hlen S1 Hk) as (o2 & Eu & S2 & N2 & R2 & H2). { rewrite E1. exact Hpos. } rewrite Eu.
    destruct (calc_steady flag o2 k S2 Hk N2 R2) as (o3 & x & Ec & S3 & C1 & C2 & C3). exists o3, x. rewrite H2, E2 in C3. auto.
  Qed.
  Lemma steady_step initial l f : nonneg initial -> some_pos initial -> (length initial <= n)%nat -> np_isclose 1 (nsum (grow 0%Q (n - length initial) initial)) = true ->
    Forall (fun g => well_formed g /\ length (fb_losses g) = n) (l ++ [f]) -> (c_same_step cfg = true -> Forall sampling (l ++ [f])) ->
    steady (Z.of_nat (length l)) (run ado_process l (ado0 P initial))
    /\ exists o' x, step_process f (run ado_process l (ado0 P initial)) = (o', inl x) /\ steady (Z.of_nat (length l) + 1) o'
       /\ (Z.of_nat (length l) + 1 < c_start cfg -> x = None)
       /\ (c_start cfg <= Z.of_nat (length l) + 1 -> c_variant cfg <> AdjustedV3 -> x <> None)
       /\ (c_start cfg <= Z.of_nat (length l) + 1 -> o_handed P (run ado_process l (ado0 P initial)) = false -> x <> None).
  Proof.
    intros H1 H2 H3 H4. revert f. induction l as [|g l IH] using rev_ind; intros f Hl Hs.
    - assert (S0 : steady 0 (ado0 P initial)).
      { split; [split; [apply inv0; assumption|intros m E; discriminate]|]. split; [reflexivity|]. split; [left; reflexivity|]. split; [cbn; lia|]. split; [constructor|]. split; [constructor|]. split; [cbn; lia|]. intros _. auto. }
      split; [exact S0|]. inversion Hl as [|? ? [Hw Hlen] _]; subst. apply steady_one; [exact Hw|exact Hlen|exact S0|cbn; lia|]. intros E a' Ea. specialize (Hs E). inversion Hs; subst.
      destruct (accumulated_snoc fl [] f acc0 Hw (accumulated_nil fl)) as (a2 & E2 & Ha). change (update_state fl (fb_losses f) (fb_counts f) acc0 = (a', None)) in Ea. rewrite Ea in E2. injection E2 as <-. apply (sampled [] f a'); auto.
    - apply Forall_app in Hl as [Hl Hf]. assert (Hs' : c_same_step cfg = true -> Forall sampling (l ++ [g])) by (intros E; apply Hs in E; apply Forall_app in E; tauto).
      destruct (IH g Hl Hs') as (_ & o' & x & Ex & S' & _). rewrite run_snoc, Ex. cbn [fst]. rewrite app_length. cbn [length]. replace (Z.of_nat (length l + 1)) with (Z.of_nat (length l) + 1) by lia.
      split; [exact S'|]. inversion Hf as [|? ? [Hw Hlen] _]; subst. apply steady_one; [exact Hw|exact Hlen|exact S'|lia|]. intros E a' Ea. specialize (Hs E). apply Forall_app in Hs as [Hs Hsf]. inversion Hsf; subst.
      assert (Hwl : Forall well_formed (l ++ [g])) by (eapply Forall_impl; [|exact Hl]; cbn; tauto). destruct (run_state initial (l ++ [g]) H1 H2 Hwl) as [_ Hacc]. rewrite run_snoc, Ex in Hacc. cbn [fst] in Hacc.
      destruct (accumulated_snoc fl (l ++ [g]) f _ Hw Hacc) as (a2 & E2 & Ha). rewrite Ea in E2. injection E2 as <-. apply (sampled (l ++ [g]) f a'); assumption.
  Qed.
End Hist.
