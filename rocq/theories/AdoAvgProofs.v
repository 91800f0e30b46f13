(** Proofs about the averages of ADO (C90). *)
From Verif Require Import Base MixtureKeyModel UtilsModel UtilsProofs ChunkGenModel MixtureModel MixtureProofs DynModel SpecDyn DynProofs DynProofs2 DynProofs3 DynProofs6
  AdoFitModel SpecAdoFit AdoFitProofs AdoFitProofs2 PropertiesDyn2 SpecAdoAvg.
From Coq Require Import QArith Qpower Qabs Qminmax Lqa.
Open Scope Z_scope.

Definition F (n : nat) (f : nat -> Q) : list Q := map f (seq 0 n).
Lemma F_length n f : length (F n f) = n.
Proof. unfold F. rewrite map_length. apply seq_length. Qed.
Lemma F_nth n f k : (k < n)%nat -> nth k (F n f) 0%Q = f k.
Proof. intros H. unfold F. rewrite (nth_indep _ _ (f 0%nat)) by (rewrite map_length, seq_length; exact H). rewrite map_nth, seq_nth by exact H. reflexivity. Qed.
Lemma F_of l : l = F (length l) (fun k => nth k l 0%Q).
Proof. symmetry. apply map_nth_seq. Qed.
Lemma F_ext n f g : (forall k, (k < n)%nat -> f k = g k) -> F n f = F n g.
Proof. intros H. unfold F. apply map_ext_in. intros k Hk. apply in_seq in Hk. apply H. lia. Qed.
Lemma F_bop n op f g : bop op (F n f) (F n g) = Ok (F n (fun k => op (f k) (g k))).
Proof. rewrite bop_same by (rewrite !F_length; reflexivity). unfold F. rewrite combine_map2, map_map. reflexivity. Qed.
Lemma F_grow n m f : (n <= m)%nat -> (forall k, (n <= k)%nat -> f k = 0%Q) -> grow 0%Q (m - n) (F n f) = F m f.
Proof. apply grow_map. Qed.
Lemma F_blend n g f h : blend exactly g (F n f) (F n h) = Ok (F n (mean g f h)).
Proof. unfold blend. rewrite F_bop. reflexivity. Qed.
Lemma F_normalise n f l : normalise exactly qsum (F n f) = Ok l -> ~ (total n f == 0)%Q /\ l = F n (part n f).
Proof.
  unfold normalise. change (qsum (F n f)) with (total n f). destruct (Qeq_bool (total n f) 0) eqn:E; [discriminate|]. intros H. injection H as <-.
  split; [intros C; apply Qeq_bool_iff in C; congruence|]. unfold F. rewrite map_map. reflexivity.
Qed.
Lemma F_rho n pow_s h mu d : compute_rho exactly qsum pow_s (F n h) (F n mu) (F n d) n = Ok (F n (preference n pow_s mu h d)).
Proof.
  unfold compute_rho. replace (map pow_s (F n h)) with (F n (fun k => pow_s (h k))) by (unfold F; rewrite map_map; reflexivity). rewrite !F_bop.
  set (num := F n _). change (qsum num) with (total n (demand pow_s mu h d)). unfold preference, qpos. destruct (Qle_bool _ 0); cbn [negb]; unfold num, F; rewrite map_map; reflexivity.
Qed.
Lemma F_enforce n cfg p mu (c : nat -> Z) l : (0 < total n (raised (c_delta_min cfg) (fun k => Z.ltb 0 (c k)) p))%Q ->
  enforce_min exactly qsum cfg (F n p) mu (map c (seq 0 n)) = Ok l -> l = F n (part n (raised (c_delta_min cfg) (fun k => Z.ltb 0 (c k)) p)).
Proof.
  intros Hp. unfold enforce_min. rewrite F_length, map_length, seq_length, Nat.eqb_refl. cbn [negb]. cbv zeta.
  assert (Ea : map (fun q : Q * Z => if 0 <? snd q then Qmax (fst q) (c_delta_min cfg) else fst q) (combine (F n p) (map c (seq 0 n))) = F n (raised (c_delta_min cfg) (fun k => Z.ltb 0 (c k)) p)).
  { unfold F. rewrite combine_map2, map_map. reflexivity. }
  rewrite Ea. change (qsum (F n (raised (c_delta_min cfg) (fun k => Z.ltb 0 (c k)) p))) with (total n (raised (c_delta_min cfg) (fun k => Z.ltb 0 (c k)) p)). unfold qpos.
  assert (E : Qle_bool (total n (raised (c_delta_min cfg) (fun k => Z.ltb 0 (c k)) p)) 0 = false). { destruct (Qle_bool _ 0) eqn:E; [|reflexivity]. apply Qle_bool_iff in E. lra. }
  rewrite E. cbn [negb]. intros H. injection H as <-. unfold F. rewrite map_map. reflexivity.
Qed.

(** ** Sums *)
Lemma total_ext n f g : (forall k, (k < n)%nat -> (f k == g k)%Q) -> (total n f == total n g)%Q.
Proof. intros H. unfold total. apply DynProofs6.qsum_ext. intros k Hk. apply in_seq in Hk. apply H. lia. Qed.
Lemma total_part n f : ~ (total n f == 0)%Q -> (total n (part n f) == 1)%Q.
Proof. intros H. unfold total at 1, part. rewrite qsum_div by exact H. fold (total n f). field. exact H. Qed.
Lemma total_mono n f g : (forall k, (k < n)%nat -> (f k <= g k)%Q) -> (total n f <= total n g)%Q.
Proof.
  unfold total. intros H. assert (G : forall s, (forall k, In k s -> (k < n)%nat) -> (qsum (map f s) <= qsum (map g s))%Q).
  { induction s as [|k s IH]; intros Hs; cbn [map]; [apply Qle_refl|]. rewrite !qsum_cons. apply Qplus_le_compat; [apply H, Hs; left; reflexivity|apply IH; intros; apply Hs; right; assumption]. }
  apply G. intros k Hk. apply in_seq in Hk. lia.
Qed.
Lemma total_mean n w f g : (total n (mean w f g) == w * total n f + (1 - w) * total n g)%Q.
Proof. unfold total, mean. generalize (seq 0 n). induction l as [|k l IH]; cbn [map]; [change (0 == w * 0 + (1 - w) * 0)%Q; ring|]. rewrite !qsum_cons, IH. ring. Qed.
Lemma total_raised n d s f : (total n f <= total n (raised d s f))%Q.
Proof. apply total_mono. intros k _. unfold raised. destruct (s k); [apply Q.le_max_l|apply Qle_refl]. Qed.

Section Avg.
  Variable cfg : config.
  Variable P : Type.
  Variable p_zero : P.
  Variable fit1 : list (list Z) -> list (list Q) -> Z -> nat -> res P.
  Variable deriv : P -> Q -> Q.
  Variable pow_s : Q -> Q.
  Variable initial : list Q.
  Notation process := (ado_process exactly qsum cfg P p_zero fit1 deriv pow_s).
  Notation calc := (ado_calc exactly qsum cfg P p_zero fit1 deriv pow_s).
  Notation update := (ado_update exactly cfg P).
  Notation mix := (ado_mix exactly qsum cfg P deriv pow_s).
  Notation same := (c_same_step cfg).

  Definition mu0 (k : nat) : Q := nth k initial 0%Q.
  Definition arr (o : option (list Q)) (k : nat) : Q := match o with Some l => nth k l 0%Q | None => mu0 k end.

  (** The rate at which the credit follows the mixture. *)
  Definition rate (fresh : bool) (elapsed : Z) : Q :=
    match c_variant cfg with
    | AdjustedV1 => if fresh then c_gamma1 cfg else 0%Q
    | AdjustedV2 => if fresh then (if 1 <? elapsed then (1 - Qpower (1 - c_gamma1 cfg) elapsed)%Q else c_gamma1 cfg) else 0%Q
    | _ => c_gamma1 cfg
    end.
  Definition follows (fresh : bool) : bool := match c_variant cfg with AdjustedV1 | AdjustedV2 => fresh | _ => true end.

  (** One calculation of a mixture. *)
  Lemma mix_ok b o o' r n mu h bb d c ps : o_params P o = Some ps -> o_h P o = Some (F n h) -> o_mu P o = Some (F n mu) ->
    match o_pibar P o with Some x => x | None => F n mu end = F n bb ->
    loss_derivative exactly cfg P deriv o ps = Ok (F n d) -> a_counts (o_acc P o) = map c (seq 0 n) ->
    mix b o = (o', inl r) ->
    let rho := preference n pow_s mu h d in
    let pi := part n (raised (c_delta_min cfg) (fun k => Z.ltb 0 (c k)) (part n (mean (c_gamma2 cfg) rho bb))) in
    let w := (1 / (inject_Z (o_steps P o) + 1))%Q in
    r = Some (F n pi) /\ ~ (total n (mean (c_gamma2 cfg) rho bb) == 0)%Q /\ ~ (total n (mean w rho bb) == 0)%Q
    /\ o_pibar P o' = Some (F n (part n (mean w rho bb))) /\ o_mu P o' = Some (F n mu) /\ o_params P o' = Some ps
    /\ o_h P o' = Some (F n (if follows b then mean (rate b (o_steps P o - o_lastupd P o)) pi h else h))
    /\ o_lastupd P o' = (if follows b then o_steps P o else o_lastupd P o) /\ c_variant cfg <> OtherVariant /\ o_handed P o' = true.
  Proof.
    intros Ep Eh Em Eb Ed Ec E. cbv zeta. unfold DynModel.ado_mix in E. rewrite Ep, Eh, Em, Ed in E. replace (length (a_counts (o_acc P o))) with n in E by (rewrite Ec, map_length, seq_length; reflexivity).
    rewrite F_rho in E. cbv zeta in E. rewrite Eb in E. set (rho := preference n pow_s mu h d) in *. rewrite F_blend in E.
    destruct (normalise exactly qsum (F n (mean (c_gamma2 cfg) rho bb))) as [pi1|] eqn:E1; [|discriminate]. apply F_normalise in E1 as [N1 ->]. set (p1 := part n _) in *.
    assert (Hpos : (0 < total n (raised (c_delta_min cfg) (fun k => Z.ltb 0 (c k)) p1))%Q).
    { pose proof (total_raised n (c_delta_min cfg) (fun k => Z.ltb 0 (c k)) p1) as T. unfold p1 in T at 1. rewrite total_part in T by exact N1. lra. }
    cbn [o_acc set_pi set_rho set_pibar] in E. rewrite Ec in E.
    destruct (enforce_min exactly qsum cfg (F n p1) (F n mu) (map c (seq 0 n))) as [pl|] eqn:E2; [|discriminate]. apply F_enforce in E2; [|exact Hpos]. subst pl.
    set (pi := part n (raised _ _ p1)) in *. set (w := (1 / (inject_Z (o_steps P o) + 1))%Q) in *.
    match type of E with context [update_h exactly cfg P 1 ?x] => set (o1 := x) in * end.
    assert (Hu : forall k, update_h exactly cfg P k o1 = (set_h P (Some (F n (mean (match c_variant cfg with AdjustedV2 => if 1 <? k then (1 - Qpower (1 - c_gamma1 cfg) k)%Q else c_gamma1 cfg | _ => c_gamma1 cfg end) pi h))) (o_steps P o) o1, None)).
    { intros k. unfold update_h, o1. cbn [o_h o_pi o_steps set_pi set_rho set_pibar]. rewrite Eh. unfold exactly at 1 2 3. rewrite F_blend. reflexivity. }
    set (u1 := match c_variant cfg with Vanilla => _ | _ => _ end) in E.
    assert (Hu1 : c_variant cfg <> OtherVariant -> u1 = (if follows b then set_h P (Some (F n (mean (rate b (o_steps P o - o_lastupd P o)) pi h))) (o_steps P o) o1 else o1, None)).
    { intros Hv. unfold u1, follows, rate. change (o_steps P o1) with (o_steps P o). change (o_lastupd P o1) with (o_lastupd P o).
      destruct (c_variant cfg); try congruence; rewrite ?Hu; try reflexivity; destruct b; rewrite ?Hu; reflexivity. }
    assert (Hv : c_variant cfg <> OtherVariant). { intros C. unfold u1 in E. rewrite C in E. discriminate. }
    rewrite (Hu1 Hv) in E. set (o2 := if follows b then _ else o1) in E.
    assert (S2 : o_steps P o2 = o_steps P o) by (unfold o2; destruct (follows b); reflexivity). rewrite S2 in E.
    change (exactly (1 / exactly (inject_Z (o_steps P o) + 1)))%Q with w in E. rewrite F_blend in E.
    destruct (normalise exactly qsum (F n (mean w rho bb))) as [bl|] eqn:E3; [|discriminate]. apply F_normalise in E3 as [N3 ->]. injection E as <- <-.
    split; [reflexivity|]. split; [exact N1|]. split; [exact N3|]. split; [reflexivity|].
    unfold o2. destruct (follows b); cbn; rewrite ?Em, ?Ep, ?Eh; repeat split; auto.
  Qed.

  (** What a calculation that succeeds does to the averages. *)
  Definition stepped (b : bool) (T : Z) (n : nat) (c : nat -> Z) (h bb d : nat -> Q) (ps : list P) (lastupd : Z) (o' : ado P) (m : option (list Q)) : Prop :=
    let rho := preference n pow_s mu0 h d in
    let pi := part n (raised (c_delta_min cfg) (fun k => Z.ltb 0 (c k)) (part n (mean (c_gamma2 cfg) rho bb))) in
    let w := (1 / (inject_Z T + 1))%Q in
    m = Some (F n pi) /\ ~ (total n (mean (c_gamma2 cfg) rho bb) == 0)%Q /\ ~ (total n (mean w rho bb) == 0)%Q
    /\ o_pibar P o' = Some (F n (part n (mean w rho bb))) /\ o_params P o' = Some ps
    /\ o_h P o' = Some (F n (if follows b then mean (rate b (T - lastupd)) pi h else h))
    /\ o_lastupd P o' = (if follows b then T else lastupd) /\ c_variant cfg <> OtherVariant.
  Lemma mix_inv b o o' r : mix b o = (o', inl r) -> exists ps dl, o_params P o = Some ps /\ loss_derivative exactly cfg P deriv o ps = Ok dl.
  Proof.
    unfold DynModel.ado_mix. destruct (o_params P o) as [ps|]; [|discriminate]. destruct (o_h P o); [|discriminate]. destruct (o_mu P o); [|discriminate].
    destruct (loss_derivative _ _ _ _ _ _) as [dl|] eqn:E; [|discriminate]. intros _. exists ps, dl. auto.
  Qed.
  Lemma calc_ok b o o' m n h bb c slope : o_initial P o = initial -> (o_mu P o = None \/ o_mu P o = Some (F n mu0) /\ (length initial <= n)%nat) ->
    match o_h P o with Some x => x | None => F n mu0 end = F n h -> match o_pibar P o with Some x => x | None => F n mu0 end = F n bb ->
    a_counts (o_acc P o) = map c (seq 0 n) ->
    (forall o4 ps dl, frame P o o4 -> loss_derivative exactly cfg P deriv o4 ps = Ok dl -> length ps = n /\ dl = F n (slope ps)) ->
    calc b o = (o', inl m) ->
    let T := o_steps P o + 1 in
    (length initial <= n)%nat /\ o_mu P o' = Some (F n mu0)
    /\ (T < c_start cfg -> m = None /\ o_h P o' = o_h P o /\ o_pibar P o' = o_pibar P o /\ o_lastupd P o' = o_lastupd P o)
    /\ (c_start cfg <= T ->
         (m = None /\ c_variant cfg = AdjustedV3 /\ o_h P o' = Some (F n h) /\ o_pibar P o' = o_pibar P o /\ o_lastupd P o' = o_lastupd P o)
         \/ exists ps, length ps = n /\ stepped b T n c h bb (slope ps) ps (o_lastupd P o) o' m).
  Proof.
    intros Ei Emu Eh Eb Ec Hd E T. unfold DynModel.ado_calc in E. set (o0 := set_steps P _ o) in E.
    assert (H1 : let '(o1, e1) := set_prior qsum P o0 in e1 = None -> (length initial <= n)%nat /\ o_mu P o1 = Some (F n mu0) /\ frame P o o1 /\ o_steps P o1 = T
      /\ o_h P o1 = o_h P o /\ o_pibar P o1 = o_pibar P o /\ o_lastupd P o1 = o_lastupd P o).
    { unfold set_prior. cbv zeta. change (o_mu P o0) with (o_mu P o). change (o_initial P o0) with (o_initial P o). change (o_acc P o0) with (o_acc P o). rewrite Ei.
      destruct Emu as [En|[Es Hl]]; [rewrite En|rewrite Es; intros _; repeat split; assumption]. rewrite Ec, map_length, seq_length.
      change (o_initial P (set_mu P (Some (grow 0%Q (n - length initial) initial)) o0)) with (o_initial P o). rewrite Ei. destruct (Nat.ltb n (length initial)) eqn:El; [intros X; discriminate X|]. apply Nat.ltb_ge in El. destruct (negb _); [intros X; discriminate X|]. intros _.
      split; [exact El|]. split; [|repeat split]. cbn [o_mu set_mu]. f_equal. rewrite (F_of initial) at 2. unfold F. apply grow_map; [exact El|]. intros k Hk. apply nth_overflow. exact Hk. }
    destruct (set_prior qsum P o0) as [o1 e1]. destruct e1; [discriminate|]. destruct (H1 eq_refl) as (Hl & M1 & F1 & S1 & H1h & H1b & H1u). clear H1. split; [exact Hl|]. rewrite S1 in E.
    destruct (T <? c_start cfg) eqn:Es.
    - injection E as <- <-. apply Z.ltb_lt in Es. split; [exact M1|]. split; [auto|lia].
    - apply Z.ltb_ge in Es. cbv zeta in E. set (o2 := set_h P _ _ o1) in E. change (o_steps P o2) with (o_steps P o1) in E. rewrite S1 in E.
      assert (H2 : o_h P o2 = Some (F n h)). { unfold o2. cbn [o_h set_h]. rewrite H1h, M1. rewrite <- Eh. destruct (o_h P o); reflexivity. }
      destruct (refit_due cfg T) as [rf|]; [|discriminate].
      set (w := if rf then _ else _) in E. assert (H3 : let '(o3, e3) := w in frame P o o3 /\ o_mu P o3 = Some (F n mu0) /\ o_h P o3 = Some (F n h) /\ o_pibar P o3 = o_pibar P o /\ o_lastupd P o3 = o_lastupd P o /\ o_steps P o3 = T).
      { unfold w. destruct rf.
        - pose proof (fit_ok P p_zero fit1 o2) as H. destruct (fit_scaling_laws P p_zero fit1 o2) as [o3 e3]. destruct H as [(ps & -> & _) _]. repeat split; try assumption; apply F1.
        - repeat split; try assumption; apply F1. }
      destruct w as [o3 e3]. destruct H3 as (F3 & M3 & H3 & B3 & U3 & S3). destruct e3; [discriminate|].
      assert (Hm : forall o4, frame P o o4 -> o_mu P o4 = Some (F n mu0) -> o_h P o4 = Some (F n h) -> o_pibar P o4 = o_pibar P o -> o_lastupd P o4 = o_lastupd P o -> o_steps P o4 = T ->
                mix b o4 = (o', inl m) -> o_mu P o' = Some (F n mu0) /\ exists ps, length ps = n /\ stepped b T n c h bb (slope ps) ps (o_lastupd P o) o' m).
      { intros o4 F4 M4 H4 B4 U4 S4 Ex. destruct (mix_inv b o4 o' m Ex) as (ps & dl & P1 & P2). destruct (Hd o4 ps dl F4 P2) as [Lp ->].
        destruct (mix_ok b o4 o' m n mu0 h bb (slope ps) c ps P1 H4 M4) as (X1 & X2 & X3 & X4 & X5 & X6 & X7 & X8 & X9 & _); [rewrite B4; exact Eb|exact P2|rewrite (proj1 F4); exact Ec|exact Ex|].
        rewrite S4, U4 in *. split; [exact X5|]. exists ps. split; [exact Lp|]. unfold stepped. cbv zeta. repeat split; assumption. }
      assert (Hfin : forall o4, frame P o o4 -> o_mu P o4 = Some (F n mu0) -> o_h P o4 = Some (F n h) -> o_pibar P o4 = o_pibar P o -> o_lastupd P o4 = o_lastupd P o -> o_steps P o4 = T -> mix b o4 = (o', inl m) ->
                o_mu P o' = Some (F n mu0) /\ (T < c_start cfg -> m = None /\ o_h P o' = o_h P o /\ o_pibar P o' = o_pibar P o /\ o_lastupd P o' = o_lastupd P o)
                /\ (c_start cfg <= T -> (m = None /\ c_variant cfg = AdjustedV3 /\ o_h P o' = Some (F n h) /\ o_pibar P o' = o_pibar P o /\ o_lastupd P o' = o_lastupd P o)
                    \/ exists ps, length ps = n /\ stepped b T n c h bb (slope ps) ps (o_lastupd P o) o' m)).
      { intros o4 F4 M4 H4 B4 U4 S4 Ex. destruct (Hm o4 F4 M4 H4 B4 U4 S4 Ex) as [Y1 Y2]. split; [exact Y1|]. split; [lia|]. right. exact Y2. }
      destruct (c_variant cfg) eqn:Ev; try (apply (Hfin o3); assumption).
      destruct (o_handed P o3); [|apply (Hfin o3); assumption].
      set (o4 := if b then _ else o3) in E. assert (H4 : frame P o o4 /\ o_mu P o4 = Some (F n mu0) /\ o_h P o4 = Some (F n h) /\ o_pibar P o4 = o_pibar P o /\ o_lastupd P o4 = o_lastupd P o /\ o_steps P o4 = T).
      { unfold o4. destruct b; repeat split; try assumption; apply F3. }
      destruct H4 as (F4 & M4 & H4 & B4 & U4 & S4). destruct (_ || _)%bool; [apply (Hfin o4); assumption|].
      injection E as <- <-. split; [exact M4|]. split; [lia|]. intros _. left. auto.
  Qed.

  (** ** The run *)
  Definition shape (n : nat) (x : option (list Q)) : Prop := match x with Some l => length l = n | None => True end.
  Lemma shape_F n x : shape n x -> (length initial <= n)%nat -> match x with Some l => l | None => F n mu0 end = F n (arr x).
  Proof. destruct x as [l|]; cbn [shape arr]; [intros <- _; apply F_of|reflexivity]. Qed.
  Lemma arr_grow k x i : arr (option_map (grow 0%Q k) x) i = arr x i.
  Proof. destruct x as [l|]; [apply nth_grow|reflexivity]. Qed.
  Lemma derivative_len l f (o : ado P) ps dl : kept exactly cfg P (l ++ [f]) o -> accumulated exactly (l ++ [f]) (o_acc P o) ->
    loss_derivative exactly cfg P deriv o ps = Ok dl -> length ps = widest (l ++ [f]) /\ dl = F (widest (l ++ [f])) (slope_at deriv same (c_normalizer cfg) (l ++ [f]) ps (S (length l))).
  Proof.
    intros K A E. assert (L : length ps = widest (l ++ [f])).
    { set (n := widest (l ++ [f])) in *. pose proof (derivative_at exactly cfg P deriv l f o (repeat p_zero n) K A (repeat_length _ _)) as D. revert E D. unfold loss_derivative.
      destruct (if c_same_step cfg then _ else _) as [nk|]; [|discriminate]. cbv zeta. set (nk' := match c_normalizer cfg with Some d => _ | None => _ end).
      rewrite repeat_length. destruct (Nat.eqb (length ps) (length nk')) eqn:E1; [|discriminate]. destruct (Nat.eqb n (length nk')) eqn:E2; [|discriminate]. intros _ _.
      apply Nat.eqb_eq in E1, E2. congruence. }
    split; [exact L|]. rewrite (derivative_at exactly cfg P deriv l f o ps K A L) in E. injection E as <-. rewrite <- L. clear. unfold F, slope_at.
    replace (S (length l) - 1)%nat with (length l) by lia. set (u := upto same (l ++ [f]) (length l)). clearbody u.
    assert (G : forall a, map (fun p : P * nat => let n := in_samples exactly (c_normalizer cfg) (u (snd p)) in if negb (Qle_bool n 0) then deriv (fst p) n else 0%Q) (combine ps (seq a (length ps)))
      = map (fun k => match nth_error ps (k - a) with Some p => let x := in_samples (fun x => x) (c_normalizer cfg) (u k) in if Qle_bool x 0 then 0%Q else deriv p x | None => 0%Q end) (seq a (length ps))).
    { induction ps as [|p ps IH]; intros a; [reflexivity|]. cbn [length seq combine map]. f_equal.
      - cbn [fst snd]. rewrite Nat.sub_diag. cbn [nth_error]. cbv zeta. change exactly with (fun x : Q => x). destruct (Qle_bool _ 0); reflexivity.
      - rewrite IH. apply map_ext_in. intros k Hk. apply in_seq in Hk. replace (k - a)%nat with (S (k - S a)) by lia. reflexivity. }
    rewrite G. apply map_ext. intros k. rewrite Nat.sub_0_r. reflexivity.
  Qed.

  Definition after (l : list fb) : ado P := run process l (ado0 P initial).
  Definition Inv (l : list fb) (o : ado P) : Prop :=
    o_initial P o = initial
    /\ (l = [] /\ o_mu P o = None \/ o_mu P o = Some (F (widest l) mu0) /\ (length initial <= widest l)%nat)
    /\ shape (widest l) (o_h P o) /\ shape (widest l) (o_pibar P o)
    /\ (l = [] \/ Z.of_nat (length l) < c_start cfg -> o_h P o = None /\ o_pibar P o = None /\ o_lastupd P o = 0).
  Lemma inv_nil : Inv [] (ado0 P initial).
  Proof. split; [reflexivity|]. split; [left; split; reflexivity|]. split; [exact I|]. split; [exact I|]. intros _. repeat split. Qed.
  Definition is_new (l : list fb) (f : fb) : bool := fold_left Z.max (map fb_mixture l) (-1) <? fb_mixture f.

  Lemma inv_step l f m : Forall well_formed (l ++ [f]) -> steady_growth same (l ++ [f]) -> Inv l (after l) ->
    snd (process (fb_losses f) (fb_counts f) (fb_mixture f) (after l)) = inl m ->
    let o := after l in let o' := after (l ++ [f]) in
    let T := Z.of_nat (length (l ++ [f])) in
    let n := widest (l ++ [f]) in
    Inv (l ++ [f]) o'
    /\ (T < c_start cfg -> m = None)
    /\ (c_start cfg <= T ->
         (m = None /\ c_variant cfg = AdjustedV3 /\ (forall k, arr (o_h P o') k = arr (o_h P o) k) /\ (forall k, arr (o_pibar P o') k = arr (o_pibar P o) k) /\ o_lastupd P o' = o_lastupd P o)
         \/ exists ps, length ps = n /\ stepped (is_new l f) T n (fun k => zsum (counts_of k (l ++ [f]))) (arr (o_h P o)) (arr (o_pibar P o)) (slope_at deriv same (c_normalizer cfg) (l ++ [f]) ps (S (length l))) ps (o_lastupd P o) o' m).
  Proof.
    intros Hw Hg (I1 & I2 & I3 & I4 & I5) E o o' T n. pose proof Hw as Hw'. apply Forall_app in Hw' as [Hwl Hwf]. pose proof (Forall_inv Hwf) as W.
    destruct (steady_growth_app cfg l f Hg) as [Hgl Hle]. destruct (kept_run exactly qsum cfg P p_zero fit1 deriv pow_s initial l Hwl Hgl) as (K & A & S). fold (after l) in K, A, S. fold o in K, A, S, E, I1, I2, I3, I4, I5.
    assert (Eo' : o' = fst (process (fb_losses f) (fb_counts f) (fb_mixture f) o)) by (unfold o', after; rewrite run_app; reflexivity).
    assert (Elast : (o_last P o <? fb_mixture f) = is_new l f). { unfold is_new, o, after. rewrite ado_last_run. reflexivity. }
    unfold DynModel.ado_process, process_losses in E, Eo'. rewrite Elast in E, Eo'. set (b := is_new l f) in *. set (o1 := if b then _ else o) in E, Eo'.
    assert (X1 : kept exactly cfg P l o1 /\ accumulated exactly l (o_acc P o1) /\ o_steps P o1 = Z.of_nat (length l) /\ o_h P o1 = o_h P o /\ o_mu P o1 = o_mu P o /\ o_pibar P o1 = o_pibar P o /\ o_initial P o1 = initial /\ o_lastupd P o1 = o_lastupd P o).
    { unfold o1. destruct b; repeat split; assumption || apply K || apply A. }
    destruct X1 as (K1 & A1 & S1 & H1 & M1 & B1 & N1 & U1).
    destruct (kept_update exactly cfg P p_zero deriv l f o1 Hw Hg K1 A1) as (o2 & E2 & K2 & A2 & S2 & _).
    assert (Q2 := E2). eapply DynProofs3.ado_update_ok in Q2; [|exact W|destruct A1 as (a1 & a2 & _); congruence]. destruct Q2 as (_ & (Qh & Qm & _ & Qb) & (Ki & _ & _ & _ & _ & Ku) & _).
    rewrite (proj1 A1) in Qh, Qm, Qb. rewrite E2 in E, Eo'. rewrite H1 in Qh. rewrite M1 in Qm. rewrite B1 in Qb. rewrite N1 in Ki. rewrite U1 in Ku.
    assert (Hn : n = length (fb_losses f)) by (unfold n; rewrite widest_snoc; lia). rewrite <- Hn in Qh, Qm, Qb. assert (Hwn : (widest l <= n)%nat) by lia.
    assert (Hsh : forall x, shape (widest l) x -> shape n (option_map (grow 0%Q (n - widest l)) x)) by (intros [x|] Hx; cbn in *; [rewrite grow_length, Hx; lia|exact I]).
    assert (M2 : o_mu P o2 = None /\ l = [] \/ o_mu P o2 = Some (F n mu0) /\ (length initial <= n)%nat).
    { destruct I2 as [[-> Em]|[Em Hl]]; rewrite Qm, Em; [left; split; reflexivity|right]. split; [|lia]. cbn [option_map]. f_equal. apply F_grow; [exact Hwn|]. intros k Hk. apply nth_overflow. lia. }
    destruct (calc b o2) as [o3 r] eqn:E3. cbn [fst snd] in E, Eo'. subst r o3.
    (* the prior may only now be known to be short enough *)
    assert (Hle2 : (length initial <= n)%nat).
    { destruct M2 as [[Em _]|[_ H]]; [|exact H]. unfold DynModel.ado_calc in E3. set (o0 := set_steps P _ o2) in E3. unfold set_prior in E3. change (o_mu P o0) with (o_mu P o2) in E3. rewrite Em in E3. cbv zeta in E3. cbn [o_initial set_mu] in E3.
      change (o_initial P o0) with (o_initial P o2) in E3. change (o_acc P o0) with (o_acc P o2) in E3. rewrite Ki in E3. destruct A2 as (_ & A2 & _). rewrite A2 in E3. fold n in E3. destruct (Nat.ltb n (length initial)) eqn:El; [discriminate|]. apply Nat.ltb_ge in El. exact El. }
    assert (Eh2 : match o_h P o2 with Some x => x | None => F n mu0 end = F n (arr (o_h P o))).
    { rewrite (shape_F n) by (rewrite ?Qh; auto). apply F_ext. intros k _. rewrite Qh. apply arr_grow. }
    assert (Eb2 : match o_pibar P o2 with Some x => x | None => F n mu0 end = F n (arr (o_pibar P o))).
    { rewrite (shape_F n) by (rewrite ?Qb; auto). apply F_ext. intros k _. rewrite Qb. apply arr_grow. }
    assert (Ec2 : a_counts (o_acc P o2) = map (fun k => zsum (counts_of k (l ++ [f]))) (seq 0 n)).
    { destruct A2 as (_ & L2 & _ & A4). rewrite <- (map_nth_seq 0 (a_counts (o_acc P o2))), L2. fold n. apply map_ext. exact A4. }
    assert (Hd2 : forall o4 ps dl, frame P o2 o4 -> loss_derivative exactly cfg P deriv o4 ps = Ok dl -> length ps = n /\ dl = F n (slope_at deriv same (c_normalizer cfg) (l ++ [f]) ps (Datatypes.S (length l)))).
    { intros o4 ps dl (G1 & _ & _ & G4 & G5) Ed. apply (derivative_len l f o4 ps dl); [unfold kept; rewrite G4, G5; exact K2|rewrite G1; exact A2|exact Ed]. }
    assert (M2' : o_mu P o2 = None \/ o_mu P o2 = Some (F n mu0) /\ (length initial <= n)%nat) by tauto.
    pose proof (calc_ok b o2 o' m n _ _ _ _ Ki M2' Eh2 Eb2 Ec2 Hd2 E3) as C. cbv zeta in C. replace (o_steps P o2 + 1) with T in C by (unfold T; rewrite app_length, S2, S1; cbn [length]; lia).
    destruct C as (_ & C1 & C2 & C3). pose proof (calc_frame exactly qsum cfg P p_zero fit1 deriv pow_s b o2) as Fr. rewrite E3 in Fr. cbn [fst] in Fr.
    assert (Hnone : Z.of_nat (length l) < c_start cfg -> T < c_start cfg -> o_h P o2 = None /\ o_pibar P o2 = None /\ o_lastupd P o2 = 0).
    { intros Hlt _. destruct (I5 (or_intror Hlt)) as (J1 & J2 & J3). rewrite Qh, Qb, Ku, J1, J2, J3. repeat split. }
    assert (HT : T = Z.of_nat (length l) + 1) by (unfold T; rewrite app_length; cbn [length]; lia).
    rewrite Ku in C2, C3.
    split; [|split].
    - split; [destruct Fr as (_ & _ & Fi & _); rewrite Fi; exact Ki|]. fold n. split; [right; split; [exact C1|exact Hle2]|].
      destruct (Z_lt_ge_dec T (c_start cfg)) as [Hlt|Hge].
      + destruct (C2 Hlt) as (_ & D1 & D2 & D3). rewrite D1, D2. split; [rewrite Qh; apply Hsh, I3|]. split; [rewrite Qb; apply Hsh, I4|]. intros _.
        destruct (Hnone ltac:(lia) Hlt) as (G1 & G2 & G3). rewrite D3, <- Ku. auto.
      + assert (Hbig : (l ++ [f] = [] \/ Z.of_nat (length (l ++ [f])) < c_start cfg) -> o_h P o' = None /\ o_pibar P o' = None /\ o_lastupd P o' = 0).
        { intros [H|H]; [destruct l; discriminate|]. fold T in H. lia. }
        destruct (C3 ltac:(lia)) as [(_ & _ & D1 & D2 & _)|(ps & Lp & (_ & _ & _ & D2 & _ & D1 & _))].
        * split; [rewrite D1; cbn; apply F_length|]. split; [rewrite D2, Qb; apply Hsh, I4|exact Hbig].
        * split; [rewrite D1; cbn; apply F_length|]. split; [rewrite D2; cbn; apply F_length|exact Hbig].
    - intros H. apply C2, H.
    - intros H. destruct (C3 H) as [(D0 & D1 & D2 & D3 & D4)|(ps & Lp & D)].
      + left. split; [exact D0|]. split; [exact D1|]. split; [|split; [|exact D4]].
        * intros k. rewrite D2. cbn [arr]. destruct (Nat.lt_ge_cases k n) as [Hk|Hk]; [apply F_nth, Hk|]. rewrite nth_overflow by (rewrite F_length; exact Hk).
          symmetry. destruct (o_h P o) as [x|] eqn:Ex; cbn [arr]; apply nth_overflow; [cbn in I3; lia|lia].
        * intros k. rewrite D3, Qb. apply arr_grow.
      + right. exists ps. split; [exact Lp|exact D].
  Qed.
End Avg.
