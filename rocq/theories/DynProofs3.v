(** Proofs about ADO. *)
From Verif Require Import Base MixtureKeyModel UtilsModel UtilsProofs ChunkGenModel MixtureModel MixtureProofs DynModel SpecDyn DynProofs DynProofs2.
From Coq Require Import QArith Qpower Qabs Qminmax Lqa Permutation.
Open Scope Z_scope.

Definition nonneg (l : list Q) : Prop := Forall (fun x => (0 <= x)%Q) l.
Definition some_pos (l : list Q) : Prop := Exists (fun x => (0 < x)%Q) l.

Section Ado.
  Variables (fl : Q -> Q) (nsum : list Q -> Q) (u : Q) (dep : nat -> nat).
  Hypothesis Hu : (0 <= u)%Q.
  Hypothesis Hu1 : (u <= 1 # 2)%Q.
  Hypothesis Hfl : rounds fl u.
  Hypothesis Hone : forall x, (0 <= x <= 1)%Q -> (fl x <= 1)%Q.
  Hypothesis Hsum : forall l, float_sum fl (dep (length l)) l (nsum l).
  Variable cfg : config.
  Variable P : Type.
  Variable p_zero : P.
  Variable fit1 : list (list Z) -> list (list Q) -> Z -> nat -> res P.
  Variable deriv : P -> Q -> Q.
  Variable pow_s : Q -> Q.
  Hypothesis Hpow : forall x, (0 <= x)%Q -> (0 <= pow_s x)%Q.
  Hypothesis Hg1 : (0 <= c_gamma1 cfg <= 1)%Q.
  Hypothesis Hg2 : (0 <= c_gamma2 cfg <= 1)%Q.
  Notation ado := (ado P).
  Notation ado_update := (ado_update fl cfg P).
  Notation ado_calc := (ado_calc fl nsum cfg P p_zero fit1 deriv pow_s).
  Notation ado_mix := (ado_mix fl nsum cfg P deriv pow_s).
  Notation ado_process := (ado_process fl nsum cfg P p_zero fit1 deriv pow_s).
  Notation fit_scaling_laws := (fit_scaling_laws P p_zero fit1).

  Lemma fl0 x : (0 <= x)%Q -> (0 <= fl x)%Q.
  Proof. apply (fl_pos fl u Hu1 Hfl). Qed.
  Lemma flp x : (0 < x)%Q -> (0 < fl x)%Q.
  Proof. apply (fl_spos fl u Hu1 Hfl). Qed.
  Lemma nsum_pos l : nonneg l -> (0 <= nsum l)%Q /\ ((0 < nsum l)%Q <-> some_pos l).
  Proof. intros H. apply (float_sum_pos fl u Hu1 Hfl _ _ _ (Hsum l) H). Qed.

  Lemma bop_same f a b : length a = length b -> bop f a b = Ok (map (fun p => f (fst p) (snd p)) (combine a b)).
  Proof. intros H. unfold bop. rewrite (proj2 (Nat.eqb_eq _ _) H). reflexivity. Qed.
  Lemma nonneg_scale l s : nonneg l -> (0 < s)%Q -> nonneg (map (fun x => fl (x / s)%Q) l).
  Proof. intros H Hs. unfold nonneg in *. rewrite Forall_map. eapply Forall_impl; [|exact H]. cbn. intros x Hx. apply fl0, Qle_shift_div_l; lra. Qed.
  Lemma some_pos_scale l s : some_pos l -> (0 < s)%Q -> some_pos (map (fun x => fl (x / s)%Q) l).
  Proof. intros H Hs. unfold some_pos in *. rewrite Exists_map. eapply Exists_impl; [|exact H]. cbn. intros x Hx. apply flp, Qlt_shift_div_l; lra. Qed.
  Lemma some_pos_nonempty l : some_pos l -> l <> [].
  Proof. intros H ->. inversion H. Qed.

  (** Blending two vectors of the same length. *)
  Lemma blend_ok g a b : (0 <= g <= 1)%Q -> length a = length b -> nonneg a -> nonneg b ->
    exists c, blend fl g a b = Ok c /\ length c = length a /\ nonneg c
      /\ ((0 < g)%Q -> some_pos a -> some_pos c) /\ ((g < 1)%Q -> some_pos b -> some_pos c).
  Proof.
    intros Hg Hl Ha Hb. unfold blend. rewrite bop_same by exact Hl. eexists. split; [reflexivity|]. rewrite map_length, combine_length.
    assert (H1g : (0 <= fl (1 - g))%Q) by (apply fl0; lra). split; [lia|].
    assert (Hall : forall x y, (0 <= x)%Q -> (0 <= y)%Q -> (0 <= fl (g * x))%Q /\ (0 <= fl (fl (1 - g) * y))%Q).
    { intros x y Hx Hy. split; apply fl0, Qmult_le_0_compat; tauto. }
    split; [|split].
    - unfold nonneg in *. rewrite Forall_map, Forall_forall. intros [x y] Hp. cbn [fst snd]. rewrite Forall_forall in Ha, Hb.
      destruct (Hall x y) as [? ?]; [apply Ha; eapply in_combine_l; exact Hp|apply Hb; eapply in_combine_r; exact Hp|]. apply fl0. lra.
    - intros Hgp Hpos. clear - Hl Ha Hb Hall Hgp Hpos Hfl Hu1 Hu. unfold some_pos, nonneg in *. revert b Hl Hb. induction Hpos as [x a Hx|x a Hpos IH]; intros [|y b] Hl Hb; try discriminate; inversion Ha; subst; inversion Hb; subst; cbn [combine map fst snd].
      + left. destruct (Hall x y) as [_ ?]; [assumption..|]. apply flp. assert (0 < fl (g * x))%Q by (apply flp, Qmult_lt_0_compat; assumption). lra.
      + right. apply IH; [assumption|cbn in Hl; lia|assumption].
    - intros Hgp Hpos. assert (H1p : (0 < fl (1 - g))%Q) by (apply flp; lra). clear - Hl Ha Hb Hall H1p Hpos Hfl Hu1 Hu. unfold some_pos, nonneg in *. revert a Hl Ha. induction Hpos as [y b Hy|y b Hpos IH]; intros [|x a] Hl Ha; try discriminate; inversion Ha; subst; inversion Hb; subst; cbn [combine map fst snd].
      + left. destruct (Hall x y) as [? _]; [assumption..|]. apply flp. assert (0 < fl (fl (1 - g) * y))%Q by (apply flp, Qmult_lt_0_compat; assumption). lra.
      + right. apply IH; [assumption|cbn in Hl; lia|assumption].
  Qed.
  Lemma blend_pos g a b : (0 <= g <= 1)%Q -> length a = length b -> nonneg a -> nonneg b -> some_pos a -> some_pos b ->
    exists c, blend fl g a b = Ok c /\ length c = length a /\ nonneg c /\ some_pos c.
  Proof.
    intros Hg Hl Ha Hb Pa Pb. destruct (blend_ok g a b Hg Hl Ha Hb) as (c & E & C1 & C2 & C3 & C4). exists c. split; [exact E|]. split; [exact C1|]. split; [exact C2|].
    destruct (Qlt_le_dec 0 g) as [|Hz]; [apply C3; assumption|]. apply C4; [lra|assumption].
  Qed.
  Lemma normalise_ok a : nonneg a -> some_pos a -> exists s, (0 < s)%Q /\ s = nsum a /\ normalise fl nsum a = Ok (map (fun x => fl (x / s)%Q) a).
  Proof. intros Hn Hp. destruct (nsum_pos a Hn) as [_ H]. apply H in Hp. exists (nsum a). unfold normalise. rewrite Qeq_bool_pos by exact Hp. auto. Qed.

  (** The preference distribution has the right length, is non-negative and not zero everywhere. *)
  Lemma rho_ok h mu dl nd : nonneg h -> nonneg mu -> some_pos mu -> length h = length mu -> (0 < nd)%nat -> length dl = length mu ->
    exists rho, compute_rho fl nsum pow_s h mu dl nd = Ok rho /\ length rho = length mu /\ nonneg rho /\ some_pos rho.
  Proof.
    intros Hh Hm Pm Hl Hnd Hd. unfold compute_rho. rewrite bop_same by (rewrite map_length; congruence).
    set (ml := map _ (combine mu (map pow_s h))). assert (Hml : length ml = length mu) by (unfold ml; rewrite map_length, combine_length, map_length; lia).
    rewrite bop_same by congruence. set (num := map _ (combine ml dl)). assert (Hnl : length num = length mu) by (unfold num; rewrite map_length, combine_length; lia).
    assert (Hn : nonneg num). { unfold nonneg, num. rewrite Forall_map, Forall_forall. intros p _. apply Q.le_max_r. }
    destruct (nsum_pos num Hn) as [N0 N1]. destruct (qpos (nsum num)) eqn:Eq.
    - apply qpos_true in Eq. eexists. split; [reflexivity|]. rewrite map_length. split; [exact Hnl|]. split; [apply nonneg_scale; assumption|].
      apply some_pos_scale; [apply N1, Eq|exact Eq].
    - assert (Hz : (0 < inject_Z (Z.of_nat nd))%Q) by (change 0%Q with (inject_Z 0); rewrite <- Zlt_Qlt; lia).
      eexists. split; [reflexivity|]. rewrite map_length. split; [reflexivity|]. split; [apply nonneg_scale; assumption|apply some_pos_scale; assumption].
  Qed.

  Lemma enforce_ok pi mu counts : nonneg pi -> some_pos pi -> length pi = length counts ->
    exists adj, enforce_min fl nsum cfg pi mu counts = Ok (map (fun x => fl (x / nsum adj)%Q) adj)
      /\ adj = map (fun p => if 0 <? snd p then Qmax (fst p) (c_delta_min cfg) else fst p) (combine pi counts)
      /\ length adj = length counts /\ nonneg adj /\ (0 < nsum adj)%Q.
  Proof.
    intros Hn Hp Hl. unfold enforce_min. rewrite (proj2 (Nat.eqb_eq _ _) Hl). cbn [negb]. set (adj := map _ (combine pi counts)).
    assert (Hge : Forall2 (fun x y => (x <= y)%Q) pi adj).
    { unfold adj. clear - Hl. revert counts Hl. induction pi as [|x pi IH]; intros [|c cs] Hl; try discriminate; cbn [combine map]; constructor; [|apply IH; cbn in Hl; lia].
      cbn [fst snd]. destruct (0 <? c); [apply Q.le_max_l|apply Qle_refl]. }
    assert (Hna : nonneg adj). { clear - Hge Hn. unfold nonneg in *. induction Hge; constructor; inversion Hn; subst; [lra|auto]. }
    assert (Hpa : some_pos adj). { clear - Hge Hp. unfold some_pos in *. induction Hge; inversion Hp; subst; [left; lra|right; auto]. }
    destruct (nsum_pos adj Hna) as [_ Ha]. apply Ha in Hpa. exists adj. rewrite (proj2 (qpos_true _) Hpa).
    split; [reflexivity|]. split; [reflexivity|]. split; [unfold adj; rewrite map_length, combine_length; lia|]. split; assumption.
  Qed.

  (** ** The invariant *)
  Definition opt (Pr : list Q -> Prop) (o : option (list Q)) : Prop := match o with Some v => Pr v | None => True end.
  Definition nd (o : ado) : nat := length (a_counts (o_acc P o)).
  Definition inv (o : ado) : Prop :=
    length (a_losses (o_acc P o)) = nd o /\ 0 <= o_steps P o /\ nonneg (o_initial P o) /\ some_pos (o_initial P o)
    /\ match o_mu P o with
       | None => o_h P o = None /\ o_pi P o = None /\ o_pibar P o = None
       | Some m => (nd o <= length m)%nat /\ nonneg m /\ some_pos m
           /\ opt (fun h => length h = length m /\ nonneg h) (o_h P o)
           /\ opt (fun b => length b = length m /\ nonneg b /\ some_pos b) (o_pibar P o)
       end.
  Lemma inv0 initial : nonneg initial -> some_pos initial -> inv (ado0 P initial).
  Proof. intros H1 H2. unfold inv. cbn. auto 10 using Z.le_refl. Qed.
  (** The arrays fit: what the algorithm is meant to work with. *)
  Definition fits (o : ado) : Prop := match o_mu P o with Some m => length m = nd o | None => (length (o_initial P o) <= nd o)%nat end.

  Lemma nonneg_grow k l : nonneg l -> nonneg (grow 0%Q k l).
  Proof. intros H. unfold nonneg, grow in *. apply Forall_app. split; [exact H|]. rewrite Forall_forall. intros x Hx. apply repeat_spec in Hx. subst. lra. Qed.
  Lemma some_pos_grow k l : some_pos l -> some_pos (grow 0%Q k l).
  Proof. intros H. unfold some_pos, grow in *. apply Exists_app. left. exact H. Qed.

  (** What an update leaves alone. *)
  Definition kept (o o' : ado) : Prop :=
    o_initial P o' = o_initial P o /\ o_steps P o' = o_steps P o /\ o_params P o' = o_params P o /\ o_next P o' = o_next P o /\ o_handed P o' = o_handed P o /\ o_lastupd P o' = o_lastupd P o.
  Lemma ado_update_ok f o o' e : well_formed f -> length (a_losses (o_acc P o)) = length (a_counts (o_acc P o)) ->
    ado_update (fb_losses f) (fb_counts f) o = (o', e) ->
    update_state fl (fb_losses f) (fb_counts f) (o_acc P o) = (o_acc P o', None)
    /\ (let k := (length (fb_losses f) - length (a_losses (o_acc P o)))%nat in
        o_h P o' = option_map (grow 0%Q k) (o_h P o) /\ o_mu P o' = option_map (grow 0%Q k) (o_mu P o) /\ o_pi P o' = option_map (grow 0%Q k) (o_pi P o) /\ o_pibar P o' = option_map (grow 0%Q k) (o_pibar P o))
    /\ kept o o' /\ o_last P o' = o_last P o /\ e <> Some ZeroDivisionError.
  Proof.
    intros Hw Hl E. unfold DynModel.ado_update in E. destruct (update_ok fl f (o_acc P o) Hw Hl) as (a' & Ea & _). rewrite Ea in E |- *.
    destruct (c_same_step cfg); [destruct (negb (existsb _ _)); [|destruct (negb (Nat.eqb _ _))]|]; injection E as <- <-; unfold kept; cbn; repeat split; congruence.
  Qed.
  Lemma update_inv f o o' e : well_formed f -> inv o -> ado_update (fb_losses f) (fb_counts f) o = (o', e) ->
    inv o' /\ (nd o <= nd o')%nat
    /\ match o_mu P o with Some m => exists m', o_mu P o' = Some m' /\ (length m' + nd o = length m + nd o')%nat | None => o_mu P o' = None end.
  Proof.
    intros Hw (I1 & I2 & I3 & I4 & I5) E. destruct (ado_update_ok f o o' e Hw I1 E) as (Ea & (Eh & Em & Ep & Eb) & (K1 & K2 & K3 & K4 & K5 & K6) & _).
    destruct (update_ok fl f (o_acc P o) Hw I1) as (a' & Ea' & A1 & A2 & _). rewrite Ea' in Ea. injection Ea as Ea. rewrite Ea in A1, A2.
    assert (Hnd : nd o' = (nd o + (length (fb_losses f) - nd o))%nat) by (unfold nd in *; rewrite A2, A1, I1; lia).
    unfold inv. rewrite K1, K2, Em. rewrite I1 in *. set (k := (length (fb_losses f) - nd o)%nat) in *.
    split; [|split; [lia|]].
    - split; [unfold nd; congruence|]. split; [exact I2|]. split; [exact I3|]. split; [exact I4|]. destruct (o_mu P o) as [m|]; cbn [option_map].
      + destruct I5 as (J1 & J2 & J3 & J4 & J5). rewrite !grow_length. split; [lia|]. split; [apply nonneg_grow, J2|]. split; [apply some_pos_grow, J3|]. rewrite Eh, Eb. split.
        * destruct (o_h P o) as [h|]; cbn in *; [|exact I]. destruct J4. rewrite grow_length. split; [lia|apply nonneg_grow; assumption].
        * destruct (o_pibar P o) as [b|]; cbn in *; [|exact I]. destruct J5 as (? & ? & ?). rewrite grow_length. split; [lia|]. split; [apply nonneg_grow; assumption|apply some_pos_grow; assumption].
      + destruct I5 as (J1 & J2 & J3). rewrite Eh, Ep, Eb, J1, J2, J3. auto.
    - destruct (o_mu P o) as [m|]; cbn [option_map]; [|reflexivity]. eexists. split; [reflexivity|]. rewrite grow_length. lia.
  Qed.

  (** ** What the calculation leaves alone *)
  Definition frame (o o' : ado) : Prop :=
    o_acc P o' = o_acc P o /\ o_last P o' = o_last P o /\ o_initial P o' = o_initial P o /\ o_psc P o' = o_psc P o /\ o_psl P o' = o_psl P o.
  Lemma frame_refl o : frame o o.
  Proof. repeat split. Qed.
  Lemma frame_trans a b c : frame a b -> frame b c -> frame a c.
  Proof. unfold frame. intros (-> & -> & -> & -> & ->). exact (fun H => H). Qed.
  Ltac fr := solve [unfold frame; repeat split].
  Lemma set_prior_frame o : frame o (fst (set_prior nsum P o)).
  Proof. unfold set_prior. destruct (o_mu P o); [fr|]. destruct (Nat.ltb _ _); [fr|]. destruct (negb _); fr. Qed.
  Lemma fit_frame o : frame o (fst (fit_scaling_laws o)).
  Proof. unfold DynModel.fit_scaling_laws. destruct (_ || _)%bool; [fr|]. match goal with |- context [match ?x with Ok _ => _ | Err _ => _ end] => destruct x end; fr. Qed.
  Lemma update_h_frame k o : frame o (fst (update_h fl cfg P k o)).
  Proof. unfold update_h. destruct (o_h P o); [|fr]. destruct (o_pi P o); [|fr]. destruct (blend _ _ _ _); fr. Qed.
  Lemma mix_frame b o : frame o (fst (ado_mix b o)).
  Proof.
    unfold DynModel.ado_mix. destruct (o_params P o) as [ps|]; [|fr]. destruct (o_h P o) as [h|]; [|fr]. destruct (o_mu P o) as [mu|]; [|fr].
    destruct (loss_derivative _ _ _ _ _ _) as [dl|]; [|fr]. destruct (compute_rho _ _ _ _ _ _ _) as [rho|]; [|fr].
    cbv zeta. destruct (blend _ (c_gamma2 cfg) _ _) as [pi0|]; [|fr]. destruct (normalise _ _ pi0) as [pi1|]; [|fr].
    destruct (enforce_min _ _ _ _ _ _) as [pi|]; [|fr]. set (o1 := set_pi P (Some pi) _).
    set (u1 := match c_variant cfg with Vanilla => _ | _ => _ end).
    assert (Hf : frame o1 (fst u1)).
    { unfold u1. destruct (c_variant cfg); try apply update_h_frame; try fr; destruct b; try apply update_h_frame; fr. }
    destruct u1 as [o2 e2]. cbn [fst] in Hf. assert (Ho : frame o o2) by (eapply frame_trans; [|exact Hf]; fr).
    destruct e2; [exact Ho|]. destruct (blend _ _ _ _); [|exact Ho]. destruct (normalise _ _ _); (eapply frame_trans; [exact Ho|fr]).
  Qed.
  Lemma calc_frame b o : frame o (fst (ado_calc b o)).
  Proof.
    unfold DynModel.ado_calc. pose proof (set_prior_frame (set_steps P (o_steps P o + 1) o)) as H1. destruct (set_prior nsum P _) as [o1 e1]. cbn [fst] in H1.
    assert (F1 : frame o o1) by (eapply frame_trans; [|exact H1]; fr). destruct e1; [exact F1|]. destruct (o_steps P o1 <? c_start cfg); [exact F1|].
    cbv zeta. set (o2 := set_h P _ _ o1). assert (F2 : frame o o2) by (eapply frame_trans; [exact F1|fr]). destruct (refit_due cfg _) as [rf|]; [|exact F2].
    set (w := if rf then _ else _). assert (F3 : frame o2 (fst w)) by (unfold w; destruct rf; [apply fit_frame|fr]). destruct w as [o3 e3]. cbn [fst] in F3.
    assert (F4 : frame o o3) by (eapply frame_trans; eassumption). destruct e3; [exact F4|].
    assert (F5 : frame o (fst (ado_mix b o3))) by (eapply frame_trans; [exact F4|apply mix_frame]).
    destruct (c_variant cfg); try exact F5. destruct (o_handed P o3); [|exact F5].
    set (o4 := if b then _ else o3). assert (F6 : frame o o4) by (eapply frame_trans; [exact F4|]; unfold o4; destruct b; fr).
    destruct (_ || _)%bool; [|exact F6]. eapply frame_trans; [exact F6|apply mix_frame].
  Qed.

  (** ** Good states: every array has one entry per domain. *)
  Definition good (o : ado) : Prop := inv o /\ (forall m, o_mu P o = Some m -> length m = nd o).
  (** The prior is longer than the counts. *)
  Definition broken (o : ado) : Prop :=
    length (a_losses (o_acc P o)) = nd o
    /\ exists m, o_mu P o = Some m /\ (nd o < length m)%nat /\ opt (fun h => length h = length m) (o_h P o) /\ opt (fun b => length b = length m) (o_pibar P o).

  (** A returned mixture, up to rounding. *)
  Definition adj_of (pi : list Q) (adj : list Q) : Prop := nonneg adj /\ (0 < nsum adj)%Q /\ pi = map (fun x => fl (x / nsum adj)%Q) adj.
  Definition clipped (counts : list Z) (pi : list Q) : Prop :=
    exists pi0 adj, nonneg pi0 /\ some_pos pi0 /\ length pi0 = length counts
      /\ adj = map (fun p => if 0 <? snd p then Qmax (fst p) (c_delta_min cfg) else fst p) (combine (map (fun x => fl (x / nsum pi0)%Q) pi0) counts)
      /\ adj_of pi adj.

  Lemma update_h_ok k o m : inv o -> o_mu P o = Some m -> (exists h, o_h P o = Some h) -> (exists pi, o_pi P o = Some pi /\ length pi = length m /\ nonneg pi) ->
    exists h', update_h fl cfg P k o = (set_h P (Some h') (o_steps P o) o, None) /\ length h' = length m /\ nonneg h'.
  Proof.
    intros (_ & _ & _ & _ & I) Em [h Eh] (pi & Ep & Lp & Np). rewrite Em in I. destruct I as (_ & _ & _ & I & _). rewrite Eh in I. destruct I as [Lh Nh].
    unfold update_h. rewrite Eh, Ep. set (g := match c_variant cfg with Vanilla => _ | _ => _ end).
    assert (Hg : (0 <= g <= 1)%Q).
    { unfold g. destruct (c_variant cfg); try exact Hg1. destruct (1 <? k) eqn:Ek; [|exact Hg1]. apply Z.ltb_lt in Ek.
      assert (A : (0 <= fl (1 - c_gamma1 cfg) <= 1)%Q) by (split; [apply fl0|apply Hone]; lra).
      assert (B : (0 <= Qpower (fl (1 - c_gamma1 cfg)) k <= 1)%Q).
      { split; [apply Qpower_pos; lra|]. revert A. generalize (fl (1 - c_gamma1 cfg)). intros q Hq. destruct k as [|p|p]; try lia. cbn [Qpower].
        clear - Hq. induction p as [|p IH] using Pos.peano_ind; [cbn; lra|]. 
        assert (E : (Qpower_positive q (Pos.succ p) == q * Qpower_positive q p)%Q). { rewrite <- Pos.add_1_l, Qpower_plus_positive. reflexivity. }
        rewrite E. assert (0 <= Qpower_positive q p)%Q by (apply Qpower_pos_positive; tauto). nra. }
      set (w := Qpower _ _) in *. assert (C : (0 <= fl w <= 1)%Q) by (split; [apply fl0|apply Hone]; lra). split; [apply fl0|apply Hone]; lra. }
    destruct (blend_ok g pi h Hg ltac:(congruence) Np Nh) as (c & E & L & N & _). rewrite E. exists c. split; [reflexivity|]. split; [congruence|exact N].
  Qed.


  Lemma fold_rows_length rows r n : length r = n -> Forall (fun c : list Z => length c = n) rows ->
    length (fold_left (fun acc x => map (fun p => fst p + snd p) (combine acc x)) rows r) = n.
  Proof.
    revert r. induction rows as [|x rows IH]; intros r Hr H; cbn [fold_left]; [exact Hr|]. inversion H; subst. apply IH; [|assumption]. rewrite map_length, combine_length. lia.
  Qed.
  Lemma same_length_all {A} (l : list (list A)) n : Forall (fun c => length c = n) l -> same_length l = true.
  Proof. destruct l as [|x l]; [reflexivity|]. intros H. inversion H; subst. cbn [same_length]. apply forallb_forall. intros y Hy. apply Nat.eqb_eq. rewrite Forall_forall in *. auto. Qed.
  (** The history of counts has one entry per domain in every row. *)
  Definition rows_ok (o : ado) : Prop := c_same_step cfg = true -> o_psc P o <> [] /\ Forall (fun c => length c = nd o) (o_psc P o).
  Lemma derivative_ok o ps : rows_ok o ->
    if Nat.eqb (length ps) (nd o) then exists dl, loss_derivative fl cfg P deriv o ps = Ok dl /\ length dl = nd o
    else loss_derivative fl cfg P deriv o ps = Err IndexError.
  Proof.
    intros Hr. unfold loss_derivative. set (r := if c_same_step cfg then _ else _).
    assert (Hn : exists n_k, r = Ok n_k /\ length n_k = nd o).
    { unfold r. destruct (c_same_step cfg) eqn:E; [|eexists; split; reflexivity]. destruct (Hr E) as [H1 H2]. rewrite (same_length_all _ (nd o)) by exact H2.
      eexists. split; [reflexivity|]. unfold column_sums. destruct (o_psc P o) as [|x rows]; [congruence|]. inversion H2; subst. apply fold_rows_length; assumption. }
    destruct Hn as (n_k & -> & Ln). set (m := match c_normalizer cfg with Some _ => _ | None => _ end).
    assert (Lm : length m = nd o). { unfold m. destruct (c_normalizer cfg) as [d|]; [destruct (1 <? d)|]; rewrite map_length; exact Ln. }
    rewrite Lm. destruct (Nat.eqb (length ps) (nd o)) eqn:E; cbn [negb]; [|reflexivity]. apply Nat.eqb_eq in E. eexists. split; [reflexivity|]. rewrite map_length, combine_length. lia.
  Qed.

  Lemma mix_ok b o : good o -> rows_ok o -> 1 <= o_steps P o -> (exists h, o_h P o = Some h) ->
    let '(o', r) := ado_mix b o in
    good o' /\ o_mu P o' = o_mu P o /\ o_params P o' = o_params P o /\ o_steps P o' = o_steps P o
    /\ match r with
       | inl None => False
       | inl (Some pi) => clipped (a_counts (o_acc P o)) pi /\ o_pi P o' = Some pi
       | inr e => (e = AssertionError /\ (o_params P o = None \/ o_mu P o = None))
                  \/ (e = IndexError /\ exists ps, o_params P o = Some ps /\ length ps <> nd o)
                  \/ (e = ValueError /\ c_variant cfg = OtherVariant)
       end.
  Proof.
    intros [Hi Hm] Hro Hst [h Eh]. unfold DynModel.ado_mix in *. destruct (o_params P o) as [ps|] eqn:Eps; [|solve [split; [split; assumption|]; repeat (split; [reflexivity || assumption|]); left; auto]].
    rewrite Eh. destruct (o_mu P o) as [m|] eqn:Em; [|solve [split; [split; [assumption|intros; congruence]|]; repeat (split; [reflexivity || assumption|]); left; auto]]. specialize (Hm m eq_refl).
    pose proof (derivative_ok o ps Hro) as Hdl. destruct (Nat.eqb (length ps) (nd o)) eqn:El.
    2:{ rewrite Hdl. split; [split; [exact Hi|intros; congruence]|]. split; [exact Em|]. split; [exact Eps|]. split; [reflexivity|]. right. left. split; [reflexivity|]. exists ps. split; [reflexivity|]. apply Nat.eqb_neq, El. }
    destruct Hdl as (dl & Edl & Ldl). rewrite Edl. pose proof Hi as (I1 & I2 & I3 & I4 & I5). rewrite Em, Eh in I5. cbn [opt] in I5. destruct I5 as (_ & Nm & Pm & [Lh Nh] & Ib).
    assert (Hnd : (0 < nd o)%nat). { apply some_pos_nonempty in Pm. destruct m; [congruence|cbn in Hm; lia]. }
    destruct (rho_ok h m dl (nd o) Nh Nm Pm Lh Hnd ltac:(congruence)) as (rho & Er & Lr & Nr & Pr). unfold nd in Er at 1. rewrite Er. cbv zeta.
    set (pibar := match o_pibar P o with Some b0 => b0 | None => m end).
    assert (Hb : length pibar = length m /\ nonneg pibar /\ some_pos pibar). { unfold pibar. destruct (o_pibar P o) as [b0|]; cbn [opt] in Ib; auto. } destruct Hb as (Lb & Nb & Pb).
    destruct (blend_pos (c_gamma2 cfg) rho pibar Hg2 ltac:(congruence) Nr Nb Pr Pb) as (pi0 & E0 & L0 & N0 & P0). rewrite E0.
    destruct (normalise_ok pi0 N0 P0) as (s & Hs & Es & En). rewrite En. set (pi1 := map _ pi0).
    assert (L1 : length pi1 = nd o) by (unfold pi1; rewrite map_length; congruence). assert (N1 : nonneg pi1) by (apply nonneg_scale; assumption). assert (P1 : some_pos pi1) by (apply some_pos_scale; assumption).
    destruct (enforce_ok pi1 m (a_counts (o_acc P o)) N1 P1 L1) as (adj & Ea & Eadj & La & Na & Pa).
    cbn [o_acc set_pi set_pibar set_rho] in *. rewrite Ea. set (pi := map _ adj).
    assert (Lpi : length pi = length m) by (unfold pi; rewrite map_length; unfold nd in *; congruence). assert (Npi : nonneg pi) by (apply nonneg_scale; assumption).
    set (o1 := set_pi P (Some pi) _).
    assert (G1 : inv o1). { unfold inv, o1. cbn [o_acc o_steps o_initial o_mu o_h o_pibar set_pi set_pibar set_rho]. unfold nd. cbn [o_acc set_pi set_pibar set_rho]. rewrite Em, Eh. cbn [opt]. unfold nd in *. repeat split; auto; lia. }
    assert (Hu2 : exists h' k', length h' = length m /\ nonneg h' /\
      (match c_variant cfg with Vanilla | AdjustedV3 => update_h fl cfg P 1 o1 | AdjustedV1 => if b then update_h fl cfg P 1 o1 else (o1, None)
        | AdjustedV2 => if b then update_h fl cfg P (o_steps P o1 - o_lastupd P o1) o1 else (o1, None) | OtherVariant => (o1, Some ValueError) end)
      = (set_h P (Some h') k' o1, match c_variant cfg with OtherVariant => Some ValueError | _ => None end)).
    { assert (Hup : forall k, exists h', update_h fl cfg P k o1 = (set_h P (Some h') (o_steps P o1) o1, None) /\ length h' = length m /\ nonneg h').
      { intros k. apply update_h_ok; [exact G1|exact Em|exists h; exact Eh|exists pi; auto]. }
      assert (Hsame : o1 = set_h P (Some h) (o_lastupd P o1) o1). { rewrite <- Eh. destruct o. reflexivity. }
      destruct (c_variant cfg).
      - destruct (Hup 1) as (h' & E & L & N). exists h', (o_steps P o1). auto.
      - destruct b; [destruct (Hup 1) as (h' & E & L & N); exists h', (o_steps P o1); auto|]. exists h, (o_lastupd P o1). rewrite <- Hsame. auto.
      - destruct b; [destruct (Hup (o_steps P o1 - o_lastupd P o1)) as (h' & E & L & N); exists h', (o_steps P o1); auto|]. exists h, (o_lastupd P o1). rewrite <- Hsame. auto.
      - destruct (Hup 1) as (h' & E & L & N). exists h', (o_steps P o1). auto.
      - exists h, (o_lastupd P o1). rewrite <- Hsame. auto. }
    destruct Hu2 as (h' & k' & Lh' & Nh' & E2). rewrite E2. set (o2 := set_h P (Some h') k' o1).
    assert (G2 : good o2). { split; [|intros m' E'; cbn in E'; rewrite Em in E'; injection E' as <-; exact Hm].
      unfold inv, o2, o1. cbn [o_acc o_steps o_initial o_mu o_h o_pibar set_pi set_pibar set_rho set_h]. unfold nd. cbn [o_acc set_pi set_pibar set_rho set_h]. rewrite Em. cbn [opt]. unfold nd in *. repeat split; auto; lia. }
    assert (Er2 : forall e, c_variant cfg = OtherVariant -> Some e = Some ValueError -> good o2 /\ o_mu P o2 = Some m /\ o_params P o2 = Some ps /\ o_steps P o2 = o_steps P o /\
       ((e = AssertionError /\ (Some ps = None \/ Some m = None)) \/ (e = IndexError /\ exists ps0, Some ps = Some ps0 /\ length ps0 <> nd o) \/ (e = ValueError /\ c_variant cfg = OtherVariant))).
    { intros e Hv He. injection He as ->. split; [exact G2|]. split; [exact Em|]. split; [exact Eps|]. split; [reflexivity|]. right. right. auto. }
    destruct (match c_variant cfg with OtherVariant => Some ValueError | _ => None end) as [e2|] eqn:Ev.
    { apply Er2; destruct (c_variant cfg); congruence. } clear Er2.
    set (w := fl (1 / fl (inject_Z (o_steps P o2) + 1))%Q).
    assert (Hw : (0 <= w <= 1)%Q).
    { unfold w. change (o_steps P o2) with (o_steps P o). assert (S1 : (1 <= inject_Z (o_steps P o))%Q) by (change 1%Q with (inject_Z 1); rewrite <- Zle_Qle; exact Hst).
      destruct (Hfl (inject_Z (o_steps P o) + 1)%Q) as [F1 _]; [lra|]. set (q := fl (inject_Z (o_steps P o) + 1)%Q) in *. assert (1 <= q)%Q by nra.
      assert (0 <= 1 / q <= 1)%Q. { split; [apply Qle_shift_div_l; lra|apply Qle_shift_div_r; lra]. } split; [apply fl0|apply Hone]; tauto. }
    destruct (blend_pos w rho pibar Hw ltac:(congruence) Nr Nb Pr Pb) as (b0 & Eb0 & Lb0 & Nb0 & Pb0). rewrite Eb0.
    destruct (normalise_ok b0 Nb0 Pb0) as (s' & Hs' & Es' & En'). rewrite En'.
    split; [|split; [exact Em|split; [exact Eps|split; [reflexivity|]]]].
    - split; [|intros m' E'; cbn in E'; rewrite Em in E'; injection E' as <-; exact Hm].
      unfold inv, o2, o1. cbn [o_acc o_steps o_initial o_mu o_h o_pibar set_pi set_pibar set_rho set_h set_handed]. unfold nd. cbn [o_acc set_pi set_pibar set_rho set_h set_handed]. rewrite Em. cbn [opt]. rewrite map_length. unfold nd in *.
      repeat split; auto; try lia; try congruence; [apply nonneg_scale|apply some_pos_scale]; assumption.
    - split; [|reflexivity]. exists pi0, adj. split; [exact N0|]. split; [exact P0|]. split; [unfold nd in *; congruence|]. split; [rewrite Eadj; unfold pi1; rewrite Es; reflexivity|]. split; [exact Na|]. split; [exact Pa|reflexivity].
  Qed.

  (** ** The broken state stays broken *)
  Lemma bop_length f a b c : bop f a b = Ok c -> (length a = length b /\ length c = length a) \/ (length a = 1%nat /\ length c = length b) \/ (length b = 1%nat /\ length c = length a).
  Proof.
    unfold bop. destruct (Nat.eqb (length a) (length b)) eqn:E.
    - apply Nat.eqb_eq in E. intros H. injection H as <-. rewrite map_length, combine_length. left. lia.
    - destruct a as [|x [|x' a]]; [destruct b as [|y [|y' b]]; try discriminate|..].
      + intros H. injection H as <-. right. right. cbn. auto.
      + intros H. injection H as <-. rewrite map_length. right. left. auto.
      + destruct b as [|y [|y' b]]; try discriminate. intros H. injection H as <-. right. right. cbn. rewrite map_length. auto.
  Qed.
  Lemma normalise_length a c : normalise fl nsum a = Ok c -> length c = length a.
  Proof. unfold normalise. destruct (Qeq_bool _ _); [discriminate|]. intros H. injection H as <-. apply map_length. Qed.
  Lemma rho_nonempty h mu dl n rho : compute_rho fl nsum pow_s h mu dl n = Ok rho -> mu <> [] -> rho <> [].
  Proof.
    unfold compute_rho. destruct (bop _ mu _) as [ml|]; [|discriminate]. destruct (bop _ ml dl) as [num|]; [|discriminate]. intros H Hm. destruct (qpos (nsum num)) eqn:E; injection H as <-.
    - intros C. apply map_eq_nil in C. subst. apply qpos_true in E. apply (nsum_pos []) in E; [inversion E|constructor].
    - intros C. apply map_eq_nil in C. congruence.
  Qed.
  Lemma mix_broken b o : broken o -> broken (fst (ado_mix b o)) /\ exists e, snd (ado_mix b o) = inr e.
  Proof.
    intros (B1 & m & Em & Lt & Bh & Bb). unfold DynModel.ado_mix. assert (B0 : broken o) by (split; [exact B1|exists m; auto]).
    destruct (o_params P o) as [ps|]; [|split; [exact B0|eexists; reflexivity]]. destruct (o_h P o) as [h|] eqn:Eh; [|split; [exact B0|eexists; reflexivity]]. rewrite Em.
    destruct (loss_derivative _ _ _ _ _ _) as [dl|]; [|split; [exact B0|eexists; reflexivity]]. destruct (compute_rho _ _ _ _ _ _ _) as [rho|] eqn:Erh; [|split; [exact B0|eexists; reflexivity]].
    apply rho_nonempty in Erh; [|intros ->; cbn in Lt; lia]. assert (1 <= length rho)%nat by (destruct rho; [congruence|cbn; lia]).
    cbv zeta. set (pibar := match o_pibar P o with Some _ => _ | None => _ end). assert (Lb : length pibar = length m) by (unfold pibar; destruct (o_pibar P o); [exact Bb|reflexivity]).
    set (o1 := set_pibar P (Some pibar) (set_rho P rho o)). assert (B2 : broken o1) by (split; [exact B1|]; exists m; unfold o1; cbn [o_mu o_h o_pibar set_pibar set_rho]; rewrite Eh; auto).
    destruct (blend _ (c_gamma2 cfg) _ _) as [pi0|] eqn:E0; [|split; [exact B2|eexists; reflexivity]]. destruct (normalise _ _ pi0) as [pi1|] eqn:En; [|split; [exact B2|eexists; reflexivity]].
    assert (Hne : enforce_min fl nsum cfg pi1 m (a_counts (o_acc P (set_pi P (Some pi1) o1))) = Err IndexError).
    { unfold enforce_min. replace (Nat.eqb _ _) with false; [reflexivity|]. symmetry. apply Nat.eqb_neq. change (length (a_counts (o_acc P (set_pi P (Some pi1) o1)))) with (nd o).
      apply normalise_length in En. apply bop_length in E0. rewrite En. lia. }
    rewrite Hne. split; [|eexists; reflexivity]. split; [exact B1|]. exists m. unfold o1. cbn [o_mu o_h o_pibar set_pi set_pibar set_rho fst]. rewrite Eh. auto.
  Qed.

  Lemma set_prior_good o : good o ->
    let '(o', e) := set_prior nsum P o in
    (good o' /\ o_steps P o' = o_steps P o /\ o_params P o' = o_params P o /\ (exists m, o_mu P o' = Some m /\ (forall m0, o_mu P o = Some m0 -> m = m0))
       /\ match e with None => True | Some e => e = AssertionError /\ o_mu P o = None /\ np_isclose 1 (nsum (grow 0%Q (nd o - length (o_initial P o)) (o_initial P o))) = false end)
    \/ (broken o' /\ e = Some AssertionError /\ o_mu P o = None /\ (nd o < length (o_initial P o))%nat).
  Proof using fl u.
    clear Hu Hu1 Hfl Hone Hsum Hpow Hg1 Hg2 fit1 deriv p_zero pow_s.
    intros [Hi Hm]. unfold set_prior. cbv zeta. destruct (o_mu P o) as [m|] eqn:Em.
    { cbv beta iota zeta. left. split; [split; [exact Hi|rewrite Em; exact Hm]|]. split; [reflexivity|]. split; [reflexivity|]. split; [|exact I]. exists m. split; [exact Em|]. congruence. }
    pose proof Hi as (I1 & I2 & I3 & I4 & I5). rewrite Em in I5. destruct I5 as (J1 & J2 & J3). fold (nd o). set (m := grow _ _ _).
    set (o1 := set_mu P (Some m) o). change (o_initial P o1) with (o_initial P o). destruct (Nat.ltb (nd o) (length (o_initial P o))) eqn:El.
    - apply Nat.ltb_lt in El. cbv beta iota zeta. right. split; [|auto]. split; [exact I1|]. exists m. unfold o1. cbn [o_mu o_h o_pibar set_mu]. rewrite J1, J3. split; [reflexivity|]. split; [|split; exact I].
      change (nd o < length m)%nat. unfold m. rewrite grow_length. lia.
    - apply Nat.ltb_ge in El. assert (Lm : length m = nd o) by (unfold m; rewrite grow_length; lia).
      assert (G : good o1). { split; [|intros m' E'; cbn in E'; injection E' as <-; exact Lm]. unfold inv, o1. cbn [o_acc o_steps o_initial o_mu o_h o_pibar set_mu]. change (nd (set_mu P (Some m) o)) with (nd o). rewrite J1, J3. cbn [opt].
        split; [exact I1|]. split; [exact I2|]. split; [exact I3|]. split; [exact I4|]. split; [lia|]. split; [apply nonneg_grow, I3|]. split; [apply some_pos_grow, I4|split; exact I]. }
      destruct (np_isclose 1 (nsum m)) eqn:Ec; cbn [negb]; cbv beta iota zeta; left; (split; [exact G|]; split; [reflexivity|]; split; [reflexivity|]; split; [exists m; split; [reflexivity|congruence]|]); auto.
  Qed.

  Lemma go_length (f : nat -> res P) ks ps :
    (fix go (ks : list nat) : res (list P) := match ks with [] => Ok [] | k :: ks' => match f k with Err e => Err e | Ok p => match go ks' with Ok ps => Ok (p :: ps) | Err e => Err e end end end) ks = Ok ps -> length ps = length ks.
  Proof.
    revert ps. induction ks as [|k ks IH]; intros ps H; [injection H as <-; reflexivity|]. destruct (f k); [|discriminate]. destruct (_ ks) as [ps'|] eqn:E; [|discriminate]. injection H as <-. cbn. f_equal. apply IH, eq_refl.
  Qed.
  Lemma go_ok (f : nat -> res P) ks : (forall k, In k ks -> exists p, f k = Ok p) -> exists ps,
    (fix go (ks : list nat) : res (list P) := match ks with [] => Ok [] | k :: ks' => match f k with Err e => Err e | Ok p => match go ks' with Ok ps => Ok (p :: ps) | Err e => Err e end end end) ks = Ok ps.
  Proof.
    induction ks as [|k ks IH]; intros H; [eexists; reflexivity|]. destruct (H k (or_introl eq_refl)) as [p ->]. destruct IH as [ps E]; [intros; apply H; right; assumption|]. rewrite E. eexists. reflexivity.
  Qed.
  Lemma go_err (f : nat -> res P) ks e :
    (fix go (ks : list nat) : res (list P) := match ks with [] => Ok [] | k :: ks' => match f k with Err e => Err e | Ok p => match go ks' with Ok ps => Ok (p :: ps) | Err e => Err e end end end) ks = Err e -> exists k, f k = Err e.
  Proof.
    induction ks as [|k ks IH]; intros H; [discriminate|]. destruct (f k) eqn:Ef; [|exists k; congruence]. destruct (_ ks) as [ps'|] eqn:E; [discriminate|]. injection H as <-. apply IH, eq_refl.
  Qed.
  Lemma fit_ok o : let '(o', e) := fit_scaling_laws o in
    (exists ps, o' = set_params P (Some ps) o /\ length ps = nd o)
    /\ match e with
       | None => True
       | Some e => (e = ValueError /\ (same_length (o_psc P o) = false \/ same_length (o_psl P o) = false)) \/ exists k, fit1 (o_psc P o) (o_psl P o) (o_steps P o) k = Err e
       end.
  Proof.
    unfold DynModel.fit_scaling_laws. destruct (negb (same_length (o_psc P o)) || negb (same_length (o_psl P o)))%bool eqn:E.
    - apply orb_true_iff in E. rewrite !negb_true_iff in E. split; [eexists; split; [reflexivity|apply repeat_length]|]. auto.
    - match goal with |- context [match ?x with Ok _ => _ | Err _ => _ end] => destruct x as [ps|e] eqn:Eg end.
      + apply go_length in Eg. split; [|exact I]. exists ps. split; [reflexivity|]. rewrite Eg, seq_length. reflexivity.
      + split; [eexists; split; [reflexivity|apply repeat_length]|]. apply go_err in Eg. right. exact Eg.
  Qed.

  (** ** One calculation *)
  Lemma calc_broken b o : broken o -> broken (fst (ado_calc b o)) /\ forall pi, snd (ado_calc b o) <> inl (Some pi).
  Proof.
    intros B. unfold DynModel.ado_calc, set_prior. destruct B as (B1 & m & Em & Lt & Bh & Bb). cbn [o_mu set_steps]. rewrite Em. cbv beta iota zeta.
    set (o1 := set_steps P _ o). assert (B' : broken o1) by (split; [exact B1|]; exists m; auto).
    destruct (o_steps P o1 <? c_start cfg); [split; [exact B'|discriminate]|]. set (o2 := set_h P _ _ o1).
    assert (B2 : broken o2). { split; [exact B1|]. exists m. split; [exact Em|]. split; [exact Lt|]. unfold o2, o1. cbn [o_h o_pibar set_h set_steps]. split; [|exact Bb]. destruct (o_h P o); [exact Bh|]. change (opt (fun h => length h = length m) (o_mu P o)). rewrite Em. reflexivity. }
    destruct (refit_due cfg _) as [rf|]; [|split; [exact B2|discriminate]]. set (w := if rf then _ else _).
    assert (B3 : broken (fst w)). { unfold w. destruct rf; [|exact B2]. pose proof (fit_ok o2) as H. destruct (fit_scaling_laws o2) as [o3 e3]. destruct H as [(ps & -> & _) _]. cbn [fst]. exact B2. }
    destruct w as [o3 e3]. cbn [fst] in B3. destruct e3; [split; [exact B3|discriminate]|].
    assert (Hmix : broken (fst (ado_mix b o3)) /\ forall pi, snd (ado_mix b o3) <> inl (Some pi)). { destruct (mix_broken b o3 B3) as [? [e E]]. split; [assumption|]. rewrite E. discriminate. }
    destruct (c_variant cfg); try exact Hmix. destruct (o_handed P o3); [|exact Hmix].
    set (o4 := if b then _ else o3). assert (B4 : broken o4) by (unfold o4; destruct b; exact B3).
    destruct (_ || _)%bool; [|split; [exact B4|discriminate]]. destruct (mix_broken b o4 B4) as [? [e E]]. split; [assumption|]. rewrite E. discriminate.
  Qed.

  Lemma good_ext o o' : good o -> o_acc P o' = o_acc P o -> o_initial P o' = o_initial P o -> o_mu P o' = o_mu P o -> o_h P o' = o_h P o -> o_pi P o' = o_pi P o -> o_pibar P o' = o_pibar P o -> 0 <= o_steps P o' -> good o'.
  Proof using fl u. clear Hu Hu1 Hfl Hone Hsum Hpow Hg1 Hg2 fit1 deriv p_zero pow_s. intros [H1 H2] E1 E2 E3 E4 E5 E6 Hs. unfold good, inv, nd in *. rewrite E1, E2, E3, E4, E5, E6. tauto. Qed.

  Definition blame (o : ado) (e : exn) : Prop :=
    e = ZeroDivisionError -> c_interval cfg = 0 \/ exists psc psl st k, fit1 psc psl st k = Err ZeroDivisionError.
  Lemma calc_good b o : good o -> rows_ok o ->
    let '(o', r) := ado_calc b o in
    (good o' \/ broken o')
    /\ match r with
       | inl None => True
       | inl (Some pi) => clipped (a_counts (o_acc P o)) pi /\ good o'
       | inr e => blame o e
       end.
  Proof.
    intros G Hr. unfold DynModel.ado_calc. set (o0 := set_steps P _ o). pose proof (proj1 (proj2 (proj1 G))) as Hs.
    assert (G0 : good o0). { apply (good_ext o o0 G); try reflexivity. cbn. lia. }
    pose proof (set_prior_good o0 G0) as Hp. pose proof (set_prior_frame o0) as F1. destruct (set_prior nsum P o0) as [o1 e1]. cbn [fst] in F1.
    destruct Hp as [(G1 & S1 & P1 & (m & Em & _) & He)|(B & -> & _)]; [|split; [right; exact B|discriminate]].
    destruct e1 as [e1|]; [destruct He as [-> _]; split; [left; exact G1|discriminate]|]. destruct (o_steps P o1 <? c_start cfg) eqn:Est; [split; [left; exact G1|exact I]|].
    set (o2 := set_h P _ _ o1). assert (Hh : exists h, o_h P o2 = Some h). { unfold o2. cbn [o_h set_h]. destruct (o_h P o1); [eauto|]. rewrite Em. eauto. }
    assert (G2 : good o2). { destruct G1 as [(I1 & I2 & I3 & I4 & I5) I6]. split; [|exact I6]. unfold inv, o2. cbn [o_acc o_steps o_initial o_mu o_h o_pibar set_h]. change (nd (set_h P _ _ o1)) with (nd o1). rewrite Em in I5 |- *. destruct I5 as (J1 & J2 & J3 & J4 & J5).
      split; [exact I1|]. split; [exact I2|]. split; [exact I3|]. split; [exact I4|]. split; [exact J1|]. split; [exact J2|]. split; [exact J3|]. split; [|exact J5]. destruct (o_h P o1); [exact J4|]. cbn [opt]. auto. }
    destruct (refit_due cfg (o_steps P o2)) as [rf|e] eqn:Erf.
    2:{ split; [left; exact G2|]. intros ->. left. unfold refit_due in Erf. destruct (_ =? c_start cfg); [discriminate|]. destruct (c_interval cfg =? 0) eqn:Ei; [apply Z.eqb_eq, Ei|discriminate]. }
    set (w := if rf then _ else _).
    assert (Hw : good (fst w) /\ (exists h, o_h P (fst w) = Some h) /\ frame o2 (fst w) /\ o_steps P (fst w) = o_steps P o2 /\ match snd w with None => True | Some e => blame o e end).
    { unfold w. destruct rf; [|cbn [fst snd]; split; [exact G2|]; split; [exact Hh|]; split; [apply frame_refl|]; split; [reflexivity|exact I]].
      pose proof (fit_ok o2) as H. pose proof (fit_frame o2) as Ff. destruct (fit_scaling_laws o2) as [o3 e3]. cbn [fst snd] in *. destruct H as [(ps & -> & _) He3]. split; [apply (good_ext o2 _ G2); try reflexivity; apply G2|]. split; [exact Hh|]. split; [exact Ff|]. split; [reflexivity|].
      destruct e3 as [e3|]; [|exact I]. intros ->. destruct He3 as [[? _]|[k Ek]]; [discriminate|]. right. eauto. }
    destruct Hw as (G3 & H3 & F3 & S3 & E3). destruct w as [o3 e3]. cbn [fst snd] in *. destruct e3 as [e3|]; [split; [left; exact G3|exact E3]|].
    assert (F : frame o o3). { eapply frame_trans; [|exact F3]. eapply frame_trans; [|unfold frame, o2; repeat split]. eapply frame_trans; [|exact F1]. unfold frame, o0. repeat split. }
    assert (R3 : rows_ok o3). { intros E. destruct (Hr E) as [R1 R2]. destruct F as (Fa & _ & _ & Fc & _). rewrite Fc. unfold nd. rewrite Fa. auto. }
    assert (St3 : 1 <= o_steps P o3). { rewrite S3. change (o_steps P o2) with (o_steps P o1). rewrite S1. cbn. lia. }
    assert (Hmix : forall o4, good o4 -> rows_ok o4 -> 1 <= o_steps P o4 -> (exists h, o_h P o4 = Some h) -> o_acc P o4 = o_acc P o -> let '(o', r) := ado_mix b o4 in
      (good o' \/ broken o') /\ match r with inl None => True | inl (Some pi) => clipped (a_counts (o_acc P o)) pi /\ good o' | inr e => blame o e end).
    { intros o4 G4 R4 S4 H4 A4. pose proof (mix_ok b o4 G4 R4 S4 H4) as M. destruct (ado_mix b o4) as [o5 r]. destruct M as (M1 & _ & _ & _ & M2). split; [left; exact M1|]. destruct r as [[pi|]|e]; [|exact I|].
      - rewrite <- A4. split; [apply M2|exact M1].
      - intros ->. destruct M2 as [[? _]|[[? _]|[? _]]]; discriminate. }
    assert (Hm3 := Hmix o3 G3 R3 St3 H3 (proj1 F)). destruct (c_variant cfg); try exact Hm3. destruct (o_handed P o3); [|exact Hm3].
    set (o4 := if b then _ else o3). assert (G4 : good o4 /\ rows_ok o4 /\ 1 <= o_steps P o4 /\ (exists h, o_h P o4 = Some h) /\ o_acc P o4 = o_acc P o).
    { unfold o4. destruct b; [|auto 10 using (proj1 F)]. split; [apply (good_ext o3 _ G3); try reflexivity; apply G3|]. split; [exact R3|]. split; [exact St3|]. split; [exact H3|apply F]. }
    destruct G4 as (G4 & R4 & S4 & H4 & A4). destruct (_ || _)%bool; [apply Hmix; assumption|]. split; [left; exact G4|exact I].
  Qed.

  (** ** One message *)
  Definition rows0 (o : ado) : Prop := c_same_step cfg = true -> Forall (fun c => length c = nd o) (o_psc P o).
  Lemma update_rows f o o' e : well_formed f -> length (a_losses (o_acc P o)) = nd o -> rows0 o -> ado_update (fb_losses f) (fb_counts f) o = (o', e) ->
    rows0 o' /\ (e = None -> rows_ok o').
  Proof.
    intros Hw Hl Hr E. destruct (update_ok fl f (o_acc P o) Hw Hl) as (a' & Ea & L1 & L2 & _). unfold DynModel.ado_update in E. rewrite Ea in E. cbv zeta in E.
    change (o_psc P (set_h P _ _ _)) with (o_psc P o) in E. set (psc := map (fun c => grow 0 (length (fb_losses f) - length c) c) (o_psc P o)) in E. rewrite Hl in L1. unfold rows0, rows_ok.
    destruct (c_same_step cfg) eqn:Es; [|split; discriminate]. specialize (Hr Es).
    assert (Hp : Forall (fun c => length c = length (a_counts a')) psc).
    { unfold psc. rewrite Forall_map. eapply Forall_impl; [|exact Hr]. cbn. intros c Hc. rewrite grow_length. lia. }
    destruct (negb (existsb _ _)); [injection E as <- <-; split; [intros _; exact Hp|discriminate]|].
    destruct (negb (Nat.eqb _ _)); [injection E as <- <-; split; [intros _; exact Hp|discriminate]|]. injection E as <- <-.
    assert (Forall (fun c => length c = length (a_counts a')) (psc ++ [map (fun c => if 0 <? c then zsum (fb_counts f) else 0) (a_counts a')])). { apply Forall_app. split; [exact Hp|]. constructor; [apply map_length|constructor]. }
    split; [intros _; exact H|]. intros _ _. split; [|exact H]. cbn. destruct psc; discriminate.
  Qed.
  Lemma update_broken f o o' e : well_formed f -> broken o -> ado_update (fb_losses f) (fb_counts f) o = (o', e) -> broken o'.
  Proof.
    intros Hw (B1 & m & Em & Lt & Bh & Bb) E. destruct (ado_update_ok f o o' e Hw B1 E) as (Ea & (Eh & Emu & Ep & Eb) & _).
    destruct (update_ok fl f (o_acc P o) Hw B1) as (a' & Ea' & A1 & A2 & _). rewrite Ea' in Ea. injection Ea as Ea. rewrite Ea in A1, A2. rewrite B1 in *.
    split; [unfold nd; congruence|]. rewrite Emu, Em, Eh, Eb. cbn [option_map]. eexists. split; [reflexivity|]. rewrite grow_length. unfold nd in *. rewrite A2, A1. split; [lia|]. split.
    - destruct (o_h P o); cbn in *; [rewrite grow_length; lia|exact I].
    - destruct (o_pibar P o); cbn in *; [rewrite grow_length; lia|exact I].
  Qed.
  Lemma update_good f o o' e : well_formed f -> good o -> ado_update (fb_losses f) (fb_counts f) o = (o', e) -> good o'.
  Proof.
    intros Hw [Hi Hm] E. destruct (update_inv f o o' e Hw Hi E) as (I' & Hle & M). split; [exact I'|]. intros m' Em'. destruct (o_mu P o) as [m|] eqn:Em; [|congruence]. destruct M as (m'' & E2 & L). specialize (Hm m eq_refl). rewrite Em' in E2. injection E2 as <-. lia.
  Qed.
  (** The state after a history of well-formed messages. *)
  Definition state_ok (o : ado) : Prop := length (a_losses (o_acc P o)) = nd o /\ rows0 o /\ (good o \/ broken o).
  Lemma process_ok f o : well_formed f -> state_ok o ->
    let '(o', r) := ado_process (fb_losses f) (fb_counts f) (fb_mixture f) o in
    state_ok o' /\ (broken o -> broken o')
    /\ update_state fl (fb_losses f) (fb_counts f) (o_acc P o) = (o_acc P o', None)
    /\ match r with
       | inl None => True
       | inl (Some pi) => clipped (a_counts (o_acc P o')) pi /\ ~ broken o
       | inr e => ~ broken o -> blame o e
       end.
  Proof.
    intros Hw (Hl & Hr & Hs). unfold DynModel.ado_process, process_losses. set (flag := o_last P o <? fb_mixture f). set (o1 := if flag then set_olast P (fb_mixture f) o else o).
    assert (X : length (a_losses (o_acc P o1)) = nd o1 /\ rows0 o1 /\ (good o -> good o1) /\ (broken o -> broken o1) /\ o_acc P o1 = o_acc P o).
    { unfold o1. destruct flag; [|auto 10]. split; [exact Hl|]. split; [exact Hr|]. split; [|split; [exact (fun H => H)|reflexivity]]. intros G. apply (good_ext o _ G); try reflexivity. apply G. }
    destruct X as (X1 & X2 & X3 & X4 & X5). destruct (ado_update (fb_losses f) (fb_counts f) o1) as [o2 e2] eqn:Eu.
    destruct (ado_update_ok f o1 o2 e2 Hw X1 Eu) as (Ua & _ & _ & _ & Uz). destruct (update_rows f o1 o2 e2 Hw X1 X2 Eu) as [R1 R2]. rewrite X5 in Ua.
    assert (L2 : length (a_losses (o_acc P o2)) = nd o2). { destruct (update_ok fl f (o_acc P o) Hw Hl) as (a' & Ea' & A1 & A2 & _). rewrite Ea' in Ua. injection Ua as Ua. unfold nd. congruence. }
    assert (Hgb : (good o -> good o2) /\ (broken o -> broken o2)) by (split; [intros G; exact (update_good f o1 o2 e2 Hw (X3 G) Eu)|intros B; exact (update_broken f o1 o2 e2 Hw (X4 B) Eu)]).
    assert (Hs2 : good o2 \/ broken o2) by tauto. destruct e2 as [e2|].
    { split; [exact (conj L2 (conj R1 Hs2))|]. split; [tauto|]. split; [exact Ua|]. intros _ ->. congruence. }
    specialize (R2 eq_refl). pose proof (calc_frame flag o2) as Fc.
    assert (Hacc : o_acc P (fst (ado_calc flag o2)) = o_acc P o2) by apply Fc.
    assert (Hr' : rows0 (fst (ado_calc flag o2)) /\ length (a_losses (o_acc P (fst (ado_calc flag o2)))) = nd (fst (ado_calc flag o2))).
    { destruct Fc as (Fa & _ & _ & Fc & _). unfold rows0, nd in *. rewrite Fa, Fc. auto. }
    assert (Hbr : broken o2 -> broken (fst (ado_calc flag o2)) /\ forall pi, snd (ado_calc flag o2) <> inl (Some pi)) by apply calc_broken.
    assert (Hgd : good o2 -> let '(o', r) := ado_calc flag o2 in (good o' \/ broken o') /\ match r with inl None => True | inl (Some pi) => clipped (a_counts (o_acc P o2)) pi /\ good o' | inr e => blame o2 e end) by (intros G; apply calc_good; assumption).
    destruct (ado_calc flag o2) as [o3 r3] eqn:Ec. cbn [fst snd] in *. rewrite <- Hacc in Ua. split; [|split; [intros B; apply Hbr; tauto|split; [exact Ua|]]].
    - split; [apply Hr'|]. split; [apply Hr'|]. destruct Hs2 as [G|B]; [apply Hgd, G|right; apply Hbr, B].
    - destruct r3 as [[pi|]|e]; [|exact I|].
      + split; [|intros B; apply (proj2 (Hbr (proj2 Hgb B)) pi); reflexivity]. rewrite Hacc. destruct Hs2 as [G|B]; [apply Hgd, G|]. exfalso. apply (proj2 (Hbr B) pi). reflexivity.
      + intros Hn. apply Hgd. tauto.
  Qed.
End Ado.
