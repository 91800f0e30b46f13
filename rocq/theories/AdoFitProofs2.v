(** Proofs about the points ADO fits scaling laws to, and when (C89). *)
From Verif Require Import Base MixtureKeyModel UtilsModel UtilsProofs ChunkGenModel MixtureModel MixtureProofs DynModel SpecDyn DynProofs DynProofs2 DynProofs3
  AdoFitModel SpecAdoFit AdoFitProofs PropertiesDyn2.
From Coq Require Import QArith.
Open Scope Z_scope.

Lemma combine_map_l {A B C} (f : A -> B) (l : list A) (r : list C) : combine (map f l) r = map (fun p => (f (fst p), snd p)) (combine l r).
Proof. revert r. induction l as [|x l IH]; intros [|y r]; cbn; [reflexivity..|]. rewrite IH. reflexivity. Qed.
Lemma filter_filter' {A} (p q : A -> bool) l : filter p (filter q l) = filter (fun x => p x && q x) l.
Proof. induction l as [|x l IH]; [reflexivity|]. cbn. destruct (q x) eqn:E; cbn; rewrite ?E, ?andb_true_r, ?andb_false_r; [|exact IH]. destruct (p x); congruence. Qed.
Lemma filter_all {A} (p : A -> bool) l : (forall x, p x = true) -> filter p l = l.
Proof. intros H. induction l as [|x l IH]; [reflexivity|]. cbn. rewrite H, IH. reflexivity. Qed.
Lemma firstn_seq' n m a : (n <= m)%nat -> firstn n (seq a m) = seq a n.
Proof. revert m a. induction n as [|n IH]; intros [|m] a H; try lia; [reflexivity..|]. cbn. rewrite IH by lia. reflexivity. Qed.

Lemma Forall2_at {A B} (R : A -> B -> Prop) ks ps : Forall2 R ks ps -> forall j k p, nth_error ks j = Some k -> nth_error ps j = Some p -> R k p.
Proof. induction 1 as [|a b ks ps Ha Hr IH]; intros [|j] k p Hk Hp; try discriminate; cbn in Hk, Hp; [congruence|]. eapply IH; eassumption. Qed.

Section Points.
  Variables (fl : Q -> Q) (smooth : nat -> list Q -> list Q) (cfg : config) (fc : fitcfg) (P : Type).
  Notation same := (c_same_step cfg).
  Notation d := (c_normalizer cfg).

  Lemma per_sample_in x : per_sample fl d x = in_samples fl d x.
  Proof. unfold per_sample, in_samples. destruct d as [z|]; [|reflexivity]. rewrite Z.leb_antisym. destruct (1 <? z); reflexivity. Qed.
  Lemma column_rows {A} (z : A) k n w (g : nat -> nat -> A) : (k < w)%nat ->
    column z k (map (fun i => map (fun k => g i k) (seq 0 w)) (seq 0 n)) = map (fun i => g i k) (seq 0 n).
  Proof.
    intros Hk. unfold column. rewrite map_map. apply map_ext. intros i. rewrite (nth_indep _ z (g i 0%nat)) by (rewrite map_length, seq_length; exact Hk).
    rewrite map_nth, seq_nth by exact Hk. reflexivity.
  Qed.
  Lemma cumsum_upto l k n : cumsum 0 (map (fun i => tokens same l i k) (seq 0 n)) = map (fun i => upto same l i k) (seq 0 n).
  Proof.
    rewrite cumsum_from, map_length, seq_length. apply map_ext_in. intros i Hi. apply in_seq in Hi. unfold upto. rewrite firstn_map, firstn_seq' by lia. lia.
  Qed.
  Theorem fit_points_eq l (o : ado P) k : kept fl cfg P l o -> (k < widest l)%nat ->
    fit_points fl smooth same d fc (o_psc P o) (o_psl P o) k
    = Ok (law_points fl same d (f_sub fc) (f_ignore fc) l k (smoothed smooth fc (own_losses fl same l k))).
  Proof.
    intros [K1 K2] Hk. unfold fit_points. cbv zeta. rewrite K1, K2, !column_rows by exact Hk. rewrite !map_length, seq_length, Nat.eqb_refl. cbn [negb]. f_equal.
    rewrite cumsum_upto.
    replace (if same then impute (map (fun i => step_loss fl l i k) (seq 0 (length l))) else map (fun i => step_loss fl l i k) (seq 0 (length l)))
      with (map (fun i => last_loss fl same l i k) (seq 0 (length l))).
    2:{ destruct same eqn:E; [rewrite (impute_spec fl true) by reflexivity; reflexivity|]. apply map_ext. intros i. apply (last_loss_step fl false). reflexivity. }
    set (g := fun i => (i, upto same l i k, last_loss fl same l i k)).
    assert (Ec : combine (combine (seq 0 (length l)) (map (fun i => upto same l i k) (seq 0 (length l)))) (map (fun i => last_loss fl same l i k) (seq 0 (length l))) = map g (seq 0 (length l))).
    { generalize (seq 0 (length l)). clear. intros s. induction s; cbn [combine map]; [reflexivity|]. f_equal. exact IHs. }
    rewrite !Ec.
    assert (E1 : (if same then map g (seq 0 (length l)) else filter (fun p => qpos (snd p)) (map g (seq 0 (length l)))) = map g (loss_steps fl same l k)).
    { unfold loss_steps. destruct same eqn:E.
      - rewrite filter_all by reflexivity. reflexivity.
      - rewrite filter_map'. f_equal. apply filter_ext. intros i. cbn [g snd orb]. unfold g. cbn [snd]. rewrite (last_loss_step fl false) by reflexivity. reflexivity. }
    rewrite E1. rewrite !map_map. cbn [g fst snd]. unfold law_points. change (map (fun x => snd (g x)) (loss_steps fl same l k)) with (own_losses fl same l k).
    set (zs := smoothed smooth fc (own_losses fl same l k)). rewrite combine_map_l. rewrite !filter_map', filter_filter'.
    rewrite every_thinned, thinned_map, map_map. cbn [g fst snd].
    erewrite map_ext; [reflexivity|]. intros p. cbn [fst snd]. unfold g. cbn [fst snd]. rewrite per_sample_in. reflexivity.
  Qed.
End Points.

Section Due.
  Variables (fl : Q -> Q) (nsum : list Q -> Q).
  Variable cfg : config.
  Variable P : Type.
  Variable p_zero : P.
  Variable fit1 : list (list Z) -> list (list Q) -> Z -> nat -> res P.
  Variable deriv : P -> Q -> Q.
  Variable pow_s : Q -> Q.
  Notation ado_process := (ado_process fl nsum cfg P p_zero fit1 deriv pow_s).
  Notation ado_calc := (ado_calc fl nsum cfg P p_zero fit1 deriv pow_s).
  Notation ado_update := (ado_update fl cfg P).
  Notation same := (c_same_step cfg).

  Lemma mix_params b o : o_params P (fst (ado_mix fl nsum cfg P deriv pow_s b o)) = o_params P o.
  Proof.
    unfold DynModel.ado_mix. destruct (o_params P o) as [ps|] eqn:Ep; [|cbn; congruence]. destruct (o_h P o) as [h|] eqn:Eh; [|cbn; congruence]. destruct (o_mu P o) as [mu|]; [|cbn; congruence].
    destruct (loss_derivative _ _ _ _ _ _) as [dl|]; [|exact Ep]. destruct (compute_rho _ _ _ _ _ _ _) as [rho|]; [|exact Ep].
    cbv zeta. destruct (blend _ (c_gamma2 cfg) _ _) as [pi0|]; [|exact Ep]. destruct (normalise _ _ pi0) as [pi1|]; [|exact Ep].
    destruct (enforce_min _ _ _ _ _ _) as [pi|]; [|exact Ep]. set (o1 := set_pi P (Some pi) _).
    assert (Hu : forall k, o_params P (fst (update_h fl cfg P k o1)) = o_params P o1).
    { intros k. unfold update_h. destruct (o_h P o1); [|reflexivity]. destruct (o_pi P o1); [|reflexivity]. destruct (blend _ _ _ _); reflexivity. }
    set (u1 := match c_variant cfg with Vanilla => _ | _ => _ end).
    assert (Hf : o_params P (fst u1) = o_params P o1) by (unfold u1; destruct (c_variant cfg); try apply Hu; try reflexivity; destruct b; try apply Hu; reflexivity).
    change (o_params P o1) with (o_params P o) in Hf. rewrite Ep in Hf. destruct u1 as [o2 e2]. cbn [fst] in Hf. destruct e2; [exact Hf|]. destruct (blend _ _ _ _); [|exact Hf]. destruct (normalise _ _ _); exact Hf.
  Qed.
  Lemma go_nth f ks ps : (fix go (ks : list nat) : res (list P) :=
               match ks with
               | [] => Ok []
               | k :: ks' => match f k with
                             | Err e => Err e
                             | Ok p => match go ks' with Ok ps => Ok (p :: ps) | Err e => Err e end
                             end
               end) ks = Ok ps -> Forall2 (fun k p => f k = Ok p) ks ps.
  Proof.
    revert ps. induction ks as [|k ks IH]; intros ps H; [injection H as <-; constructor|]. destruct (f k) as [p|] eqn:E; [|discriminate].
    match type of H with match ?x with _ => _ end = _ => destruct x as [qs|] eqn:G; [|discriminate] end. injection H as <-. constructor; [exact E|]. apply IH; reflexivity.
  Qed.
  Lemma fit_nth o o' : fit_scaling_laws P p_zero fit1 o = (o', None) ->
    exists ps, o_params P o' = Some ps /\ length ps = length (a_counts (o_acc P o))
      /\ forall k, (k < length ps)%nat -> exists p, nth_error ps k = Some p /\ fit1 (o_psc P o) (o_psl P o) (o_steps P o) k = Ok p.
  Proof.
    unfold fit_scaling_laws. destruct (_ || _)%bool; [discriminate|]. match goal with |- context [match ?x with Ok _ => _ | Err _ => _ end] => destruct x as [ps|e] eqn:Eg; [|discriminate] end.
    intros H. injection H as <-. apply go_nth in Eg. exists ps. assert (L : length (a_counts (o_acc P o)) = length ps) by (clear - Eg; rewrite <- (seq_length (length (a_counts (o_acc P o))) 0); induction Eg; cbn; congruence). split; [reflexivity|]. split; [congruence|].
    intros k Hk. destruct (nth_error ps k) as [p|] eqn:Ep; [|apply nth_error_None in Ep; lia]. exists p. split; [reflexivity|].
    assert (Hs : nth_error (seq 0 (length (a_counts (o_acc P o)))) k = Some k).
    { rewrite (nth_error_nth' _ 0%nat) by (rewrite seq_length; lia). rewrite seq_nth by lia. reflexivity. }
    exact (Forall2_at _ _ _ Eg k k p Hs Ep).
  Qed.

  Lemma due_iff T : c_start cfg <= T -> (refit_due cfg T = Ok true <-> due (c_start cfg) (c_interval cfg) T) .
  Proof.
    intros H. unfold refit_due, due. destruct (T =? c_start cfg) eqn:E; [apply Z.eqb_eq in E; tauto|]. apply Z.eqb_neq in E.
    destruct (c_interval cfg =? 0) eqn:E0.
    - apply Z.eqb_eq in E0. rewrite E0. split; [discriminate|]. intros [?|[_ Hm]]; [congruence|]. rewrite Zmod_0_r in Hm. lia.
    - split; [intros [= Hm]; apply Z.eqb_eq in Hm; auto|]. intros [?|[_ Hm]]; [congruence|]. rewrite Hm. reflexivity.
  Qed.
  (** A calculation that succeeds fits the laws when they are due, and leaves them alone otherwise. *)
  Lemma calc_params b o o' m : ado_calc b o = (o', inl m) ->
    let T := o_steps P o + 1 in
    (due (c_start cfg) (c_interval cfg) T -> exists ps, o_params P o' = Some ps /\ length ps = length (a_counts (o_acc P o))
       /\ forall k, (k < length ps)%nat -> exists p, nth_error ps k = Some p /\ fit1 (o_psc P o) (o_psl P o) T k = Ok p)
    /\ (~ due (c_start cfg) (c_interval cfg) T -> o_params P o' = o_params P o).
  Proof.
    intros E T. unfold DynModel.ado_calc in E. set (o0 := set_steps P _ o) in E.
    assert (H1 : let o1 := fst (set_prior nsum P o0) in o_params P o1 = o_params P o /\ o_steps P o1 = T /\ o_acc P o1 = o_acc P o /\ o_psc P o1 = o_psc P o /\ o_psl P o1 = o_psl P o).
    { cbv zeta. unfold set_prior. destruct (o_mu P o0); [repeat split|]. cbv zeta. destruct (Nat.ltb _ _); [repeat split|]. destruct (negb _); repeat split. }
    cbv zeta in H1. destruct (set_prior nsum P o0) as [o1 e1]. cbn [fst] in H1. destruct H1 as (A1 & A2 & A3 & A4 & A5). destruct e1; [discriminate|].
    rewrite A2 in E. destruct (T <? c_start cfg) eqn:Es.
    - injection E as <- _. apply Z.ltb_lt in Es. split; [|auto]. intros [Ht|[Ht _]]; lia.
    - apply Z.ltb_ge in Es. cbv zeta in E. set (o2 := set_h P _ _ o1) in E. change (o_steps P o2) with (o_steps P o1) in E. rewrite A2 in E.
      destruct (refit_due cfg T) as [rf|] eqn:Er; [|discriminate]. pose proof (due_iff T Es) as D. rewrite Er in D.
      assert (Hm : forall b o3 ox mx, ado_mix fl nsum cfg P deriv pow_s b o3 = (ox, inl mx) -> o_params P ox = o_params P o3) by (intros b0 o3 ox mx Hx; rewrite <- (mix_params b0 o3), Hx; reflexivity).
      assert (Htail : forall o3 : ado P, match c_variant cfg, o_handed P o3 with
                  | AdjustedV3, true =>
                      let o := if b then set_next P (Some (o_steps P o3 + 15)) o3 else o3 in
                      if match o_next P o with Some n => o_steps P o =? n | None => false end || rf then ado_mix fl nsum cfg P deriv pow_s b o else (o, inl None)
                  | _, _ => ado_mix fl nsum cfg P deriv pow_s b o3 end = (o', inl m) -> o_params P o' = o_params P o3).
      { intros o3 Hx. destruct (c_variant cfg); try (eapply Hm; exact Hx). destruct (o_handed P o3); [|eapply Hm; exact Hx]. cbv zeta in Hx.
        set (o4 := if b then _ else o3) in Hx. assert (H4 : o_params P o4 = o_params P o3) by (unfold o4; destruct b; reflexivity). rewrite <- H4.
        destruct (_ || _)%bool; [eapply Hm; exact Hx|]. injection Hx as <- _. reflexivity. }
      destruct rf.
      + destruct (fit_scaling_laws P p_zero fit1 o2) as [o3 e3] eqn:Ef. destruct e3; [discriminate|]. apply Htail in E. rewrite E.
        destruct (fit_nth o2 o3 Ef) as (ps & P1 & P2 & P3). split; [|intros Hn; destruct Hn; apply D; reflexivity].
        intros _. exists ps. split; [exact P1|]. change (o_acc P o2) with (o_acc P o1) in P2. change (o_psc P o2) with (o_psc P o1) in P3. change (o_psl P o2) with (o_psl P o1) in P3.
        change (o_steps P o2) with (o_steps P o1) in P3. rewrite A2, A4, A5 in P3. rewrite A3 in P2. split; [exact P2|exact P3].
      + apply Htail in E. split; [intros Hd; apply D in Hd; discriminate|]. intros _. rewrite E. exact A1.
  Qed.

  (** The state a calculation starts from. *)
  Lemma step_state initial l f : Forall well_formed (l ++ [f]) -> steady_growth same (l ++ [f]) ->
    let o := run ado_process l (ado0 P initial) in
    exists o1 b, ado_process (fb_losses f) (fb_counts f) (fb_mixture f) o = ado_calc b o1
      /\ kept fl cfg P (l ++ [f]) o1 /\ accumulated fl (l ++ [f]) (o_acc P o1) /\ o_steps P o1 = Z.of_nat (length l) /\ o_params P o1 = o_params P o.
  Proof.
    intros Hw Hg. cbv zeta. pose proof Hw as Hw'. apply Forall_app in Hw' as [Hwl _]. destruct (steady_growth_app cfg l f Hg) as [Hgl _].
    destruct (kept_run fl nsum cfg P p_zero fit1 deriv pow_s initial l Hwl Hgl) as (K & A & S). set (o := run ado_process l (ado0 P initial)) in *.
    unfold DynModel.ado_process, process_losses. set (flag := o_last P o <? fb_mixture f). set (o1 := if flag then set_olast P (fb_mixture f) o else o).
    assert (K1 : kept fl cfg P l o1) by (unfold o1; destruct flag; exact K). assert (A1 : accumulated fl l (o_acc P o1)) by (unfold o1; destruct flag; exact A).
    assert (S1 : o_steps P o1 = Z.of_nat (length l)) by (unfold o1; destruct flag; exact S). assert (P1 : o_params P o1 = o_params P o) by (unfold o1; destruct flag; reflexivity).
    destruct (kept_update fl cfg P p_zero deriv l f o1 Hw Hg K1 A1) as (o2 & E2 & K2 & A2 & S2 & P2). exists o2, flag. rewrite E2. split; [reflexivity|]. split; [exact K2|]. split; [exact A2|]. split; congruence.
  Qed.
End Due.

(** ** Where the derivative is taken *)
Lemma column_sums_rows (g : nat -> nat -> Z) w n a : column_sums (map (fun i => map (fun k => g i k) (seq 0 w)) (seq a (S n))) = map (fun k => zsum (map (fun i => g i k) (seq a (S n)))) (seq 0 w).
Proof.
  cbn [seq map column_sums].
  assert (H : forall s (h : nat -> Z), fold_left (fun acc x => map (fun p : Z * Z => fst p + snd p) (combine acc x)) (map (fun i => map (fun k => g i k) (seq 0 w)) s) (map h (seq 0 w))
    = map (fun k => h k + zsum (map (fun i => g i k) s)) (seq 0 w)).
  { induction s as [|i s IH]; intros h.
    - cbn [map fold_left]. apply map_ext. intros k. change (zsum []) with 0. lia.
    - cbn [map fold_left]. rewrite combine_map2, map_map. rewrite IH. apply map_ext. intros k. cbn [fst snd]. rewrite zsum_cons. lia. }
  rewrite H. apply map_ext. intros k. rewrite zsum_cons. reflexivity.
Qed.
Lemma counts_of_msgs k l : zsum (counts_of k l) = zsum (map (fun j => nth k (fb_counts (msg l j)) 0) (seq 0 (length l))).
Proof.
  replace (map (fun j => nth k (fb_counts (msg l j)) 0) (seq 0 (length l))) with (map (fun f => nth k (fb_counts f) 0) l).
  2:{ rewrite <- (map_nth_seq no_msg l) at 1. rewrite map_map. reflexivity. }
  induction l as [|f l IH]; [reflexivity|]. change (counts_of k (f :: l)) with ((match nth_error (fb_counts f) k with Some x => [x] | None => [] end) ++ counts_of k l).
  rewrite zsum_app, IH. cbn [map]. rewrite zsum_cons. f_equal. destruct (nth_error (fb_counts f) k) as [x|] eqn:E.
  - rewrite (nth_error_nth _ _ 0 E), zsum_cons. change (zsum []) with 0. lia.
  - apply nth_error_None in E. rewrite nth_overflow by exact E. reflexivity.
Qed.
Section Deriv.
  Variables (fl : Q -> Q) (cfg : config) (P : Type) (deriv : P -> Q -> Q).
  Notation same := (c_same_step cfg).
  Theorem derivative_at l f o ps : kept fl cfg P (l ++ [f]) o -> accumulated fl (l ++ [f]) (o_acc P o) -> length ps = widest (l ++ [f]) ->
    loss_derivative fl cfg P deriv o ps
    = Ok (map (fun p : P * nat => let n := in_samples fl (c_normalizer cfg) (upto same (l ++ [f]) (length l) (snd p)) in if negb (Qle_bool n 0) then deriv (fst p) n else 0%Q)
             (combine ps (seq 0 (widest (l ++ [f]))))).
  Proof.
    intros [K1 _] (_ & A2 & _ & A4) Hl. set (w := widest (l ++ [f])) in *. set (u := fun k => upto same (l ++ [f]) (length l) k).
    assert (E : (if c_same_step cfg then if same_length (o_psc P o) then Ok (column_sums (o_psc P o)) else Err ValueError else Ok (a_counts (o_acc P o))) = Ok (map u (seq 0 w))).
    { assert (EL : length (l ++ [f]) = S (length l)) by (rewrite app_length; cbn; lia). destruct same eqn:Es.
      - rewrite (same_length_all _ w) by (rewrite K1, Forall_map; apply Forall_forall; intros i _; rewrite map_length, seq_length; reflexivity).
        rewrite K1, EL, column_sums_rows. f_equal.
      - f_equal. rewrite <- (map_nth_seq 0 (a_counts (o_acc P o))), A2. fold w. apply map_ext. intros k. rewrite A4, counts_of_msgs, EL. reflexivity. }
    unfold loss_derivative. rewrite E.
    assert (E2 : match c_normalizer cfg with Some d => if 1 <? d then map (fun n => fl (inject_Z n / inject_Z d)%Q) (map u (seq 0 w)) else map inject_Z (map u (seq 0 w)) | None => map inject_Z (map u (seq 0 w)) end
      = map (fun k => in_samples fl (c_normalizer cfg) (u k)) (seq 0 w)).
    { unfold in_samples. destruct (c_normalizer cfg) as [z|]; [|rewrite map_map; reflexivity]. rewrite Z.leb_antisym. destruct (1 <? z); cbn [negb]; rewrite map_map; reflexivity. }
    rewrite E2. rewrite map_length, seq_length, Hl, Nat.eqb_refl. cbn [negb]. f_equal.
    clear. generalize (seq 0 w). intros s. revert s. induction ps as [|p ps IH]; intros [|k s]; cbn [map combine]; [reflexivity..|]. f_equal. apply IH.
  Qed.
End Deriv.
