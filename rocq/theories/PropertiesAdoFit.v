(** C89: a domain's scaling law is fitted to its own history. *)
From Verif Require Import Base MixtureKeyModel UtilsModel UtilsProofs ChunkGenModel MixtureModel MixtureProofs DynModel SpecDyn DynProofs DynProofs2 DynProofs3
  AdoFitModel SpecAdoFit AdoFitProofs AdoFitProofs2 PropertiesDyn PropertiesDyn2.
From Coq Require Import QArith Qpower Qabs Qminmax Lqa.
Open Scope Z_scope.

Lemma zsum_pos_ex l : 0 < zsum l -> exists x, In x l /\ 0 < x.
Proof.
  induction l as [|y l IH]; [cbn; lia|]. rewrite zsum_cons. intros H. destruct (Z_lt_ge_dec 0 y) as [Hy|Hy]; [exists y; split; [left; reflexivity|exact Hy]|].
  destruct IH as (x & Hx & Hp); [lia|]. exists x. split; [right; exact Hx|exact Hp].
Qed.
Lemma msg_firstn l n i : (i < n)%nat -> msg (firstn n l) i = msg l i.
Proof. unfold msg. revert n i. induction l as [|f l IH]; intros [|n] [|i] H; try lia; cbn [firstn nth]; auto. apply IH. lia. Qed.

Lemma zsum_ge (g : nat -> Z) s j : (forall i, 0 <= g i) -> In j s -> g j <= zsum (map g s).
Proof.
  intros Hg. induction s as [|i s IH]; [intros []|]. cbn [map In]. rewrite zsum_cons. assert (H0 : 0 <= zsum (map g s)) by (apply zsum_nonneg; rewrite Forall_map; apply Forall_forall; auto).
  intros [->|Hin]; [pose proof (Hg j); lia|]. specialize (IH Hin). pose proof (Hg i). lia.
Qed.

Section Data.
  Variables (fl : Q -> Q) (cfg : config) (fc : fitcfg).
  Notation same := (c_same_step cfg).
  (** Where a key has been sampled and there are steps left after the ignored ones, there is something to fit.
      (The number of ignored steps is one more than the parameter says: see the refutation.) *)
  Theorem C89_data_partial l k : same = true -> Forall (fun f => Forall (fun c => 0 <= c) (fb_counts f)) l ->
    f_ignore fc + 1 < Z.of_nat (length l) -> 0 < zsum (counts_of k l) ->
    law_points fl same (c_normalizer cfg) (f_sub fc) (f_ignore fc) l k (own_losses fl same l k) <> [].
  Proof.
    intros Hs Hn Hi Hc. set (T := (length l - 1)%nat). assert (HT : (T < length l)%nat) by (unfold T; destruct l; [cbn in Hc; lia|cbn; lia]).
    assert (Hm : forall i, Forall (fun c => 0 <= c) (fb_counts (msg l i))). { intros i. unfold msg. destruct (nth_in_or_default i l no_msg) as [Hin| ->]; [|constructor]. rewrite Forall_forall in Hn. apply Hn, Hin. }
    assert (Hg : forall i, 0 <= tokens true l i k). { intros i. unfold tokens. destruct (0 <? _); [|lia]. apply zsum_nonneg, Hm. }
    assert (Hk0 : forall i, 0 <= nth k (fb_counts (msg l i)) 0). { intros i. destruct (nth_in_or_default k (fb_counts (msg l i)) 0) as [Hin| ->]; [|lia]. exact (proj1 (Forall_forall _ _) (Hm i) _ Hin). }
    assert (Hj : exists j, (j <= T)%nat /\ 0 < nth k (fb_counts (msg l j)) 0).
    { rewrite counts_of_msgs in Hc. destruct (zsum_pos_ex (map (fun j => nth k (fb_counts (msg l j)) 0) (seq 0 (length l))) Hc) as (x & Hin & Hx). apply in_map_iff in Hin as (j & <- & Hin). apply in_seq in Hin. exists j. split; [unfold T; lia|exact Hx]. }
    destruct Hj as (j & HjT & Hj).
    assert (Htok : 0 < tokens true l j k).
    { unfold tokens. assert (E : (0 <? zsum (counts_of k (firstn (S j) l))) = true).
      { apply Z.ltb_lt. rewrite counts_of_msgs. rewrite firstn_length. replace (Nat.min (S j) (length l)) with (S j) by lia.
        eapply Z.lt_le_trans; [exact Hj|]. replace (nth k (fb_counts (msg l j)) 0) with ((fun i => nth k (fb_counts (msg (firstn (S j) l) i)) 0) j).
        - apply (zsum_ge (fun i => nth k (fb_counts (msg (firstn (S j) l) i)) 0)); [|apply in_seq; lia]. intros i. destruct (Nat.lt_ge_cases i (S j)) as [Hlt|Hge].
          + rewrite msg_firstn by exact Hlt. apply Hk0.
          + unfold msg. rewrite (nth_overflow (firstn (S j) l)) by (rewrite firstn_length; lia). destruct k; cbn; lia.
        - cbv beta. rewrite msg_firstn by lia. reflexivity. }
      rewrite E. eapply Z.lt_le_trans; [exact Hj|]. clear - Hm Hj. specialize (Hm j). revert Hj. generalize k. induction Hm as [|c cs Hc Hcs IH]; intros [|k'] Hk; cbn [nth] in *; try lia; rewrite zsum_cons.
      - pose proof (zsum_nonneg cs Hcs). lia.
      - specialize (IH k' Hk). lia. }
    assert (Hu : 0 < upto true l T k). { eapply Z.lt_le_trans; [exact Htok|]. apply (zsum_ge (fun j => tokens true l j k)); [exact Hg|]. apply in_seq. lia. }
    unfold law_points. rewrite Hs. intros Hnil. apply map_eq_nil in Hnil.
    assert (Hin : In (T, last_loss fl true l T k) (filter (fun p : nat * Q => counted true l (f_ignore fc) k (fst p)) (combine (loss_steps fl true l k) (own_losses fl true l k)))).
    { apply filter_In. split.
      - unfold own_losses. assert (HinT : In T (loss_steps fl true l k)) by (apply filter_In; split; [apply in_seq; lia|reflexivity]).
        revert HinT. generalize (loss_steps fl true l k). intros s. induction s as [|i s IH]; [intros []|]. cbn [map combine In]. intros [->|H]; [left; reflexivity|right; auto].
      - unfold counted. cbn [fst]. apply andb_true_intro. split; apply Z.ltb_lt; [unfold T; lia|exact Hu]. }
    unfold thinned in Hnil. set (fl0 := filter _ _) in *. destruct fl0 as [|x fl1]; [destruct Hin|]. destruct (1 <? f_sub fc); [|discriminate]. cbn in Hnil. discriminate.
  Qed.

End Data.

Section C89.
  Variables (fl : Q -> Q) (nsum : list Q -> Q).
  Variable smooth : nat -> list Q -> list Q.
  Variable cfg : config.
  Variable fc : fitcfg.
  Variable P : Type.
  Variable p_zero p_few : P.
  Variable optimise : list (Q * Q) -> res P.
  Variable deriv : P -> Q -> Q.
  Variable pow_s : Q -> Q.
  Notation same := (c_same_step cfg).
  Notation domain := (fit_domain fl smooth (c_same_step cfg) (c_normalizer cfg) fc P p_few optimise).
  Notation process := (ado_process fl nsum cfg P p_zero domain deriv pow_s).

  (** The values the law of key [k] is fitted to: its own losses, smoothed over time if asked for. *)
  Definition values (l : list fb) (k : nat) : list Q :=
    let ys := own_losses fl same l k in
    let n := Nat.min 101 (length ys) in
    let w := if Nat.even n then (n - 1)%nat else n in
    if f_savgol fc && Nat.ltb 3 w then smooth w ys else ys.
  Definition law_of (l : list fb) (k : nat) (p : P) : Prop :=
    match law_points fl same (c_normalizer cfg) (f_sub fc) (f_ignore fc) l k (values l k) with
    | [] => p = p_few
    | pts => optimise (map (fun q => (snd (fst q), snd q)) pts) = Ok p
    end.
  Lemma fit_domain_law l (o : ado P) s k p : kept fl cfg P l o -> (k < widest l)%nat -> domain (o_psc P o) (o_psl P o) s k = Ok p -> law_of l k p.
  Proof.
    intros K Hk. unfold fit_domain. rewrite (fit_points_eq fl smooth cfg fc P l o k K Hk). unfold law_of.
    change (values l k) with (smoothed smooth fc (own_losses fl same l k)). destruct (law_points _ _ _ _ _ _ _ _) as [|q qs]; [congruence|]. destruct (existsb _ _); [discriminate|]. exact (fun H => H).
  Qed.

  (** Whatever was reported before: an update that succeeds fits the law of every key to that key's own history when a fit
      is due, and keeps all laws otherwise. *)
  Theorem C89_fitted_partial initial l f o' m : Forall well_formed (l ++ [f]) -> steady_growth same (l ++ [f]) ->
    let o := run process l (ado0 P initial) in
    process (fb_losses f) (fb_counts f) (fb_mixture f) o = (o', inl m) ->
    let h := l ++ [f] in
    (due (c_start cfg) (c_interval cfg) (Z.of_nat (length h)) ->
       exists ps, o_params P o' = Some ps /\ length ps = widest h /\ forall k, (k < widest h)%nat -> exists p, nth_error ps k = Some p /\ law_of h k p)
    /\ (~ due (c_start cfg) (c_interval cfg) (Z.of_nat (length h)) -> o_params P o' = o_params P o).
  Proof.
    intros Hw Hg o E h. destruct (step_state fl nsum cfg P p_zero domain deriv pow_s initial l f Hw Hg) as (o1 & b & E1 & K & A & S & Pp). fold o in E1, Pp. rewrite E1 in E.
    destruct (calc_params fl nsum cfg P p_zero domain deriv pow_s b o1 o' m E) as [C1 C2].
    replace (o_steps P o1 + 1) with (Z.of_nat (length h)) in C1, C2 by (unfold h; rewrite app_length, S; cbn [length]; lia).
    split; [|intros H; rewrite (C2 H); exact Pp].
    intros H. destruct (C1 H) as (ps & P1 & P2 & P3). assert (L : length ps = widest h) by (rewrite P2; apply A).
    exists ps. split; [exact P1|]. split; [exact L|]. intros k Hk. destruct (P3 k ltac:(lia)) as (p & Hp & Hf). exists p. split; [exact Hp|].
    eapply fit_domain_law; [exact K|exact Hk|exact Hf].
  Qed.

  (** Without smoothing a fit never fails before the optimiser does, for losses that are not negative. *)
  Lemma last_loss_nonneg l i k : (forall x, (0 <= x)%Q -> (0 <= fl x)%Q) -> Forall (fun f => Forall (fun x => (0 <= x)%Q) (fb_losses f) /\ Forall (fun c => 0 <= c) (fb_counts f)) l -> (0 <= last_loss fl same l i k)%Q.
  Proof.
    intros Hf Hl. assert (Hs : forall i, (0 <= step_loss fl l i k)%Q).
    { intros j. unfold step_loss. destruct (_ =? 0) eqn:E; [lra|]. apply Z.eqb_neq in E. apply Hf.
      assert (Hm : Forall (fun x => (0 <= x)%Q) (fb_losses (msg l j)) /\ Forall (fun c => 0 <= c) (fb_counts (msg l j))).
      { unfold msg. destruct (nth_in_or_default j l no_msg) as [Hin| ->]; [|split; constructor]. rewrite Forall_forall in Hl. apply Hl, Hin. }
      destruct Hm as [H1 H2]. assert (N1 : (0 <= nth k (fb_losses (msg l j)) 0)%Q). { destruct (nth_in_or_default k (fb_losses (msg l j)) 0%Q) as [Hin| ->]; [|lra]. rewrite Forall_forall in H1. apply H1, Hin. }
      assert (N2 : 0 <= nth k (fb_counts (msg l j)) 0). { destruct (nth_in_or_default k (fb_counts (msg l j)) 0) as [Hin| ->]; [|lia]. rewrite Forall_forall in H2. apply H2, Hin. }
      apply Qle_shift_div_l; [|lra]. change 0%Q with (inject_Z 0). rewrite <- Zlt_Qlt. lia. }
    induction i as [|i IH]; cbn [last_loss].
    - destruct same; apply Hs.
    - destruct same eqn:E; [|apply Hs]. destruct (Qeq_bool _ _); [exact IH|apply Hs].
  Qed.
  Theorem C89_no_smoothing_partial initial l k : f_savgol fc = false -> (forall x, (0 <= x)%Q -> (0 <= fl x)%Q) ->
    Forall well_formed l -> steady_growth same l -> Forall (fun f => Forall (fun x => (0 <= x)%Q) (fb_losses f) /\ Forall (fun c => 0 <= c) (fb_counts f)) l -> (k < widest l)%nat ->
    let o := run process l (ado0 P initial) in
    domain (o_psc P o) (o_psl P o) (o_steps P o) k
    = match law_points fl same (c_normalizer cfg) (f_sub fc) (f_ignore fc) l k (own_losses fl same l k) with
      | [] => Ok p_few
      | pts => optimise (map (fun q => (snd (fst q), snd q)) pts)
      end.
  Proof.
    intros Hs Hf Hw Hg Hl Hk o. destruct (kept_run fl nsum cfg P p_zero domain deriv pow_s initial l Hw Hg) as (K & _ & _). fold o in K.
    unfold fit_domain. rewrite (fit_points_eq fl smooth cfg fc P l o k K Hk). unfold smoothed. rewrite Hs. cbn [andb].
    set (pts := law_points _ _ _ _ _ _ _ _). assert (Hex : existsb (fun p : nat * Q * Q => qpos (- snd p)) pts = false).
    { destruct (existsb _ pts) eqn:E; [|reflexivity]. exfalso. apply existsb_exists in E as ([[i x] y] & Hin & Hneg). cbn [snd] in Hneg. unfold pts, law_points in Hin. apply in_map_iff in Hin as ([j z] & Heq & Hin).
      injection Heq as <- <- <-. assert (Hin2 : In (j, z) (combine (loss_steps fl same l k) (own_losses fl same l k))).
      { unfold thinned in Hin. destruct (1 <? f_sub fc); [|apply filter_In in Hin; tauto]. apply in_flat_map in Hin as (q & _ & Hq). destruct (nth_error _ _) as [x|] eqn:En; [|destruct Hq]. destruct Hq as [->|[]].
        apply nth_error_In in En. apply filter_In in En. tauto. }
      apply in_combine_r in Hin2. unfold own_losses in Hin2. apply in_map_iff in Hin2 as (a & <- & _). pose proof (last_loss_nonneg l a k Hf Hl) as N.
      unfold qpos in Hneg. apply negb_true_iff in Hneg.
      assert (Hle : Qle_bool (- last_loss fl same l a k) 0 = true) by (apply Qle_bool_iff; lra). congruence. }
    rewrite Hex. destruct pts; reflexivity.
  Qed.

  (** The derivative of every law is taken at the tokens its last point has. *)
  Theorem C89_derivative l f initial ps : Forall well_formed (l ++ [f]) -> steady_growth same (l ++ [f]) -> length ps = widest (l ++ [f]) ->
    loss_derivative fl cfg P deriv (run process (l ++ [f]) (ado0 P initial)) ps
    = Ok (map (fun p : P * nat => let n := in_samples fl (c_normalizer cfg) (upto same (l ++ [f]) (length l) (snd p)) in if negb (Qle_bool n 0) then deriv (fst p) n else 0%Q)
             (combine ps (seq 0 (widest (l ++ [f]))))).
  Proof.
    intros Hw Hg Hl. destruct (kept_run fl nsum cfg P p_zero domain deriv pow_s initial (l ++ [f]) Hw Hg) as (K & A & _). apply derivative_at; assumption.
  Qed.
End C89.

(** ** The two ways the code falls short *)
(** The laws of these examples are the points themselves. *)
Definition cfg89 (same : bool) : config := mkConfig Vanilla (1 # 10) (1 # 1) (1 # 100) 1000 5 same None.
Definition no_smoothing (w : nat) (l : list Q) : list Q := l.
Definition run89 (same : bool) (smooth : nat -> list Q -> list Q) (fc : fitcfg) :=
  ado_process exactly (numpy_sum exactly) (cfg89 same) (list (Q * Q)) [] (fit_domain exactly smooth (c_same_step (cfg89 same)) (c_normalizer (cfg89 same)) fc (list (Q * Q)) [] (fun pts => Ok pts)) (fun _ _ => - (1))%Q (fun x => x).
Definition step89 (x : Q) : fb := Fb [x; 1%Q] [2; 3] 0.
Definition hist89 (x : Q) : list fb := [step89 x; step89 (1 # 10)%Q; step89 (1 # 10)%Q; step89 (1 # 10)%Q].
Definition last89 : fb := step89 (1 # 10)%Q.
Definition after89 same smooth fc x := run89 same smooth fc (fb_losses last89) (fb_counts last89) 0 (run (run89 same smooth fc) (hist89 x) (ado0 _ [(1 # 2)%Q; (1 # 2)%Q])).

(** [ignore_initial_steps] ignores one step more than it says: with 3 of 5 steps ignored, one point is left, not two; with
    4 (which the constructor accepts, as the first fit is after 5 steps) none, and the laws are the default ones. *)
Theorem C89_ignored_refuted :
  ado_accepts 5 (mkFit false 1 4) = true /\ ado_accepts 5 (mkFit false 1 3) = true
  /\ o_params _ (fst (after89 true no_smoothing (mkFit false 1 3) 5)) = Some [[(25%Q, (1 # 20)%Q)]; [(25%Q, (1 # 3)%Q)]]
  /\ (exists m, snd (after89 true no_smoothing (mkFit false 1 4) 5) = inl (Some m))
  /\ o_params _ (fst (after89 true no_smoothing (mkFit false 1 4) 5)) = Some [[]; []].
Proof. vm_compute. repeat split. eexists. reflexivity. Qed.

(** Smoothing five values with a cubic: the least-squares cubic through them (what savgol_filter computes for a window of
    5 and 5 values). *)
Definition savgol5 (w : nat) (l : list Q) : list Q :=
  match l with
  | [a; b; c; d; e] => let r := ((a - 4 * b + 6 * c - 4 * d + e) / 70)%Q in map Qred [(a - r)%Q; (b + 4 * r)%Q; (c - 6 * r)%Q; (d + 4 * r)%Q; (e - r)%Q]
  | _ => l
  end.
(** The residual is orthogonal to every cubic. *)
Example savgol5_cubic a b c d e : forall w, In w [[1; 1; 1; 1; 1]; [-(2); -(1); 0; 1; 2]; [4; 1; 0; 1; 4]; [-(8); -(1); 0; 1; 8]]%Q ->
  (qsum (map (fun p : Q * (Q * Q) => fst p * (fst (snd p) - snd (snd p))) (combine w (combine [a; b; c; d; e] (savgol5 5 [a; b; c; d; e])))) == 0)%Q.
Proof.
  intros w Hw. cbn [savgol5 map]. cbv zeta. repeat destruct Hw as [<-|Hw]; [| | | |destruct Hw]; cbn [map combine fst snd qsum fold_right]; rewrite !Qred_correct; field.
Qed.
(** Smoothing is done first, so that the losses of ignored steps change the points; a high loss at the start makes later
    values negative, and the update fails although every loss is positive. *)
Theorem C89_smoothing_refuted :
  Forall (fun f => Forall (fun x => (0 < x)%Q) (fb_losses f)) (hist89 5 ++ [last89])
  /\ snd (after89 true savgol5 (mkFit true 1 0) 5) = inr RuntimeError
  /\ (exists m, snd (after89 true savgol5 (mkFit false 1 0) 5) = inl (Some m))
  /\ o_params _ (fst (after89 true savgol5 (mkFit true 1 0) (2 # 10))) <> o_params _ (fst (after89 true savgol5 (mkFit true 1 0) (1 # 10)))
  /\ o_params _ (fst (after89 true savgol5 (mkFit false 1 0) (2 # 10))) = o_params _ (fst (after89 true savgol5 (mkFit false 1 0) (1 # 10))).
Proof.
  split; [repeat constructor|]. split; [vm_compute; reflexivity|]. split; [eexists; vm_compute; reflexivity|]. split; [vm_compute; discriminate|vm_compute; reflexivity].
Qed.

(** ** Instances *)
Lemma steady89 same x : steady_growth same (hist89 x ++ [last89]).
Proof.
  split.
  - intros l1 f l2 E. assert (W : (widest (hist89 x ++ [last89]) <= 2)%nat) by (cbn; lia). assert (Hf : In f (hist89 x ++ [last89])) by (rewrite E; apply in_or_app; right; left; reflexivity).
    assert (L : length (fb_losses f) = 2%nat) by (cbn in Hf; repeat destruct Hf as [<-|Hf]; try reflexivity; destruct Hf).
    rewrite L. rewrite E in W. clear -W. induction l1 as [|g l1 IH]; [cbn; lia|]. cbn [app widest fold_right] in *. fold (widest l1) in *. assert (H := IH ltac:(unfold widest in *; lia)). unfold widest in *. lia.
  - intros _. split; [repeat constructor; discriminate|]. cbn. left. reflexivity.
Qed.
Lemma fitted89 same fc o' m : after89 same no_smoothing fc 5 = (o', inl m) -> Forall well_formed (hist89 5 ++ [last89]) ->
  exists ps, o_params _ o' = Some ps /\ forall k, (k < 2)%nat -> exists p, nth_error ps k = Some p
    /\ law_of exactly no_smoothing (cfg89 same) fc _ [] (fun pts => Ok pts) (hist89 5 ++ [last89]) k p.
Proof.
  intros E W. destruct (C89_fitted_partial exactly (numpy_sum exactly) no_smoothing (cfg89 same) fc _ [] [] (fun pts => Ok pts) (fun _ _ => - (1))%Q (fun x => x) [(1 # 2)%Q; (1 # 2)%Q] (hist89 5) last89 o' m W (steady89 same 5) E) as [H _].
  destruct (H (or_introl eq_refl)) as (ps & P1 & P2 & P3). exists ps. split; [exact P1|]. intros k Hk. apply P3. exact Hk.
Qed.
Example C89_example : exists o' m ps, after89 false no_smoothing (mkFit false 1 0) 5 = (o', inl m) /\ o_params _ o' = Some ps
  /\ nth_error ps 0 = Some [(4%Q, (1 # 20)%Q); (6%Q, (1 # 20)%Q); (8%Q, (1 # 20)%Q); (10%Q, (1 # 20)%Q)].
Proof.
  assert (V : exists m, snd (after89 false no_smoothing (mkFit false 1 0) 5) = inl m) by (eexists; vm_compute; reflexivity). destruct V as [m V].
  destruct (fitted89 false (mkFit false 1 0) (fst (after89 false no_smoothing (mkFit false 1 0) 5)) m) as (ps & P1 & P2).
  - rewrite <- V. apply surjective_pairing.
  - repeat constructor.
  - destruct (P2 0%nat ltac:(lia)) as (p & Hp & Hl). eexists; exists m, ps. split; [rewrite <- V; apply surjective_pairing|]. split; [exact P1|]. rewrite Hp. f_equal.
    unfold law_of in Hl. set (pts := law_points _ _ _ _ _ _ _ _) in Hl.
    assert (Hpts : pts = [(1%nat, 4%Q, (1 # 20)%Q); (2%nat, 6%Q, (1 # 20)%Q); (3%nat, 8%Q, (1 # 20)%Q); (4%nat, 10%Q, (1 # 20)%Q)]) by (vm_compute; reflexivity).
    rewrite Hpts in Hl. cbn in Hl. injection Hl as <-. reflexivity.
Qed.
Example C89_not_due_example : ~ due 5 1000 6 /\ due 5 1000 1005.
Proof. split; [intros [H|[_ H]]; [discriminate|vm_compute in H; discriminate]|right; split; [lia|reflexivity]]. Qed.
(** Thinning and samples. *)
Example C89_thinned_example : thinned 2 [1; 2; 3; 4; 5] = [1; 3; 5] /\ in_samples exactly (Some 4) 6 = (6 # 4)%Q /\ last_loss exactly true [step89 5; Fb [0%Q; 1%Q] [0; 3] 0] 1 0 = (5 / 2)%Q.
Proof. vm_compute. auto. Qed.
Example C89_data_example : law_points exactly true None 10 2 (hist89 5 ++ [last89]) 0 (own_losses exactly true (hist89 5 ++ [last89]) 0) <> [].
Proof. apply (C89_data_partial exactly (cfg89 true) (mkFit false 10 2)); [reflexivity|repeat constructor; discriminate|cbn; lia|reflexivity]. Qed.

Print Assumptions C89_fitted_partial.
Print Assumptions C89_no_smoothing_partial.
Print Assumptions C89_data_partial.
Print Assumptions C89_derivative.
Print Assumptions C89_ignored_refuted.
Print Assumptions C89_smoothing_refuted.
