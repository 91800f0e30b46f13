(** C90: ADO's mixture follows its averages. *)
From Verif Require Import Base MixtureKeyModel UtilsModel UtilsProofs ChunkGenModel MixtureModel MixtureProofs DynModel SpecDyn DynProofs DynProofs2 DynProofs3 DynProofs6
  AdoFitModel SpecAdoFit AdoFitProofs AdoFitProofs2 PropertiesDyn2 SpecAdoAvg AdoAvgProofs AdoAvgProofs2.
From Coq Require Import QArith Qpower Qabs Qminmax Lqa.
Open Scope Z_scope.

Lemma firstn_S_msg l T : (T < length l)%nat -> firstn (S T) l = firstn T l ++ [msg l T].
Proof. unfold msg. revert T. induction l as [|f l IH]; intros T H; [cbn in H; lia|]. destruct T as [|T]; [reflexivity|]. cbn [firstn nth app]. f_equal. apply IH. cbn in H. lia. Qed.
Lemma mean_eq w w' a b k : (w == w')%Q -> (mean w a b k == mean w' a b k)%Q.
Proof. intros H. unfold mean. rewrite H. reflexivity. Qed.

Section C90.
  Variable cfg : config.
  Variable P : Type.
  Variable p_zero : P.
  Variable fit1 : list (list Z) -> list (list Q) -> Z -> nat -> res P.
  Variable deriv : P -> Q -> Q.
  Variable pow_s : Q -> Q.
  Variable initial : list Q.
  Notation process := (ado_process exactly qsum cfg P p_zero fit1 deriv pow_s).
  Notation after := (after cfg P p_zero fit1 deriv pow_s initial).
  Notation same := (c_same_step cfg).
  Notation mu := (fun k => nth k initial 0%Q).
  (** What ADO answers to message number [T] (from 1). *)
  Definition response (l : list fb) (T : nat) : option (list Q) + exn :=
    let f := msg l (T - 1) in snd (process (fb_losses f) (fb_counts f) (fb_mixture f) (run process (firstn (T - 1) l) (ado0 P initial))).
  Definition laws_of (o : ado P) : list P := match o_params P o with Some ps => ps | None => [] end.

  Lemma steady_firstn l T : steady_growth same l -> steady_growth same (firstn T l).
  Proof.
    intros H. rewrite <- (firstn_skipn T l) in H. revert H. generalize (skipn T l). intros r. induction r as [|f r IH] using rev_ind; [rewrite app_nil_r; auto|].
    intros H. apply IH. rewrite app_assoc in H. apply (steady_growth_app cfg) in H. tauto.
  Qed.
  Lemma inv_at l : Forall well_formed l -> steady_growth same l -> (forall T, (1 <= T <= length l)%nat -> exists m, response l T = inl m) ->
    forall T, (T <= length l)%nat -> Inv cfg P initial (firstn T l) (after (firstn T l)).
  Proof.
    intros Hw Hg Ha. induction T as [|T IH]; intros HT; [apply inv_nil|]. specialize (IH ltac:(lia)). rewrite (firstn_S_msg l T) by lia.
    destruct (Ha (S T) ltac:(lia)) as [m Hm]. unfold response in Hm. replace (S T - 1)%nat with T in Hm by lia.
    apply (inv_step cfg P p_zero fit1 deriv pow_s initial (firstn T l) (msg l T) m); [|..|exact IH|exact Hm].
    - rewrite <- firstn_S_msg by lia. apply Forall_firstn'. exact Hw.
    - rewrite <- firstn_S_msg by lia. apply steady_firstn. exact Hg.
  Qed.

  (** In exact arithmetic, for every history of accepted feedback: the credits and the averages start as the prior (the initial
      mixture), every mixture handed out is the one the specification gives, and so are the credits and averages after it. *)
  Theorem C90_recursion_partial l : Forall well_formed l -> steady_growth same l -> (forall T, (1 <= T <= length l)%nat -> exists m, response l T = inl m) ->
    exists (laws : nat -> list P) (h b : nat -> nat -> Q) (answer : nat -> option (list Q)),
      (forall T, (1 <= T <= length l)%nat -> response l T = inl (answer T))
      /\ (forall T, (T <= length l)%nat -> let o := run process (firstn T l) (ado0 P initial) in
            (forall ps, o_params P o = Some ps -> laws T = ps)
            /\ (forall x k, o_h P o = Some x -> h T k = nth k x 0%Q) /\ (forall x k, o_pibar P o = Some x -> b T k = nth k x 0%Q))
      /\ follows_averages cfg pow_s P deriv mu l laws h b answer.
  Proof.
    intros Hw Hg Ha. pose proof (inv_at l Hw Hg Ha) as Hinv.
    set (st := fun T => after (firstn T l)).
    exists (fun T => laws_of (st T)), (fun T => arr initial (o_h P (st T))), (fun T => arr initial (o_pibar P (st T))), (fun T => match response l T with inl m => m | inr _ => None end).
    split; [intros T HT; destruct (Ha T HT) as [m ->]; reflexivity|].
    (* one step *)
    assert (Hstep : forall T, (1 <= T <= length l)%nat -> exists m, response l T = inl m /\
        let n := widest (firstn T l) in
        (Z.of_nat T < c_start cfg -> m = None)
        /\ (c_start cfg <= Z.of_nat T ->
         (m = None /\ c_variant cfg = AdjustedV3 /\ (forall k, arr initial (o_h P (st T)) k = arr initial (o_h P (st (T - 1)%nat)) k) /\ (forall k, arr initial (o_pibar P (st T)) k = arr initial (o_pibar P (st (T - 1)%nat)) k) /\ o_lastupd P (st T) = o_lastupd P (st (T - 1)%nat))
         \/ exists ps, length ps = n /\ stepped cfg P pow_s initial (is_new (firstn (T - 1) l) (msg l (T - 1))) (Z.of_nat T) n (fun k => zsum (counts_of k (firstn T l))) (arr initial (o_h P (st (T - 1)%nat))) (arr initial (o_pibar P (st (T - 1)%nat)))
              (slope_at deriv same (c_normalizer cfg) (firstn T l) ps T) ps (o_lastupd P (st (T - 1)%nat)) (st T) m)).
    { intros T HT. destruct (Ha T HT) as [m Hm]. exists m. split; [exact Hm|]. destruct T as [|T]; [lia|]. unfold st. replace (S T - 1)%nat with T by lia.
      unfold response in Hm. replace (S T - 1)%nat with T in Hm by lia. assert (Hwf : Forall well_formed (firstn (S T) l)) by (apply Forall_firstn'; exact Hw). assert (Hsg : steady_growth same (firstn (S T) l)) by (apply steady_firstn, Hg).
      rewrite (firstn_S_msg l T) in * by lia. pose proof (inv_step cfg P p_zero fit1 deriv pow_s initial (firstn T l) (msg l T) m Hwf Hsg (Hinv T ltac:(lia)) Hm) as H. cbv zeta in H.
      assert (EL : length (firstn T l) = T) by (apply firstn_length_le; lia). rewrite app_length, EL in H. cbn [length] in H. rewrite Nat.add_1_r in H. destruct H as (_ & X1 & X2). split; [exact X1|exact X2]. }
    assert (Hzero : forall T, (1 <= T <= length l)%nat -> forall x, shape (widest (firstn T l)) x -> (length initial <= widest (firstn T l))%nat -> forall k, (widest (firstn T l) <= k)%nat -> arr initial x k = 0%Q).
    { intros T _ [x|] Hx Hi k Hk; cbn [arr shape] in *; apply nth_overflow; lia. }
    assert (Hnew : forall T, (1 <= T)%nat -> is_new (firstn (T - 1) l) (msg l (T - 1)) = true <-> renewed l T).
    { intros T _. unfold is_new, renewed. rewrite newest_iff. apply Z.ltb_lt. }
    assert (Hren : c_variant cfg = AdjustedV2 -> forall T, (T <= length l)%nat -> last_renewal (c_start cfg) l (S T) (o_lastupd P (st T))).
    { intros Hv. induction T as [|T IH]; intros HT.
      - destruct (Hinv 0%nat ltac:(lia)) as (_ & _ & _ & _ & H). destruct H as (_ & _ & H); [left; reflexivity|]. unfold st. rewrite H. split; [intros t Ht _ _; lia|left; reflexivity].
      - specialize (IH ltac:(lia)). destruct (Hstep (S T) ltac:(lia)) as (m & _ & H1 & H2). cbv zeta in H1, H2. replace (S T - 1)%nat with T in * by lia.
        destruct (Z_lt_ge_dec (Z.of_nat (S T)) (c_start cfg)) as [Hlt|Hge].
        + destruct (Hinv (S T) HT) as (_ & _ & _ & _ & H). destruct H as (_ & _ & H); [right; rewrite firstn_length_le by lia; exact Hlt|]. unfold st. rewrite H. split; [|left; reflexivity]. intros t Ht Hs _. lia.
        + destruct (H2 ltac:(lia)) as [(_ & Hc & _)|(ps & _ & (_ & _ & _ & _ & _ & _ & Hu & _))]; [congruence|]. rewrite Hu. unfold follows. rewrite Hv. pose proof (Hnew (S T) ltac:(lia)) as N. replace (S T - 1)%nat with T in N by lia.
          destruct (is_new (firstn T l) (msg l T)) eqn:En.
          * split; [intros t Ht _ _; lia|]. right. exists (S T). split; [reflexivity|]. split; [lia|]. split; [lia|]. apply N. reflexivity.
          * destruct IH as [I1 I2]. split.
            -- intros t Ht Hs Hr. destruct (Nat.eq_dec t (S T)) as [->|Hne]; [apply N in Hr; discriminate|]. apply I1; [lia|exact Hs|exact Hr].
            -- destruct I2 as [I2|(t & -> & I2 & I3 & I4)]; [left; exact I2|]. right. exists t. split; [reflexivity|]. split; [lia|]. split; assumption. }
    split; [|split].
    2:{ intros T k HT. destruct (le_lt_dec T (length l)) as [Hle|Hgt].
      + destruct (Hinv T Hle) as (_ & _ & _ & _ & H). destruct H as (H1 & H2 & _).
        { destruct HT as [->|HT]; [left; reflexivity|]. right. rewrite firstn_length_le by exact Hle. exact HT. }
        unfold st. rewrite H1, H2. split; reflexivity.
      + destruct HT as [->|HT]; [lia|]. unfold st. rewrite firstn_all2 by lia. destruct (Hinv (length l) ltac:(lia)) as (_ & _ & _ & _ & H). rewrite firstn_all in H. destruct H as (H1 & H2 & _); [right; lia|]. rewrite H1, H2. split; reflexivity. }
    { intros T _. cbv zeta. unfold laws_of, st, AdoAvgProofs.after. split; [intros ps H; rewrite H; reflexivity|]. split; intros x k H; rewrite H; reflexivity. }
    intros T HT. destruct (Hstep T HT) as (m & Em & H1 & H2). cbv zeta in H1, H2. rewrite Em. split; [exact H1|].
      intros H. destruct (H2 H) as [(Hm & Hv & Hh & Hb & _)|(ps & Lp & (Hm & N1 & N2 & Hb & Hp & Hh & Hu))].
      + right. split; [exact Hm|]. split; [exact Hv|]. intros k. split; [apply Hh|apply Hb].
      + left. assert (EL : laws_of (st T) = ps) by (unfold laws_of; rewrite Hp; reflexivity).
        unfold mixed_step, mixture_at, policy_at, preference_at, keys_at, weight_at, sampled. rewrite EL. split; [exact Hm|]. split; [exact Lp|]. split; [exact N1|]. split; [exact N2|].
        destruct (Hinv T ltac:(lia)) as (_ & I2 & I3 & I4 & _). destruct I2 as [[Hnil _]|[_ Hi]]; [apply (f_equal (@length fb)) in Hnil; rewrite firstn_length_le in Hnil by lia; cbn in Hnil; lia|].
        split; [intros k Hk; rewrite Hb; cbn [arr]; apply F_nth, Hk|]. split; [intros k Hk; split; apply (Hzero T HT); assumption|].
        pose proof (Hnew T ltac:(lia)) as N. unfold follows, rate, credited in *. destruct (c_variant cfg) eqn:Ev.
        * intros k Hk. rewrite Hh. cbn [arr]. apply F_nth, Hk.
        * split; intros Hr k Hk; rewrite Hh; cbn [arr]; rewrite F_nth by exact Hk.
          -- apply N in Hr. rewrite Hr. reflexivity.
          -- destruct (is_new _ _); [exfalso; apply Hr, N; reflexivity|reflexivity].
        * split.
          -- intros Hr. exists (o_lastupd P (st (T - 1)%nat)). split; [pose proof (Hren eq_refl (T - 1)%nat ltac:(lia)) as R; replace (S (T - 1)) with T in R by lia; exact R|].
             intros k Hk. rewrite Hh. cbn [arr]. rewrite F_nth by exact Hk. apply N in Hr. rewrite Hr. destruct (1 <? _) eqn:E1; [reflexivity|].
             assert (Eq1 : Z.of_nat T - o_lastupd P (st (T - 1)%nat) = 1).
             { pose proof (Hren eq_refl (T - 1)%nat ltac:(lia)) as [_ R]. apply Z.ltb_ge in E1. destruct R as [R|(t & R & R1 & _)]; rewrite R in *; lia. }
             rewrite Eq1. apply mean_eq. change (Qpower (1 - c_gamma1 cfg) 1)%Q with (1 - c_gamma1 cfg)%Q. ring.
          -- intros Hr k Hk. rewrite Hh. cbn [arr]. rewrite F_nth by exact Hk. destruct (is_new _ _); [exfalso; apply Hr, N; reflexivity|reflexivity].
        * intros k Hk. rewrite Hh. cbn [arr]. apply F_nth, Hk.
        * destruct Hu as [_ Hu]. congruence.
  Qed.

  Lemma prior_ok l : (qsum initial == 1)%Q -> (length initial <= length (fb_losses (msg l 0)))%nat ->
    forall T, (1 <= T <= length l)%nat -> (total (keys_at l T) mu == 1)%Q /\ forall k, (keys_at l T <= k)%nat -> mu k = 0%Q.
  Proof.
    clear p_zero fit1. intros Hq Hl T HT. assert (L : (length initial <= keys_at l T)%nat).
    { unfold keys_at. destruct l as [|f l]; [cbn in HT; lia|]. destruct T as [|T]; [lia|]. cbn [firstn widest fold_right]. unfold msg in Hl. cbn [nth] in Hl. lia. }
    split; [|intros k Hk; apply nth_overflow; lia].
    rewrite (total_more (length initial)) by (exact L || (intros k Hk; rewrite nth_overflow by exact Hk; reflexivity)).
    unfold total. rewrite map_nth_seq. exact Hq.
  Qed.

  (** As long as some loss falls at every step: the averages are the averages of all preferences so far (the prior stands
      for the steps before the first), preferences and averages are distributions, and the mixture, before the minimum is
      enforced, is gamma2 of the preference and the rest of the average. *)
  Theorem C90_average_partial l laws h b answer : follows_averages cfg pow_s P deriv mu l laws h b answer -> 1 <= c_start cfg -> c_variant cfg <> AdjustedV3 ->
    (qsum initial == 1)%Q -> (length initial <= length (fb_losses (msg l 0)))%nat ->
    forall T, c_start cfg <= Z.of_nat T -> (T <= length l)%nat -> progress_to cfg pow_s P deriv mu l laws h T ->
      (forall k, (inject_Z (Z.of_nat T) + 1) * b T k == inject_Z (c_start cfg) * mu k + qsum (map (fun t => preference_at cfg pow_s P deriv mu l laws h t k) (steps_to cfg T)))%Q
      /\ (total (keys_at l T) (preference_at cfg pow_s P deriv mu l laws h T) == 1)%Q /\ (total (keys_at l T) (b T) == 1)%Q
      /\ (forall k, (k < keys_at l T)%nat -> (policy_at cfg pow_s P deriv mu l laws h b T k == mean (c_gamma2 cfg) (preference_at cfg pow_s P deriv mu l laws h T) (b (T - 1)%nat) k)%Q).
  Proof.
    clear p_zero fit1. intros Hf Hs Hv Hq Hl T H1 H2 Hp. pose proof (prior_ok l Hq Hl) as Hm. split.
    - intros k. apply (running_average cfg pow_s P deriv mu l laws h b answer Hf Hs Hv Hm T k H2 H1 Hp).
    - destruct (b_total cfg pow_s P deriv mu l laws h b answer Hf Hs Hv Hm T ltac:(lia) H1 Hp) as (B1 & _ & B3 & _ & B5). auto.
  Qed.
  (** A key without prior (one that is not in the initial mixture) is never preferred: it gets the minimum once it has been
      sampled, and nothing before. *)
  Theorem C90_no_prior l laws h b answer : follows_averages cfg pow_s P deriv mu l laws h b answer ->
    forall T k, (1 <= T <= length l)%nat -> (nth k initial 0 == 0)%Q ->
      (preference_at cfg pow_s P deriv mu l laws h T k == 0)%Q
      /\ (mixture_at cfg pow_s P deriv mu l laws h b T k
          == (if sampled (firstn T l) k then Qmax 0 (c_delta_min cfg) else 0) / total (keys_at l T) (raised (c_delta_min cfg) (sampled (firstn T l)) (policy_at cfg pow_s P deriv mu l laws h b T)))%Q.
  Proof.
    intros Hf T k HT Hk. split; [apply rho_no_prior; exact Hk|]. eapply (pi_no_prior cfg pow_s P deriv mu l laws h b answer Hf T k HT). exact Hk.
  Qed.
  (** The credit of the vanilla variant: an exponentially weighted average of the mixtures so far. *)
  Theorem C90_vanilla_credit l laws h b answer : follows_averages cfg pow_s P deriv mu l laws h b answer -> c_variant cfg = Vanilla -> 1 <= c_start cfg ->
    forall T k, (T <= length l)%nat -> c_start cfg <= Z.of_nat T -> (k < keys_at l (Z.to_nat (c_start cfg)))%nat ->
      (h T k == Qpower (1 - c_gamma1 cfg) (Z.of_nat T + 1 - c_start cfg) * mu k
        + qsum (map (fun t => c_gamma1 cfg * Qpower (1 - c_gamma1 cfg) (Z.of_nat T - Z.of_nat t) * mixture_at cfg pow_s P deriv mu l laws h b t k) (steps_to cfg T)))%Q.
  Proof. intros Hf Hv Hs T k H1 H2 Hk. eapply (vanilla_credit cfg pow_s P deriv mu l laws h b answer Hf); eassumption. Qed.
End C90.

(** ** Where the code falls short, and instances *)
(** Two keys; the loss of key 0 falls until [stop] tokens, the loss of key 1 never does. *)
Definition cfg90 (v : variant) : config := mkConfig v (1 # 2) (1 # 2) 0 1000 1 false None.
Definition fit90 (_ : list (list Z)) (_ : list (list Q)) (_ : Z) (k : nat) : res Q := Ok (if Nat.eqb k 0 then 1%Q else 0%Q).
Definition law90 (stop : Q) (p x : Q) : Q := if Qle_bool stop x then 0%Q else (- p)%Q.
Definition half : list Q := [(1 # 2)%Q; (1 # 2)%Q].
Definition one90 (i : Z) : fb := Fb [1%Q; 1%Q] [1; 1] i.
Definition answers90 v stop l := map (response (cfg90 v) Q 0%Q fit90 (law90 stop) (fun x => x) half l) (seq 1 (length l)).
Definition run90 v stop l := run (ado_process exactly qsum (cfg90 v) Q 0%Q fit90 (law90 stop) (fun x => x)) l (ado0 Q half).

(** Without any progress the preference is the prior divided by the number of keys, so that it sums to one half here; after
    one step with progress (preference 1 : 0) the average is 3/4 : 1/4.  The mixture of the second step should be the mean
    of the prior and that, 5/8 : 3/8, but is 2/3 : 1/3; and the average afterwards should be (mu + 1:0 + mu)/3 = 2/3 : 1/3,
    but is 7/10 : 3/10. *)
Theorem C90_fallback_refuted :
  let l := [one90 0; one90 0] in
  (exists m1 m2, answers90 Vanilla 2 l = [inl (Some m1); inl (Some m2)] /\ Forall2 Qeq m1 [3 # 4; 1 # 4]%Q /\ Forall2 Qeq m2 [2 # 3; 1 # 3]%Q)
  /\ (exists b1 b2, o_pibar Q (run90 Vanilla 2 [one90 0]) = Some b1 /\ o_pibar Q (run90 Vanilla 2 l) = Some b2 /\ Forall2 Qeq b1 [3 # 4; 1 # 4]%Q /\ Forall2 Qeq b2 [7 # 10; 3 # 10]%Q)
  /\ (mean (1 # 2) (fun k => nth k half 0%Q) (fun k => nth k [3 # 4; 1 # 4]%Q 0%Q) 0 == 5 # 8)%Q
  /\ (preference 2 (fun x => x) (fun k => nth k half 0) (fun k => nth k half 0) (fun _ => 0) 0 + preference 2 (fun x => x) (fun k => nth k half 0) (fun k => nth k half 0) (fun _ => 0) 1 == 1 # 2)%Q.
Proof.
  cbv zeta. split; [do 2 eexists; split; [vm_compute; reflexivity|]; split; repeat constructor|].
  split; [do 2 eexists; split; [vm_compute; reflexivity|]; split; [vm_compute; reflexivity|]; split; repeat constructor|]. vm_compute. auto.
Qed.

Lemma two_wide v l : Forall (fun f => length (fb_losses f) = 2%nat /\ well_formed f) l -> Forall well_formed l /\ steady_growth (c_same_step (cfg90 v)) l.
Proof.
  intros H. split; [eapply Forall_impl; [|exact H]; intros f [_ Hf]; exact Hf|]. split; [|discriminate]. intros l1 f l2 ->. apply Forall_app in H as [H1 H2]. inversion H2 as [|? ? [Hf _] _]; subst. rewrite Hf.
  clear -H1. induction H1 as [|g l1 [Hg _] _ IH]; [cbn; lia|]. cbn [widest fold_right]. unfold widest in IH. lia.
Qed.
Lemma wide90 (ids : list Z) : Forall (fun f => length (fb_losses f) = 2%nat /\ well_formed f) (map one90 ids).
Proof. apply Forall_forall. intros f Hf. apply in_map_iff in Hf as (i & <- & _). split; reflexivity. Qed.

(** Two steps with progress; the hypotheses hold, and the average is what the theorem says. *)
Definition l90 : list fb := map one90 [0; 1].
Lemma follows90 v : (v = Vanilla \/ v = AdjustedV2) -> exists laws h b answer, follows_averages (cfg90 v) (fun x => x) Q (law90 100) (fun k => nth k half 0%Q) l90 laws h b answer
  /\ (laws 1%nat = [1%Q; 0%Q] /\ laws 2%nat = [1%Q; 0%Q]) /\ (forall k, h 0%nat k = nth k half 0%Q)
  /\ (forall x k, o_h Q (run90 v 100 (firstn 1 l90)) = Some x -> h 1%nat k = nth k x 0%Q).
Proof.
  intros Hv. destruct (two_wide v l90 (wide90 _)) as [W G].
  destruct (C90_recursion_partial (cfg90 v) Q 0%Q fit90 (law90 100) (fun x => x) half l90 W G) as (laws & h & b & answer & _ & H2 & H3).
  - intros T HT. change (length l90) with 2%nat in HT. assert (HT' : T = 1%nat \/ T = 2%nat) by (clear -HT; lia). clear W G HT.
    destruct Hv as [-> | ->]; destruct HT' as [->| ->]; eexists; vm_compute; reflexivity.
  - exists laws, h, b, answer. split; [exact H3|]. split; [|split].
    + assert (HL : forall T, T = 1%nat \/ T = 2%nat -> laws T = [1%Q; 0%Q]).
      { intros T HT. destruct (H2 T) as (HL & _); [change (length l90) with 2%nat; clear -HT; lia|]. apply HL. clear - Hv HT. destruct Hv as [-> | ->]; destruct HT as [->| ->]; vm_compute; reflexivity. }
      split; apply HL; auto.
    + intros k. destruct H3 as [H3 _]. apply H3. left. reflexivity.
    + intros x k. destruct (H2 1%nat) as (_ & Hh & _); [cbn; lia|]. apply Hh.
Qed.
Example C90_average_example : exists laws h b answer, follows_averages (cfg90 Vanilla) (fun x => x) Q (law90 100) (fun k => nth k half 0%Q) l90 laws h b answer
  /\ progress_to (cfg90 Vanilla) (fun x => x) Q (law90 100) (fun k => nth k half 0%Q) l90 laws h 2
  /\ ((inject_Z 2 + 1) * b 2%nat 0%nat == inject_Z 1 * (1 # 2) + (1 + (1 + 0)))%Q.
Proof.
  destruct (follows90 Vanilla (or_introl eq_refl)) as (laws & h & b & answer & F0 & (L1 & L2) & H0 & Hh). exists laws, h, b, answer. split; [exact F0|].
  assert (E1 : exists x1, o_h Q (run90 Vanilla 100 (firstn 1 l90)) = Some x1) by (eexists; vm_compute; reflexivity).
  destruct E1 as (x1 & E1). pose proof (fun k => Hh x1 k E1) as A1. vm_compute in E1. injection E1 as <-.
  assert (Pr : progress_to (cfg90 Vanilla) (fun x => x) Q (law90 100) (fun k => nth k half 0%Q) l90 laws h 2).
  { intros t Ht. change (In t [1%nat; 2%nat]) in Ht. destruct Ht as [<-|[<-|[]]].
    - unfold demand_at, total. change (keys_at l90 1) with 2%nat. change (1 - 1)%nat with 0%nat. cbn [seq map]. unfold demand, slope_at. cbn [seq map]. rewrite !H0, L1. vm_compute. reflexivity.
    - unfold demand_at, total. change (keys_at l90 2) with 2%nat. change (2 - 1)%nat with 1%nat. cbn [seq map]. unfold demand, slope_at. cbn [seq map]. rewrite !A1, L2. vm_compute. reflexivity. }
  split; [exact Pr|].
  destruct (C90_average_partial _ _ _ _ half _ _ _ _ _ F0 ltac:(cbn; lia) ltac:(discriminate) ltac:(reflexivity) ltac:(cbn; lia) 2%nat ltac:(cbn; lia) ltac:(cbn; lia) Pr) as (A & _).
  specialize (A 0%nat). change (Z.of_nat 2) with 2 in A. rewrite A. change (steps_to (cfg90 Vanilla) 2) with [1%nat; 2%nat]. cbn [map].
  unfold preference_at. change (keys_at l90 1) with 2%nat. change (keys_at l90 2) with 2%nat. change (1 - 1)%nat with 0%nat. change (2 - 1)%nat with 1%nat.
  unfold preference, part, total. cbn [seq map]. unfold demand, slope_at. rewrite !H0, !A1, L1, L2. vm_compute. reflexivity.
Qed.
(** The second variant: the client works with the first mixture from the first step on, and with a new one in the third. *)
Example C90_renewed_example : let l := map one90 [0; 0; 1] in renewed l 1 /\ ~ renewed l 2 /\ renewed l 3 /\ last_renewal 1 l 3 1.
Proof.
  unfold renewed, newest. cbn. split; [split; [lia|constructor]|]. split; [intros [_ H]; inversion H; lia|]. split; [split; [lia|repeat constructor; lia]|].
  split; [|right; exists 1%nat; split; [reflexivity|split; [lia|split; [lia|split; [cbn; lia|constructor]]]]].
  intros t Ht H1 Hr. destruct t as [|[|[|t]]]; try lia. destruct Hr as [_ Hr]. cbn in Hr. inversion Hr; lia.
Qed.
Example C90_no_prior_example : exists m, response (cfg90 Vanilla) Q 0%Q fit90 (law90 100) (fun x => x) [1%Q] [one90 0] 1 = inl (Some m) /\ Forall2 Qeq m [1; 0]%Q.
Proof. eexists. split; [vm_compute; reflexivity|repeat constructor]. Qed.

Print Assumptions C90_recursion_partial.
Print Assumptions C90_average_partial.
Print Assumptions C90_no_prior.
Print Assumptions C90_vanilla_credit.
Print Assumptions C90_fallback_refuted.
