(** Consequences of the specification of C90. *)
From Verif Require Import Base MixtureKeyModel UtilsModel UtilsProofs ChunkGenModel MixtureModel MixtureProofs DynModel SpecDyn DynProofs DynProofs2 DynProofs3 DynProofs6
  AdoFitModel SpecAdoFit AdoFitProofs AdoFitProofs2 SpecAdoAvg AdoAvgProofs.
From Coq Require Import QArith Qpower Qabs Qminmax Lqa.
Open Scope Z_scope.

Lemma total_more n m f : (n <= m)%nat -> (forall k, (n <= k)%nat -> (f k == 0)%Q) -> (total m f == total n f)%Q.
Proof.
  intros H Hz. unfold total. replace m with (n + (m - n))%nat by lia. rewrite seq_app, map_app, qsum_app. cbn [Nat.add].
  assert (E : forall s, (forall k, In k s -> (n <= k)%nat) -> (qsum (map f s) == 0)%Q).
  { induction s as [|k s IH]; intros Hs; cbn [map]; [reflexivity|]. rewrite qsum_cons, Hz by (apply Hs; left; reflexivity). rewrite IH by (intros; apply Hs; right; assumption). ring. }
  rewrite (E (seq n (m - n))) by (intros k Hk; apply in_seq in Hk; lia). ring.
Qed.
Lemma widest_firstn_S l T : (widest (firstn T l) <= widest (firstn (S T) l))%nat.
Proof.
  replace (firstn T l) with (firstn T (firstn (S T) l)) by (rewrite firstn_firstn; f_equal; lia). apply widest_firstn.
Qed.
Lemma qpow_S a n : 0 <= n -> (Qpower a (n + 1) == a * Qpower a n)%Q.
Proof.
  intros H. destruct (Z.eq_dec n 0) as [->|Hn]; [change (Qpower a (0 + 1)) with a; change (Qpower a 0) with 1%Q; ring|]. destruct n as [|p|p]; try lia. change (Z.pos p + 1) with (Z.pos (p + 1)).
  change (Qpower_positive a (p + 1) == a * Qpower_positive a p)%Q. rewrite Qpower_plus_positive. change (Qpower_positive a 1) with a. ring.
Qed.
Lemma qpow_add a n m : 0 <= n -> 0 <= m -> (Qpower a (n + m) == Qpower a n * Qpower a m)%Q.
Proof.
  intros Hn Hm. revert n Hn. apply (natlike_ind (fun n => (Qpower a (n + m) == Qpower a n * Qpower a m)%Q)); [change (0 + m) with m; change (Qpower a 0) with 1%Q; ring|].
  intros n Hn IH. unfold Z.succ. replace (n + 1 + m) with (n + m + 1) by lia. rewrite !qpow_S by lia. rewrite IH. ring.
Qed.

Section Conseq.
  Variables (cfg : config) (pow : Q -> Q) (P : Type) (deriv : P -> Q -> Q).
  Variables (mu : nat -> Q) (l : list fb) (laws : nat -> list P) (h b : nat -> nat -> Q) (answer : nat -> option (list Q)).
  Notation keys_at := (keys_at l).
  Notation rho := (preference_at cfg pow P deriv mu l laws h).
  Notation dem := (demand_at cfg pow P deriv mu l laws h).
  Notation pol := (policy_at cfg pow P deriv mu l laws h b).
  Notation pi := (mixture_at cfg pow P deriv mu l laws h b).
  Notation start := (c_start cfg).
  Hypothesis Hf : follows_averages cfg pow P deriv mu l laws h b answer.
  Hypothesis Hstart : 1 <= start.

  Lemma step_at T : c_variant cfg <> AdjustedV3 -> start <= Z.of_nat T -> (T <= length l)%nat -> mixed_step cfg pow P deriv mu l laws h b T /\ answer T = Some (map (pi T) (seq 0 (keys_at T))).
  Proof. intros Hv Hs HT. destruct Hf as [_ H]. destruct (H T ltac:(lia)) as [_ H2]. destruct (H2 Hs) as [(A & _ & B)|(_ & B & _)]; [auto|congruence]. Qed.
  Lemma before_start T : Z.of_nat T < start -> forall k, h T k = mu k /\ b T k = mu k.
  Proof. intros H k. destruct Hf as [H0 _]. apply H0. right. exact H. Qed.

  (** ** With progress *)
  Hypothesis Hv : c_variant cfg <> AdjustedV3.
  Hypothesis Hmu : forall T, (1 <= T <= length l)%nat -> (total (keys_at T) mu == 1)%Q /\ forall k, (keys_at T <= k)%nat -> mu k = 0%Q.

  Lemma rho_total T : (0 < total (keys_at T) (dem T))%Q -> (total (keys_at T) (rho T) == 1)%Q.
  Proof.
    intros H. assert (E : forall k, rho T k = part (keys_at T) (dem T) k).
    { intros k. unfold preference_at, preference. fold (dem T). destruct (Qle_bool _ 0) eqn:E; [|reflexivity]. apply Qle_bool_iff in E. exfalso. apply (Qlt_not_le _ _ H E). }
    rewrite (total_ext _ _ (part (keys_at T) (dem T))) by (intros k _; rewrite E; reflexivity). apply total_part. lra.
  Qed.
  Lemma h_over T k : (1 <= T <= length l)%nat -> (keys_at T <= k)%nat -> h T k = 0%Q /\ b T k = 0%Q.
  Proof.
    intros HT Hk. destruct (Z_lt_ge_dec (Z.of_nat T) start) as [Hlt|Hge].
    - destruct (before_start T Hlt k) as [-> ->]. destruct (Hmu T HT) as [_ H]. rewrite H by exact Hk. auto.
    - destruct (step_at T Hv ltac:(lia) ltac:(lia)) as [(_ & _ & _ & H & _) _]. destruct (H k Hk). auto.
  Qed.
  Lemma total_prev T : (1 <= T <= length l)%nat -> start <= Z.of_nat T -> (T = Z.to_nat start -> True) ->
    (Z.of_nat (T - 1) < start \/ (total (keys_at (T - 1)) (b (T - 1)%nat) == 1)%Q) -> (total (keys_at T) (b (T - 1)%nat) == 1)%Q.
  Proof.
    intros HT Hs _ [Hlt|H].
    - destruct (Hmu T HT) as [H _]. rewrite (total_ext _ _ mu); [exact H|]. intros k _. destruct (before_start (T - 1) Hlt k) as [_ ->]. reflexivity.
    - destruct (Nat.eq_dec T 1) as [->|Hne].
      + destruct (Hmu 1%nat HT) as [H1 _]. rewrite (total_ext _ _ mu); [exact H1|]. intros k _. destruct (before_start 0 ltac:(lia) k) as [_ E]. cbn [Nat.sub]. rewrite E. reflexivity.
      + rewrite <- H. apply total_more; [|intros k Hk; destruct (h_over (T - 1) k ltac:(lia) Hk) as [_ ->]; reflexivity].
        pose proof (widest_firstn_S l (T - 1)) as W. replace (S (T - 1)) with T in W by lia. exact W.
  Qed.
  Lemma b_total T : (1 <= T <= length l)%nat -> start <= Z.of_nat T -> progress_to cfg pow P deriv mu l laws h T ->
    (total (keys_at T) (rho T) == 1)%Q /\ (total (keys_at T) (b (T - 1)%nat) == 1)%Q /\ (total (keys_at T) (b T) == 1)%Q
    /\ (forall k, (k < keys_at T)%nat -> (b T k == mean (weight_at T) (rho T) (b (T - 1)%nat) k)%Q)
    /\ (forall k, (k < keys_at T)%nat -> (pol T k == mean (c_gamma2 cfg) (rho T) (b (T - 1)%nat) k)%Q).
  Proof.
    induction T as [|T IH]; intros HT Hs Hp; [lia|]. replace (S T - 1)%nat with T by lia.
    assert (R : (total (keys_at (S T)) (rho (S T)) == 1)%Q) by (apply rho_total, Hp, in_seq; lia).
    assert (B : (total (keys_at (S T)) (b T) == 1)%Q).
    { pose proof (total_prev (S T) HT Hs (fun _ => I)) as H. replace (S T - 1)%nat with T in H by lia. apply H.
      destruct (Z_lt_ge_dec (Z.of_nat T) start) as [Hlt|Hge]; [left; exact Hlt|right]. apply IH; [lia|lia|]. intros t Ht. apply Hp. apply in_seq in Ht. apply in_seq. lia. }
    destruct (step_at (S T) Hv Hs ltac:(lia)) as [(N1 & N2 & S1 & S2 & _) _]. replace (S T - 1)%nat with T in * by lia.
    assert (M : forall w, (total (keys_at (S T)) (mean w (rho (S T)) (b T)) == 1)%Q) by (intros w; rewrite total_mean, R, B; ring).
    split; [exact R|]. split; [exact B|]. split; [|split].
    - rewrite (total_ext _ _ (part (keys_at (S T)) (mean (weight_at (S T)) (rho (S T)) (b T)))) by (intros k Hk; rewrite S1 by exact Hk; reflexivity). apply total_part. rewrite M. lra.
    - intros k Hk. rewrite S1 by exact Hk. unfold part. rewrite M. field.
    - intros k Hk. unfold policy_at, part. replace (S T - 1)%nat with T by lia. rewrite M. field.
  Qed.
  Lemma rho_over T k : (1 <= T <= length l)%nat -> (0 < total (keys_at T) (dem T))%Q -> (keys_at T <= k)%nat -> (rho T k == 0)%Q.
  Proof.
    intros HT Hp Hk. unfold preference_at, preference. fold (dem T). destruct (Qle_bool _ 0) eqn:E; [apply Qle_bool_iff in E; exfalso; apply (Qlt_not_le _ _ Hp E)|].
    unfold part. assert (D : (demand pow mu (h (T - 1)%nat) (slope_at deriv (c_same_step cfg) (c_normalizer cfg) (firstn T l) (laws T) T) k == 0)%Q).
    { unfold demand. destruct (Hmu T HT) as [_ M]. rewrite M by exact Hk. assert (Z0 : (0 * pow (h (T - 1)%nat k) * - slope_at deriv (c_same_step cfg) (c_normalizer cfg) (firstn T l) (laws T) T k == 0)%Q) by ring.
      rewrite Z0. reflexivity. }
    rewrite D. unfold Qdiv. ring.
  Qed.
  (** The averages are averages: of the preferences of all steps so far, the prior counted once for every step without. *)
  Lemma running_average T k : (T <= length l)%nat -> start <= Z.of_nat T -> progress_to cfg pow P deriv mu l laws h T ->
    ((inject_Z (Z.of_nat T) + 1) * b T k == inject_Z start * mu k + qsum (map (fun t => rho t k) (steps_to cfg T)))%Q.
  Proof.
    induction T as [|T IH]; intros HT Hs Hp; [lia|].
    assert (Hk : (b (S T) k == mean (weight_at (S T)) (rho (S T)) (b T) k)%Q).
    { destruct (b_total (S T) ltac:(lia) Hs Hp) as (_ & _ & _ & H & _). replace (S T - 1)%nat with T in H by lia. destruct (Nat.lt_ge_cases k (keys_at (S T))) as [Hk|Hk]; [apply H, Hk|].
      destruct (h_over (S T) k ltac:(lia) Hk) as [_ ->]. unfold mean. rewrite (rho_over (S T) k) by (try apply Hp, in_seq; lia).
      assert (Bz : (b T k == 0)%Q).
      { destruct (Nat.eq_dec T 0) as [->|Hne].
        - destruct (before_start 0 ltac:(lia) k) as [_ ->]. destruct (Hmu 1%nat ltac:(lia)) as [_ M]. rewrite M by exact Hk. reflexivity.
        - destruct (h_over T k ltac:(lia)) as [_ ->]; [|reflexivity]. pose proof (widest_firstn_S l T). unfold SpecAdoAvg.keys_at in *. lia. }
      rewrite Bz. ring. }
    rewrite Hk. unfold mean, weight_at. set (N := inject_Z (Z.of_nat (S T))).
    assert (HN : (N == inject_Z (Z.of_nat T) + 1)%Q) by (unfold N; rewrite Nat2Z.inj_succ, <- Z.add_1_r, inject_Z_plus; reflexivity).
    assert (Hpos : (0 <= inject_Z (Z.of_nat T))%Q) by (change 0%Q with (inject_Z 0); rewrite <- Zle_Qle; lia).
    destruct (Z_lt_ge_dec (Z.of_nat T) start) as [Hlt|Hge].
    - destruct (before_start T Hlt k) as [_ Eb]. rewrite Eb. unfold steps_to. assert (E : start = Z.of_nat (S T)) by lia. rewrite E, Nat2Z.id. replace (S (S T) - S T)%nat with 1%nat by lia. cbn [seq map]. rewrite qsum_cons. change (qsum []) with 0%Q.
      fold N. field. lra.
    - assert (IH' := IH ltac:(lia) ltac:(lia)). assert (Hp' : progress_to cfg pow P deriv mu l laws h T) by (intros t Ht; apply Hp; apply in_seq in Ht; apply in_seq; lia). specialize (IH' Hp').
      assert (Es : steps_to cfg (S T) = steps_to cfg T ++ [S T]).
      { unfold steps_to. replace (S (S T) - Z.to_nat start)%nat with (S (S T - Z.to_nat start)) by lia. rewrite seq_S. f_equal. f_equal. lia. }
      rewrite Es, map_app, qsum_app. cbn [map]. rewrite qsum_cons. change (qsum []) with 0%Q. rewrite HN in *.
      transitivity (rho (S T) k + (inject_Z (Z.of_nat T) + 1) * b T k)%Q; [field; lra|]. rewrite IH'. ring.
  Qed.
End Conseq.

Section Credit.
  Variables (cfg : config) (pow : Q -> Q) (P : Type) (deriv : P -> Q -> Q).
  Variables (mu : nat -> Q) (l : list fb) (laws : nat -> list P) (h b : nat -> nat -> Q) (answer : nat -> option (list Q)).
  Notation keys_at := (keys_at l).
  Notation rho := (preference_at cfg pow P deriv mu l laws h).
  Notation pi := (mixture_at cfg pow P deriv mu l laws h b).
  Notation start := (c_start cfg).
  Hypothesis Hf : follows_averages cfg pow P deriv mu l laws h b answer.

  (** A key without prior is never preferred. *)
  Lemma rho_no_prior T k : (mu k == 0)%Q -> (rho T k == 0)%Q.
  Proof.
    intros Hm. unfold preference_at, preference. destruct (Qle_bool _ 0); [rewrite Hm; unfold Qdiv; ring|]. unfold part.
    assert (D : (demand pow mu (h (T - 1)%nat) (slope_at deriv (c_same_step cfg) (c_normalizer cfg) (firstn T l) (laws T) T) k == 0)%Q).
    { unfold demand. rewrite Hm. assert (Z0 : (0 * pow (h (T - 1)%nat k) * - slope_at deriv (c_same_step cfg) (c_normalizer cfg) (firstn T l) (laws T) T k == 0)%Q) by ring. rewrite Z0. reflexivity. }
    rewrite D. unfold Qdiv. ring.
  Qed.
  Lemma b_no_prior T k : (T <= length l)%nat -> (mu k == 0)%Q -> (b T k == 0)%Q.
  Proof.
    intros HT Hm. destruct Hf as [H0 H]. induction T as [|T IH].
    - destruct (H0 0%nat k) as [_ ->]; [left; reflexivity|exact Hm].
    - specialize (IH ltac:(lia)). destruct (Z_lt_ge_dec (Z.of_nat (S T)) start) as [Hlt|Hge].
      + destruct (H0 (S T) k) as [_ ->]; [right; exact Hlt|exact Hm].
      + destruct (H (S T) ltac:(lia)) as [_ H2]. replace (S T - 1)%nat with T in * by lia. destruct (H2 ltac:(lia)) as [(_ & _ & (_ & _ & S1 & S2 & _))|(_ & _ & Hi)].
        * replace (S T - 1)%nat with T in * by lia. destruct (Nat.lt_ge_cases k (keys_at (S T))) as [Hk|Hk]; [|destruct (S2 k Hk) as [-> _]; reflexivity].
          rewrite S1 by exact Hk. unfold part, mean. rewrite rho_no_prior, IH by exact Hm. unfold Qdiv. ring.
        * destruct (Hi k) as [_ ->]. replace (S T - 1)%nat with T by lia. exact IH.
  Qed.
  Lemma pi_no_prior T k : (1 <= T <= length l)%nat -> (mu k == 0)%Q ->
    (pi T k == (if sampled (firstn T l) k then Qmax 0 (c_delta_min cfg) else 0) / total (keys_at T) (raised (c_delta_min cfg) (sampled (firstn T l)) (policy_at cfg pow P deriv mu l laws h b T)))%Q.
  Proof.
    intros HT Hm. unfold mixture_at, part, raised. assert (E : (policy_at cfg pow P deriv mu l laws h b T k == 0)%Q).
    { unfold policy_at, part, mean. rewrite rho_no_prior, (b_no_prior (T - 1)) by (lia || exact Hm). unfold Qdiv. ring. }
    destruct (sampled _ k); rewrite E; reflexivity.
  Qed.

  (** The credit of the vanilla variant. *)
  Lemma vanilla_credit T k : c_variant cfg = Vanilla -> 1 <= start -> (T <= length l)%nat -> start <= Z.of_nat T -> (k < keys_at (Z.to_nat start))%nat ->
    (h T k == Qpower (1 - c_gamma1 cfg) (Z.of_nat T + 1 - start) * mu k + qsum (map (fun t => c_gamma1 cfg * Qpower (1 - c_gamma1 cfg) (Z.of_nat T - Z.of_nat t) * pi t k) (steps_to cfg T)))%Q.
  Proof.
    intros Hv Hs0 HT Hs Hk. destruct Hf as [H0 H]. induction T as [|T IH]; [lia|].
    assert (Hk' : (k < keys_at (S T))%nat).
    { apply Nat.lt_le_trans with (1 := Hk). assert (G : forall n m, (n <= m)%nat -> (keys_at n <= keys_at m)%nat) by (intros n m; induction 1 as [|m _ IHm]; [lia|pose proof (widest_firstn_S l m); unfold SpecAdoAvg.keys_at in *; lia]). apply G. lia. }
    destruct (H (S T) ltac:(lia)) as [_ H2]. destruct (H2 Hs) as [(_ & _ & (_ & _ & _ & _ & C))|(_ & C & _)]; [|congruence]. unfold credited in C. rewrite Hv in C. rewrite C by exact Hk'. replace (S T - 1)%nat with T by lia. unfold mean.
    destruct (Z_lt_ge_dec (Z.of_nat T) start) as [Hlt|Hge].
    - destruct (H0 T k) as [Eh _]; [right; exact Hlt|]. rewrite Eh. unfold steps_to. assert (E : start = Z.of_nat (S T)) by lia. rewrite E, Nat2Z.id. replace (S (S T) - S T)%nat with 1%nat by lia. cbn [seq map]. rewrite qsum_cons. change (qsum []) with 0%Q.
      rewrite Z.sub_diag. replace (Z.of_nat (S T) + 1 - Z.of_nat (S T)) with 1 by lia. change (Qpower (1 - c_gamma1 cfg) 1)%Q with (1 - c_gamma1 cfg)%Q. change (Qpower (1 - c_gamma1 cfg) 0)%Q with 1%Q. ring.
    - assert (Es : steps_to cfg (S T) = steps_to cfg T ++ [S T]).
      { unfold steps_to. replace (S (S T) - Z.to_nat start)%nat with (S (S T - Z.to_nat start)) by lia. rewrite seq_S. f_equal. f_equal. lia. }
      rewrite Es, map_app, qsum_app. cbn [map]. rewrite qsum_cons. change (qsum []) with 0%Q. rewrite (IH ltac:(lia) ltac:(lia)). rewrite Z.sub_diag. change (Qpower (1 - c_gamma1 cfg) 0)%Q with 1%Q.
      replace (Z.of_nat (S T) + 1 - start) with (Z.of_nat T + 1 - start + 1) by lia. rewrite qpow_S by lia.
      assert (Eq : (qsum (map (fun t => c_gamma1 cfg * Qpower (1 - c_gamma1 cfg) (Z.of_nat (S T) - Z.of_nat t) * pi t k) (steps_to cfg T))
                   == (1 - c_gamma1 cfg) * qsum (map (fun t => c_gamma1 cfg * Qpower (1 - c_gamma1 cfg) (Z.of_nat T - Z.of_nat t) * pi t k) (steps_to cfg T)))%Q).
      { assert (G : forall s, (forall t, In t s -> (t <= T)%nat) -> (qsum (map (fun t => c_gamma1 cfg * Qpower (1 - c_gamma1 cfg) (Z.of_nat (S T) - Z.of_nat t) * pi t k) s)
                   == (1 - c_gamma1 cfg) * qsum (map (fun t => c_gamma1 cfg * Qpower (1 - c_gamma1 cfg) (Z.of_nat T - Z.of_nat t) * pi t k) s))%Q).
        { induction s as [|t s IHs]; intros Hin; cbn [map]; [change (0 == (1 - c_gamma1 cfg) * 0)%Q; ring|]. rewrite !qsum_cons, IHs by (intros; apply Hin; right; assumption).
          replace (Z.of_nat (S T) - Z.of_nat t) with (Z.of_nat T - Z.of_nat t + 1) by lia. rewrite qpow_S by (specialize (Hin t (or_introl eq_refl)); lia). ring. }
        apply G. intros t Ht. apply in_seq in Ht. lia. }
      rewrite Eq. ring.
  Qed.
End Credit.
