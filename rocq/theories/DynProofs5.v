(** Dynamic mixing in single precision; installing a mixture. *)
From Verif Require Import Base MixtureKeyModel MixtureKeyProofs UtilsModel UtilsProofs ChunkGenModel MixtureModel MixtureProofs PropertiesMixture DynModel SpecDyn DynProofs DynProofs2 DynProofs3 DynProofs4.
From Coq Require Import QArith Qpower Qabs Qminmax Lqa Permutation.
Open Scope Z_scope.

Definition u32 : Q := 1 # 2 ^ 24.
Lemma u32_0 : (0 <= u32)%Q.
Proof. discriminate. Qed.
Lemma u32_1 : (u32 <= 1 # 2)%Q.
Proof. discriminate. Qed.
Definition dep (n : nat) : nat := (32 + Nat.log2 n)%nat.
Lemma dep_52 n : Z.of_nat n <= 2 ^ 20 -> (0 <= inject_Z (Z.of_nat (dep n)) <= 52)%Q.
Proof.
  intros H. unfold dep. assert (Nat.log2 n <= 20)%nat. { change 20%nat with (Nat.log2 (2 ^ 20)). apply Nat.log2_le_mono. apply Nat2Z.inj_le. rewrite Nat2Z.inj_pow. exact H. }
  change 52%Q with (inject_Z 52). change 0%Q with (inject_Z 0). rewrite <- !Zle_Qle. lia.
Qed.

Definition eps (n : nat) : Q := ((2 * inject_Z (Z.of_nat (dep n)) + 2) * u32 * (1001 # 1000))%Q.
Lemma eps_small n : Z.of_nat n <= 2 ^ 20 -> (eps n <= 1 # 2 ^ 17)%Q.
Proof.
  intros H. unfold eps. apply dep_52 in H. set (N := inject_Z _) in *. unfold u32.
  apply Qle_trans with ((2 * 52 + 2) * (1 # 2 ^ 24) * (1001 # 1000))%Q; [|discriminate].
  apply Qmult_le_compat_r; [|discriminate]. apply Qmult_le_compat_r; [lra|discriminate].
Qed.
Lemma close_np x : (1 - (1 # 2 ^ 17) <= x <= 1 + (1 # 2 ^ 17))%Q -> np_isclose x 1 = true /\ np_isclose 1 x = true.
Proof.
  change (1 # 2 ^ 17)%Q with (1 # 131072)%Q. intros H. unfold np_isclose. rewrite !Qle_bool_iff. split.
  - apply Qle_trans with (1 # 131072)%Q; [apply Qabs_Qle_condition; lra|discriminate].
  - apply Qle_trans with (1 # 131072)%Q; [apply Qabs_Qle_condition; lra|]. rewrite Qabs_pos by lra. lra.
Qed.

Lemma close_np2 x : (1 - (8 # 1000000) <= x <= 1 + (8 # 1000000))%Q -> np_isclose 1 x = true.
Proof. intros H. unfold np_isclose. rewrite Qle_bool_iff. apply Qle_trans with (8 # 1000000)%Q; [apply Qabs_Qle_condition; lra|]. rewrite Qabs_pos by lra. lra. Qed.

(** ** The dictionary of weights *)
Lemma qsum_filter_pos l : Forall (fun x => (0 <= x)%Q) l -> (qsum (filter qpos l) == qsum l)%Q.
Proof.
  induction 1 as [|x l Hx Hl IH]; [reflexivity|]. cbn [filter]. rewrite qsum_cons. destruct (qpos x) eqn:E; [rewrite qsum_cons, IH; reflexivity|]. apply qpos_false in E. rewrite IH. lra.
Qed.
Lemma aget_Z_in {V} i (l : list (Z * V)) v : Zget i l = Some v -> In (i, v) l.
Proof. unfold Zget. induction l as [|[j w] l IH]; cbn; [discriminate|]. destruct (Z.eqb_spec i j) as [->|]; [intros [= ->]; auto|auto]. Qed.
Lemma weight_map_ok ids mix : NoDup (map snd ids) -> forall i acc w,
  (forall j k, i <= j -> Zget j ids = Some k -> ~ In k (map fst acc)) ->
  weight_map ids i mix acc = Ok w -> map snd w = map snd acc ++ filter qpos mix /\ (forall k, In k (map fst w) -> In k (map fst acc) \/ In k (map snd ids)).
Proof.
  intros Hnd. induction mix as [|v mix IH]; intros i acc w Hacc H; cbn [weight_map filter] in *.
  - injection H as <-. rewrite app_nil_r. auto.
  - destruct (qpos v).
    + destruct (Zget i ids) as [k|] eqn:Ek; [|discriminate].
      assert (Hk : ~ In k (map fst acc)) by (apply (Hacc i); [lia|exact Ek]).
      assert (Es : aset mkey_eqb k v acc = acc ++ [(k, v)]).
      { clear - Hk. induction acc as [|[k' v'] acc IHa]; [reflexivity|]. cbn [aset]. cbn [map fst] in Hk. destruct (mkey_eqb k k') eqn:E; [apply mkey_eqb_spec in E; subst; exfalso; apply Hk; left; reflexivity|]. cbn [app]. rewrite IHa; [reflexivity|]. intros C. apply Hk. right. exact C. }
      rewrite Es in H. apply IH in H.
      * destruct H as [H1 H2]. rewrite H1, map_app, <- app_assoc. split; [reflexivity|]. intros k' Hk'. destruct (H2 k' Hk') as [Hi|]; [|auto]. rewrite map_app in Hi. apply in_app_or in Hi as [|[<-|[]]]; [auto|]. right. cbn [fst]. apply aget_Z_in in Ek. apply in_map_iff. exists (i, k). auto.
      * intros j k' Hj Ek' C. rewrite map_app in C. apply in_app_or in C as [C|[C|[]]]; [apply (Hacc j k'); [lia|exact Ek'|exact C]|]. cbn [fst] in C. subst k'.
        apply aget_Z_in in Ek, Ek'. assert (i = j); [|lia]. clear - Hnd Ek Ek'. induction ids as [|[a b] ids IHd]; [destruct Ek|]. cbn [map snd] in Hnd. inversion Hnd as [|? ? Hb Hn']; subst.
        destruct Ek as [E|Ek], Ek' as [E'|Ek']; try congruence.
        -- injection E as -> ->. exfalso. apply Hb. apply in_map_iff. exists (j, k). auto.
        -- injection E' as -> ->. exfalso. apply Hb. apply in_map_iff. exists (i, k). auto.
        -- apply IHd; assumption.
    + apply IH in H; [exact H|]. intros j k Hj. apply Hacc. lia.
Qed.

Lemma weight_map_in ids mix : NoDup (map snd ids) -> forall i acc w,
  (forall j k, i <= j -> Zget j ids = Some k -> ~ In k (map fst acc)) ->
  weight_map ids i mix acc = Ok w -> forall k v, In (k, v) w <-> In (k, v) acc \/ exists j, nth_error mix j = Some v /\ qpos v = true /\ Zget (i + Z.of_nat j) ids = Some k.
Proof.
  intros Hnd. induction mix as [|x mix IH]; intros i acc w Hacc H; cbn [weight_map] in H.
  - injection H as <-. intros k v. split; [auto|]. intros [|(j & E & _)]; [assumption|]. destruct j; discriminate.
  - destruct (qpos x) eqn:Ex.
    + destruct (Zget i ids) as [k0|] eqn:Ek; [|discriminate].
      assert (Hk : ~ In k0 (map fst acc)) by (apply (Hacc i); [lia|exact Ek]).
      assert (Es : aset mkey_eqb k0 x acc = acc ++ [(k0, x)]).
      { clear - Hk. induction acc as [|[k' v'] acc IHa]; [reflexivity|]. cbn [aset]. cbn [map fst] in Hk. destruct (mkey_eqb k0 k') eqn:E; [apply mkey_eqb_spec in E; subst; exfalso; apply Hk; left; reflexivity|]. cbn [app]. rewrite IHa; [reflexivity|]. intros C. apply Hk. right. exact C. }
      rewrite Es in H. intros k v. apply (IH (i + 1) (acc ++ [(k0, x)]) w) with (k := k) (v := v) in H.
      * rewrite H. rewrite in_app_iff. cbn [In]. split.
        -- intros [[Ha|[E|[]]]|(j & E1 & E2 & E3)]; [auto| |].
           ++ injection E as <- <-. right. exists 0%nat. rewrite Z.add_0_r. auto.
           ++ right. exists (S j). replace (i + Z.of_nat (S j)) with (i + 1 + Z.of_nat j) by lia. auto.
        -- intros [Ha|(j & E1 & E2 & E3)]; [auto|]. destruct j as [|j].
           ++ injection E1 as <-. rewrite Z.add_0_r, Ek in E3. injection E3 as <-. auto.
           ++ right. exists j. replace (i + 1 + Z.of_nat j) with (i + Z.of_nat (S j)) by lia. auto.
      * intros j k' Hj Ek' C. rewrite map_app in C. apply in_app_or in C as [C|[C|[]]]; [apply (Hacc j k'); [lia|exact Ek'|exact C]|]. cbn [fst] in C. subst k'.
        apply aget_Z_in in Ek, Ek'. assert (i = j); [|lia]. clear - Hnd Ek Ek'. induction ids as [|[a b] ids IHd]; [destruct Ek|]. cbn [map snd] in Hnd. inversion Hnd as [|? ? Hb Hn']; subst.
        destruct Ek as [E|Ek], Ek' as [E'|Ek']; try congruence.
        -- injection E as -> ->. exfalso. apply Hb. apply in_map_iff. exists (j, k0). auto.
        -- injection E' as -> ->. exfalso. apply Hb. apply in_map_iff. exists (i, k0). auto.
        -- apply IHd; assumption.
    + intros k v. rewrite (IH (i + 1) acc w); [|intros j k' Hj; apply Hacc; lia|exact H]. split; (intros [Ha|(j & E1 & E2 & E3)]; [auto|]).
      * right. exists (S j). replace (i + Z.of_nat (S j)) with (i + 1 + Z.of_nat j) by lia. auto.
      * destruct j as [|j]; [injection E1 as <-; congruence|]. right. exists j. replace (i + 1 + Z.of_nat j) with (i + Z.of_nat (S j)) by lia. auto.
Qed.

(** ** Installing *)
Section Install.
  Variables (fl : Q -> Q) (u : Q).
  Hypothesis Hr : rounds fl u.
  Lemma fsum_float_sum_left l : float_sum fl (length l) l (fsum fl l).
  Proof.
    unfold fsum. induction l as [|x l IH] using rev_ind; [constructor|]. rewrite fold_left_app, app_length. cbn [fold_left length]. rewrite Nat.add_1_r. apply fs_add; [exact IH|constructor].
  Qed.
  Lemma enough_half c n : enough u c n -> (0 <= u)%Q /\ (u <= 1 # 2)%Q.
  Proof. intros [[H1 H2] _]. change (1 # 2 ^ 24)%Q with (1 # 16777216)%Q in H2. lra. Qed.
  Lemma install_ok c n ids mix w : 0 <= c -> enough u c n -> Z.of_nat (length mix) <= n -> NoDup (map snd ids) -> near_distribution mix ->
    weight_map ids 0 mix [] = Ok w ->
    exists rows, static_mixture fl c w = Ok rows /\ zsum (map snd rows) = c /\ Forall (fun kv => 0 <= snd kv) rows /\ map fst rows = map fst w
      /\ forall i k v, nth_error w i = Some (k, v) -> exists r, nth_error rows i = Some (k, r) /\ (Qabs (inject_Z r - inject_Z c * v / qsum mix) <= 2)%Q.
  Proof.
    intros Hc Hen Hn Hnd [Hp Hs] Hw. destruct (enough_half _ _ Hen) as [Hu0 Hu1]. destruct Hen as (_ & E1 & E2). destruct (weight_map_ok ids mix Hnd 0 [] w) as [W1 W2]; [intros; cbn; auto|exact Hw|]. cbn [map app] in W1.
    assert (Lw : (length w <= length mix)%nat). { rewrite <- (map_length snd w), W1. clear. induction mix as [|x l IH]; cbn; [lia|]. destruct (qpos x); cbn; lia. }
    assert (Pw : Forall (fun x => (0 <= x)%Q) (map snd w)). { rewrite W1. rewrite Forall_forall in *. intros x Hx. apply filter_In in Hx as [Hx _]. auto. }
    assert (Sw : (qsum (map snd w) == qsum mix)%Q) by (rewrite W1; apply qsum_filter_pos, Hp).
    assert (HD0 : (0 <= inject_Z (Z.of_nat (length w)) <= inject_Z n)%Q) by (split; [change 0%Q with (inject_Z 0)|]; rewrite <- Zle_Qle; lia).
    destruct (static_float fl u Hu0 Hu1 Hr c w) as (counts & E & L & Z & N & Near).
    - lia.
    - rewrite Forall_map in Pw. exact Pw.
    - apply close_isclose1. pose proof (fsum_float_sum_left (map snd w)) as F. rewrite map_length in F.
      set (D := inject_Z (Z.of_nat (length w))) in *.
      assert (HDu : (0 <= D * u <= 1 # 2 ^ 11)%Q). { split; [apply Qmult_le_0_compat; tauto|]. apply Qle_trans with (inject_Z n * u)%Q; [apply Qmult_le_compat_r; tauto|exact E1]. }
      change (1 # 2 ^ 11)%Q with (1 # 2048)%Q in HDu. change (1 # 2 ^ 17)%Q with (1 # 131072)%Q in Hs.
      destruct (float_sum_bounds fl u Hu0 Hu1 Hr _ _ _ F Pw) as (B0 & B1 & B2); [fold D; lra|]. fold D in B1, B2. rewrite Sw in B1, B2.
      set (t := fsum fl (map snd w)) in *. set (q := (D * u)%Q) in *. set (S := qsum mix) in *. apply Qabs_Qle_condition. split; nra.
    - eapply Qle_lt_trans; [|exact E2]. apply Qmult_le_compat_r; [|exact Hu0]. assert (A : (0 <= inject_Z c)%Q) by (change 0%Q with (inject_Z 0); rewrite <- Zle_Qle; lia).
      set (x := inject_Z c) in *. set (y := inject_Z (Z.of_nat (length w))) in *. set (z := inject_Z n) in *. nra.
    - exists (combine (map fst w) counts). split; [exact E|]. assert (Hlf : length (map fst w) = length counts) by (rewrite map_length; congruence).
      rewrite map_snd_combine_eq, map_fst_combine_eq by exact Hlf. split; [exact Z|]. split; [rewrite Forall_forall in *; intros [k v] Hin; apply in_combine_r in Hin; apply N, Hin|]. split; [reflexivity|].
      intros i k v Ei. destruct (Near i k v Ei) as (r & Er & Hq). exists r. split.
      + clear - Ei Er. revert counts i Ei Er. induction w as [|[k' v'] w IHw]; intros counts [|i] Ei Er; cbn in *; try discriminate; destruct counts as [|c0 counts]; cbn in *; try discriminate; [congruence|]. eapply IHw; eassumption.
      + rewrite Sw in Hq. eapply Qle_trans; [exact Hq|]. assert (X : ((inject_Z c + 1) * (inject_Z (Z.of_nat (length w)) + 3) * u < 1)%Q).
        { eapply Qle_lt_trans; [|exact E2]. apply Qmult_le_compat_r; [|exact Hu0]. assert (A : (0 <= inject_Z c)%Q) by (change 0%Q with (inject_Z 0); rewrite <- Zle_Qle; lia). set (x := inject_Z c) in *. set (y := inject_Z (Z.of_nat (length w))) in *. set (z := inject_Z n) in *. nra. } lra.
  Qed.
End Install.
