(** Lemmas about MixtureModel: static mixtures (exact and with float rounding). *)
From Verif Require Import Base MixtureKeyModel UtilsModel UtilsProofs ChunkGenModel MixtureModel.
From Coq Require Import QArith Qround Qabs Qminmax Lqa ZifyBool ZifyNat.
Open Scope Z_scope.

Lemma dist_loop_cyc fp : forall d i a, (i + d <= length fp)%nat ->
  cyc_loop d i (map snd fp) a = dist_loop (Z.of_nat d) (skipn i fp) a.
Proof.
  induction d as [|d IH]; intros i a H.
  - cbn [cyc_loop]. destruct (skipn i fp) as [|[f j] l]; reflexivity.
  - cbn [cyc_loop]. rewrite map_length. rewrite Nat.mod_small by lia.
    destruct (nth_error fp i) as [[f j]|] eqn:E; [|apply nth_error_None in E; lia].
    rewrite nth_error_map, E. cbn [option_map snd].
    rewrite IH by lia.
    assert (Hs : skipn i fp = (f, j) :: skipn (S i) fp).
    { clear - E. revert i E. induction fp as [|x fp IH]; intros [|i] E; cbn in *; try discriminate; [congruence|]. apply IH, E. }
    rewrite Hs. cbn [dist_loop]. replace (0 <? Z.of_nat (S d)) with true by lia.
    replace (Z.of_nat (S d) - 1) with (Z.of_nat d) by lia. reflexivity.
Qed.

Lemma map_snd_sort (fracs : list Q) : length (map snd (sort_desc (combine fracs (seq 0 (length fracs))))) = length fracs.
Proof.
  rewrite map_length, (Permutation_length (sort_desc_perm _)), combine_length, seq_length. apply Nat.min_id.
Qed.

Lemma snd_sort_perm (fracs : list Q) : Permutation (map snd (sort_desc (combine fracs (seq 0 (length fracs))))) (seq 0 (length fracs)).
Proof.
  rewrite (Permutation_map snd (sort_desc_perm _)). rewrite map_snd_combine_ by (rewrite seq_length; reflexivity). reflexivity.
Qed.

Lemma sort_fp_length (fracs : list Q) n : length fracs = n -> length (sort_desc (combine fracs (seq 0 n))) = n.
Proof. intros <-. rewrite (Permutation_length (sort_desc_perm _)), combine_length, seq_length. apply Nat.min_id. Qed.

(** ** The core of parse_user_mixture for any computed ideals whose total is less than one away from the chunk size. *)
Lemma parse_core fl c um :
  let ideal := map (fun kv => fl (inject_Z c * snd kv)%Q) um in
  Forall (fun kv => (0 <= snd kv)%Q) um -> Forall (fun x => (0 <= x)%Q) ideal -> um <> [] ->
  (inject_Z c - 1 < qsum ideal)%Q -> (qsum ideal < inject_Z c + 1)%Q ->
  exists counts, parse_user_mixture fl c um = Ok (combine (map fst um) counts)
    /\ length counts = length um /\ zsum counts = c
    /\ forall i x, nth_error ideal i = Some x -> exists v, nth_error counts i = Some v /\ (v = qtrunc x \/ v = qtrunc x + 1).
Proof.
  intros ideal Hum Hid Hne Hlo Hhi. unfold parse_user_mixture.
  assert (E1 : forallb (fun kv : mkey * Q => Qle_bool 0 (snd kv)) um = true).
  { apply forallb_forall. intros kv Hkv. apply Qle_bool_iff. rewrite Forall_forall in Hum. auto. }
  rewrite E1. cbn [negb]. fold ideal. set (floors := map qtrunc ideal). set (diff := c - zsum floors).
  set (fracs := map (fun x => fl (x - inject_Z (qtrunc x))%Q) ideal).
  assert (Hlen : length fracs = length um) by (unfold fracs, ideal; rewrite !map_length; reflexivity).
  assert (Hfl : (inject_Z (zsum floors) <= qsum ideal)%Q /\ (qsum ideal <= inject_Z (zsum floors) + inject_Z (Z.of_nat (length um)))%Q).
  { unfold floors. clear - Hid. replace (length um) with (length ideal) by (unfold ideal; apply map_length).
    induction ideal as [|x l IH]; [split; vm_compute; discriminate|]. inversion Hid as [|? ? Hx Hl]; subst. specialize (IH Hl).
    cbn [map length]. rewrite zsum_cons, qsum_cons, Nat2Z.inj_succ. unfold Z.succ. rewrite !inject_Z_plus.
    pose proof (qtrunc_bounds x Hx). change (inject_Z 1) with 1%Q. split; lra. }
  destruct Hfl as [Hf1 Hf2].
  assert (Hd0 : 0 <= diff).
  { assert (H : (inject_Z (zsum floors) < inject_Z (c + 1))%Q) by (rewrite inject_Z_plus; change (inject_Z 1) with 1%Q; lra).
    rewrite <- Zlt_Qlt in H. unfold diff. lia. }
  assert (Hdn : diff <= Z.of_nat (length um)).
  { assert (H : (inject_Z (c - 1) < inject_Z (zsum floors + Z.of_nat (length um)))%Q).
    { unfold Z.sub. rewrite !inject_Z_plus, inject_Z_opp. change (inject_Z 1) with 1%Q. lra. }
    rewrite <- Zlt_Qlt in H. unfold diff. lia. }
  replace (diff <? 0) with false by lia.
  rewrite map_snd_sort, Hlen.
  replace (Nat.eqb (length um) 0) with false by (destruct um; [congruence|reflexivity]). rewrite andb_false_r.
  rewrite dist_loop_cyc.
  2:{ rewrite sort_fp_length by exact Hlen. lia. }
  cbn [skipn]. rewrite Z2Nat.id by lia.
  set (fp := sort_desc (combine fracs (seq 0 (length um)))).
  assert (Hfp : Permutation (map snd fp) (seq 0 (length um))) by (unfold fp; rewrite <- Hlen; apply snd_sort_perm).
  assert (Hfpl : length fp = length um) by (rewrite <- (map_length snd), (Permutation_length Hfp), seq_length; reflexivity).
  assert (Hsum : zsum (dist_loop diff fp floors) = c).
  { rewrite zsum_dist_loop.
    - unfold diff. lia.
    - intros f i Hin. apply (in_map snd) in Hin. apply (Permutation_in _ Hfp) in Hin. cbn in Hin. apply in_seq in Hin.
      unfold floors, ideal. rewrite !map_length. lia.
    - lia. }
  rewrite Hsum, Z.eqb_refl. cbn [negb].
  exists (dist_loop diff fp floors). split; [reflexivity|]. split; [rewrite dist_loop_length; unfold floors, ideal; rewrite !map_length; reflexivity|].
  split; [exact Hsum|]. intros i x Hx.
  rewrite dist_loop_nth by (eapply Permutation_NoDup; [symmetry; exact Hfp|apply seq_NoDup]).
  unfold floors at 1. rewrite nth_error_map, Hx. cbn [option_map]. destruct (existsb _ _); eauto.
Qed.

(** ** Exact arithmetic *)
Lemma parse_exact c um : 0 <= c -> Forall (fun kv => (0 <= snd kv)%Q) um -> (qsum (map snd um) == 1)%Q ->
  exists counts, parse_user_mixture exactly c um = Ok (combine (map fst um) counts)
    /\ length counts = length um /\ zsum counts = c /\ Forall (fun v => 0 <= v) counts
    /\ forall i k w, nth_error um i = Some (k, w) ->
         exists v, nth_error counts i = Some v /\ (v = Qfloor (inject_Z c * w) \/ v = Qceiling (inject_Z c * w)).
Proof.
  intros Hc Hum Hs.
  assert (Hne : um <> []) by (intros ->; cbn in Hs; lra).
  set (ideal := map (fun kv : mkey * Q => exactly (inject_Z c * snd kv)%Q) um).
  assert (Hid : Forall (fun x => (0 <= x)%Q) ideal).
  { unfold ideal, exactly. rewrite Forall_forall in *. intros x Hx. apply in_map_iff in Hx as (kv & <- & Hkv).
    apply Qmult_le_0_compat; [|auto]. change 0%Q with (inject_Z 0). rewrite <- Zle_Qle. exact Hc. }
  assert (Hsi : (qsum ideal == inject_Z c)%Q).
  { transitivity (inject_Z c * qsum (map snd um))%Q; [|rewrite Hs; ring]. unfold ideal, exactly. clear.
    induction um as [|[k w] l IH]; [cbn; ring|]. cbn [map snd]. rewrite !qsum_cons, IH. ring. }
  destruct (parse_core exactly c um) as (counts & E & Hl & Hz & _); auto; fold ideal; try lra.
  exists counts. split; [exact E|]. split; [exact Hl|]. split; [exact Hz|].
  assert (Hlr : counts = lr_assign c ideal).
  { unfold parse_user_mixture in E. fold ideal in E.
    destruct (negb (forallb _ um)); [discriminate|]. destruct (_ <? 0) eqn:E0; [discriminate|].
    destruct (_ && _); [discriminate|]. destruct (negb _); [discriminate|]. injection E as E.
    assert (Hcc : forall (a : list mkey) (x y : list Z), length x = length a -> length y = length a -> combine a x = combine a y -> x = y).
    { clear. induction a as [|a l IH]; intros [|x xs] [|y ys] H1 H2 H; cbn in *; try discriminate; auto. injection H as -> H. f_equal. eapply IH; eauto. }
    unfold lr_assign. cbn [exactly] in E. unfold exactly in E.
    set (fracs := map (fun x => (x - inject_Z (qtrunc x))%Q) ideal) in *.
    pose proof (lr_r_range c ideal Hid Hsi) as Hr.
    rewrite dist_loop_cyc in E.
    2:{ rewrite sort_fp_length by reflexivity. unfold fracs. rewrite map_length. lia. }
    cbn [skipn] in E. rewrite Z2Nat.id in E by lia.
    replace (length fracs) with (length ideal) in E by (unfold fracs; rewrite map_length; reflexivity).
    symmetry. eapply Hcc; [| |exact E]; rewrite map_length; [|exact Hl].
    rewrite dist_loop_length, map_length. unfold ideal. rewrite map_length. reflexivity. }
  subst counts. split; [apply lr_nonneg; assumption|].
  intros i k w Hi. apply (lr_round c ideal Hid Hsi). unfold ideal. rewrite nth_error_map, Hi. reflexivity.
Qed.

Lemma isclose1_pos t : isclose1 t = true -> (0 < t)%Q.
Proof.
  unfold isclose1. rewrite Qle_bool_iff. intros H. apply Qnot_le_lt. intros Ht.
  assert (E1 : (Qabs (t - 1) == 1 - t)%Q).
  { rewrite Qabs_neg by lra. ring. }
  assert (E2 : (Qabs t == - t)%Q) by (apply Qabs_neg; lra).
  rewrite E1 in H. destruct (Q.max_spec (Qabs t) 1) as [[_ E]|[_ E]]; rewrite E in H; [lra|]. rewrite E2 in H. lra.
Qed.

Lemma fsum_exact l : (fsum exactly l == qsum l)%Q.
Proof.
  unfold fsum, exactly. assert (H : forall a, (fold_left (fun acc x => acc + x) l a == a + qsum l)%Q).
  { induction l as [|x l IH]; intros a; cbn [fold_left]; [cbn; ring|]. rewrite IH, qsum_cons. ring. }
  rewrite H. ring.
Qed.

Lemma isclose1_compat a b : (a == b)%Q -> isclose1 a = isclose1 b.
Proof.
  intros H. unfold isclose1. apply Bool.eq_iff_eq_true. rewrite !Qle_bool_iff. rewrite H. reflexivity.
Qed.

(** ** Floating point: one operation is off by a factor of at most 1 +- u *)
Section Float.
  Variables (fl : Q -> Q) (u : Q).
  Hypothesis Hu : (0 <= u)%Q.
  Hypothesis Hu1 : (u <= 1 # 2)%Q.
  Hypothesis Hfl : forall x, (0 <= x)%Q -> ((1 - u) * x <= fl x)%Q /\ (fl x <= (1 + u) * x)%Q.

  Lemma fl_nonneg x : (0 <= x)%Q -> (0 <= fl x)%Q.
  Proof. intros H. destruct (Hfl x H) as [H1 _]. eapply Qle_trans; [|exact H1]. apply Qmult_le_0_compat; lra. Qed.

  Lemma fsum_bounds l : Forall (fun x => (0 <= x)%Q) l ->
    (inject_Z (Z.of_nat (length l)) * u <= 1)%Q ->
    (0 <= fsum fl l)%Q
    /\ ((1 - inject_Z (Z.of_nat (length l)) * u) * qsum l <= fsum fl l)%Q
    /\ (fsum fl l * (1 - inject_Z (Z.of_nat (length l)) * u) <= qsum l)%Q.
  Proof.
    unfold fsum.
    enough (G : forall l a A k, Forall (fun x => (0 <= x)%Q) l -> (0 <= k)%Q -> (0 <= a)%Q -> (0 <= A)%Q ->
      ((k + inject_Z (Z.of_nat (length l))) * u <= 1)%Q ->
      ((1 - k * u) * A <= a)%Q -> (a * (1 - k * u) <= A)%Q ->
      (0 <= fold_left (fun acc x => fl (acc + x)) l a)%Q
      /\ ((1 - (k + inject_Z (Z.of_nat (length l))) * u) * (A + qsum l) <= fold_left (fun acc x => fl (acc + x)) l a)%Q
      /\ (fold_left (fun acc x => fl (acc + x)) l a * (1 - (k + inject_Z (Z.of_nat (length l))) * u) <= A + qsum l)%Q).
    { intros Hl Hn. destruct (G l 0%Q 0%Q 0%Q Hl) as (G1 & G2 & G3); lra. }
    clear l. induction l as [|x l IH]; intros a A k Hl Hk Ha HA Hku H1 H2.
    - cbn [fold_left length qsum fold_right]. change (inject_Z (Z.of_nat 0)) with 0%Q in *. split; [exact Ha|]. split.
      + setoid_replace ((1 - (k + 0) * u) * (A + 0))%Q with ((1 - k * u) * A)%Q by ring. exact H1.
      + setoid_replace (a * (1 - (k + 0) * u))%Q with (a * (1 - k * u))%Q by ring. lra.
    - inversion Hl as [|? ? Hx Hl']; subst. cbn [fold_left length]. rewrite qsum_cons.
      assert (Hax : (0 <= a + x)%Q) by lra. destruct (Hfl _ Hax) as [F1 F2].
      cbn [length] in Hku.
      assert (EN : (inject_Z (Z.of_nat (S (length l))) == inject_Z (Z.of_nat (length l)) + 1)%Q)
        by (rewrite Nat2Z.inj_succ; unfold Z.succ; rewrite inject_Z_plus; reflexivity).
      rewrite EN in Hku |- *.
      assert (Hlen : (0 <= inject_Z (Z.of_nat (length l)))%Q) by (change 0%Q with (inject_Z 0); rewrite <- Zle_Qle; lia).
      assert (Hlu : (0 <= inject_Z (Z.of_nat (length l)) * u)%Q) by (apply Qmult_le_0_compat; lra).
      assert (Hk1u : ((k + 1) * u <= 1)%Q) by lra.
      assert (Hku0 : (0 <= k * u)%Q) by (apply Qmult_le_0_compat; lra).
      destruct (IH (fl (a + x))%Q (A + x)%Q (k + 1)%Q Hl') as (G1 & G2 & G3).
      + lra.
      + apply fl_nonneg, Hax.
      + lra.
      + setoid_replace ((k + 1 + inject_Z (Z.of_nat (length l))) * u)%Q with ((k + (inject_Z (Z.of_nat (length l)) + 1)) * u)%Q by ring. exact Hku.
      + eapply Qle_trans; [|exact F1].
        assert (P1 : ((1 - (k + 1) * u) * A <= (1 - u) * a)%Q).
        { assert ((1 - u) * ((1 - k * u) * A) <= (1 - u) * a)%Q by nra.
          assert (0 <= k * u * u * A)%Q by (apply Qmult_le_0_compat; [apply Qmult_le_0_compat; lra|lra]). lra. }
        assert (P2 : ((1 - (k + 1) * u) * x <= (1 - u) * x)%Q) by nra.
        lra.
      + assert (P0 : (0 <= 1 - (k + 1) * u)%Q) by lra.
        assert (P1 : (fl (a + x) * (1 - (k + 1) * u) <= (1 + u) * (a + x) * (1 - (k + 1) * u))%Q) by nra.
        assert (P2 : ((1 + u) * (1 - (k + 1) * u) <= 1 - k * u)%Q) by nra.
        assert (P3 : ((1 + u) * (1 - (k + 1) * u) * (a + x) <= (1 - k * u) * (a + x))%Q) by nra.
        assert (P4 : ((1 - k * u) * x <= x)%Q) by nra.
        lra.
      + split; [exact G1|]. split.
        * setoid_replace ((1 - (k + (inject_Z (Z.of_nat (length l)) + 1)) * u) * (A + (x + qsum l)))%Q
            with ((1 - (k + 1 + inject_Z (Z.of_nat (length l))) * u) * (A + x + qsum l))%Q by ring. exact G2.
        * setoid_replace (1 - (k + (inject_Z (Z.of_nat (length l)) + 1)) * u)%Q with (1 - (k + 1 + inject_Z (Z.of_nat (length l))) * u)%Q by ring. lra.
  Qed.

  (** Computed value [y] of an exact value [x] after a division by the total and a multiplication. *)
  Definition near (nu x y : Q) : Prop := ((1 - u) * (1 - u) * (1 - nu) * x <= y /\ y * (1 - nu) <= (1 + u) * (1 + u) * x)%Q.

  Lemma near_sum nu l l' : Forall2 (near nu) l l' -> near nu (qsum l) (qsum l').
  Proof.
    induction 1 as [|x y l l' [H1 H2] Hl [I1 I2]]; [split; cbn; lra|]. rewrite !qsum_cons. split; lra.
  Qed.

  Lemma near_close n c x y : (0 <= n)%Q -> (0 <= c)%Q -> (0 <= x <= c)%Q -> near (n * u) x y ->
    ((c + 1) * (n + 3) * u < 1)%Q -> (x - (c + 1) * (n + 3) * u <= y <= x + (c + 1) * (n + 3) * u)%Q.
  Proof.
    intros Hn Hc [Hx Hxc] [H1 H2] He.
    set (e := ((c + 1) * (n + 3) * u)%Q) in *.
    assert (Hnu : (0 <= n * u)%Q) by (apply Qmult_le_0_compat; assumption).
    assert (Hcu : (0 <= c * u)%Q) by (apply Qmult_le_0_compat; assumption).
    assert (Hcnu : (0 <= c * (n * u))%Q) by (apply Qmult_le_0_compat; assumption).
    assert (Ee : (e == c * (n * u) + 3 * (c * u) + n * u + 3 * u)%Q) by (unfold e; ring).
    assert (Hxu : (0 <= x * u <= c * u)%Q) by (split; [apply Qmult_le_0_compat; assumption|nra]).
    assert (Hxnu : (0 <= x * (n * u) <= c * (n * u))%Q) by (split; [apply Qmult_le_0_compat; assumption|nra]).
    split.
    - assert (P : ((1 - (n * u) - 2 * u) * x <= (1 - u) * (1 - u) * (1 - n * u) * x)%Q).
      { assert (Q0 : (1 - n * u - 2 * u <= (1 - u) * (1 - u) * (1 - n * u))%Q).
        { assert (E : ((1 - u) * (1 - u) * (1 - n * u) == 1 - n * u - 2 * u + u * u * (1 - n * u) + 2 * (u * (n * u)))%Q) by ring.
          rewrite E. assert (0 <= u * u * (1 - n * u))%Q by (apply Qmult_le_0_compat; [apply Qmult_le_0_compat; assumption|lra]).
          assert (0 <= u * (n * u))%Q by (apply Qmult_le_0_compat; assumption). lra. }
        apply Qmult_le_compat_r; assumption. }
      lra.
    - assert (Hd : (0 < 1 - n * u)%Q) by lra.
      assert (P : ((1 + u) * (1 + u) * x <= (x + e) * (1 - n * u))%Q).
      { assert (E1 : ((1 + u) * (1 + u) * x <= x + 3 * (x * u))%Q).
        { assert (x * u * u <= x * u * (1 # 2))%Q by nra. lra. }
        assert (E2 : (e * (n * u) <= n * u)%Q) by nra.
        lra. }
      apply (Qmult_le_r _ _ _ Hd). lra.
  Qed.

  Lemma static_float c mix :
    let n := inject_Z (Z.of_nat (length mix)) in
    let cq := inject_Z c in
    0 <= c -> Forall (fun kv => (0 <= snd kv)%Q) mix ->
    isclose1 (fsum fl (map snd mix)) = true ->
    ((cq + 1) * (n + 3) * u < 1)%Q ->
    exists counts, static_mixture fl c mix = Ok (combine (map fst mix) counts)
      /\ length counts = length mix /\ zsum counts = c /\ Forall (fun v => 0 <= v) counts
      /\ forall i k w, nth_error mix i = Some (k, w) -> exists v, nth_error counts i = Some v
           /\ (Qabs (inject_Z v - cq * w / qsum (map snd mix)) <= 1 + (cq + 1) * (n + 3) * u)%Q.
  Proof.
    intros n cq Hc Hmix Hcl He.
    assert (Hcq : (0 <= cq)%Q) by (unfold cq; change 0%Q with (inject_Z 0); rewrite <- Zle_Qle; exact Hc).
    assert (Hn : (0 <= n)%Q) by (unfold n; change 0%Q with (inject_Z 0); rewrite <- Zle_Qle; lia).
    set (t := fsum fl (map snd mix)) in *. set (S := qsum (map snd mix)) in *.
    pose proof (isclose1_pos t Hcl) as Ht.
    assert (Hws : Forall (fun x => (0 <= x)%Q) (map snd mix)) by (rewrite Forall_map; exact Hmix).
    assert (Hnu : (0 <= n * u)%Q) by (apply Qmult_le_0_compat; assumption).
    assert (Hcu : (0 <= cq * u)%Q) by (apply Qmult_le_0_compat; assumption).
    assert (Hcnu : (0 <= cq * (n * u))%Q) by (apply Qmult_le_0_compat; assumption).
    assert (Hnu1 : (n * u < 1)%Q) by lra.
    destruct (fsum_bounds (map snd mix) Hws) as (_ & B1 & B2); [rewrite map_length; fold n; lra|].
    rewrite map_length in B1, B2. fold n S t in B1, B2.
    assert (HS : (0 < S)%Q).
    { eapply Qlt_le_trans; [|exact B2]. apply Qmult_lt_0_compat; lra. }
    set (um := map (fun kv : mkey * Q => (fst kv, fl (snd kv / t)%Q)) mix).
    set (ideal := map (fun kv : mkey * Q => fl (cq * snd kv)%Q) um).
    set (ex := map (fun kv : mkey * Q => (cq * snd kv / S)%Q) mix).
    assert (Hvn : forall w, (0 <= w)%Q -> (0 <= w / t)%Q) by (intros w Hw; apply Qle_shift_div_l; lra).
    assert (Hum : Forall (fun kv => (0 <= snd kv)%Q) um).
    { unfold um. rewrite Forall_map. eapply Forall_impl; [|exact Hmix]. cbn. intros kv Hkv. apply fl_nonneg, Hvn, Hkv. }
    assert (Hid : Forall (fun x => (0 <= x)%Q) ideal).
    { unfold ideal. rewrite Forall_map. eapply Forall_impl; [|exact Hum]. cbn. intros kv Hkv. apply fl_nonneg, Qmult_le_0_compat; assumption. }
    assert (Hnear1 : forall w, (0 <= w)%Q -> near (n * u) (cq * w / S) (fl (cq * fl (w / t)))).
    { intros w Hw. set (q := (w / t)%Q). assert (Hq : (0 <= q)%Q) by (apply Hvn, Hw). destruct (Hfl q Hq) as [V1 V2].
      assert (Hfq : (0 <= fl q)%Q) by (apply fl_nonneg, Hq).
      assert (Hcf : (0 <= cq * fl q)%Q) by (apply Qmult_le_0_compat; assumption). destruct (Hfl _ Hcf) as [Y1 Y2].
      set (x := (cq * w / S)%Q). set (y := fl (cq * fl q)) in *.
      assert (Hqt : (q * t == w)%Q) by (unfold q; field; lra).
      assert (HxS : (x * S == cq * (q * t))%Q) by (rewrite Hqt; unfold x; field; lra).
      assert (Hcqq : (0 <= cq * q)%Q) by (apply Qmult_le_0_compat; assumption).
      assert (Hx : (0 <= x)%Q) by (apply Qle_shift_div_l; [lra|]; assert (0 <= cq * w)%Q by (apply Qmult_le_0_compat; assumption); lra).
      (* x vs cq*q *)
      assert (X1 : (x * (1 - n * u) <= cq * q)%Q).
      { apply (Qmult_le_r _ _ _ HS).
        assert (E : (x * (1 - n * u) * S == cq * q * (t * (1 - n * u)))%Q) by (transitivity (x * S * (1 - n * u))%Q; [ring|rewrite HxS; ring]).
        rewrite E. rewrite (Qmult_comm (cq * q)), (Qmult_comm (cq * q)). apply Qmult_le_compat_r; [exact B2|exact Hcqq]. }
      assert (X2 : (cq * q * (1 - n * u) <= x)%Q).
      { apply (Qmult_le_r _ _ _ HS).
        assert (E : (x * S == t * (cq * q))%Q) by (rewrite HxS; ring). rewrite E.
        assert (E2 : (cq * q * (1 - n * u) * S == (1 - n * u) * S * (cq * q))%Q) by ring. rewrite E2.
        apply Qmult_le_compat_r; [exact B1|exact Hcqq]. }
      assert (W1 : ((1 - u) * (cq * q) <= cq * fl q)%Q).
      { setoid_replace ((1 - u) * (cq * q))%Q with ((1 - u) * q * cq)%Q by ring. setoid_replace (cq * fl q)%Q with (fl q * cq)%Q by ring.
        apply Qmult_le_compat_r; assumption. }
      assert (W2 : (cq * fl q <= (1 + u) * (cq * q))%Q).
      { setoid_replace ((1 + u) * (cq * q))%Q with ((1 + u) * q * cq)%Q by ring. setoid_replace (cq * fl q)%Q with (fl q * cq)%Q by ring.
        apply Qmult_le_compat_r; assumption. }
      split.
      - eapply Qle_trans; [|exact Y1].
        assert (Z1 : ((1 - u) * ((1 - u) * (x * (1 - n * u))) <= (1 - u) * (cq * fl q))%Q) by nra.
        lra.
      - assert (Z1 : (y * (1 - n * u) <= (1 + u) * ((1 + u) * (cq * q)) * (1 - n * u))%Q).
        { apply Qmult_le_compat_r; [|lra]. eapply Qle_trans; [exact Y2|]. nra. }
        eapply Qle_trans; [exact Z1|].
        assert (Z2 : ((1 + u) * (1 + u) * (cq * q * (1 - n * u)) <= (1 + u) * (1 + u) * x)%Q) by nra. lra. }
    assert (Hnear : Forall2 (near (n * u)) ex ideal).
    { unfold ex, ideal, um. rewrite map_map. clear - Hmix Hnear1. clearbody n t S. induction mix as [|[k w] l IH]; cbn [map]; [constructor|].
      inversion Hmix; subst. constructor; [apply Hnear1; assumption|]. apply IH; assumption. }
    assert (Hex : (qsum ex == cq)%Q).
    { transitivity (cq * (S / S))%Q; [|field; lra]. unfold ex. unfold S at 2. clear - HS. clearbody S.
      induction mix as [|[k w] l IH]; cbn [map snd]; [cbn; field; lra|]. rewrite !qsum_cons, IH. field. lra. }
    pose proof (near_sum _ _ _ Hnear) as Hns.
    assert (Hxs : (0 <= qsum ex <= cq)%Q) by (rewrite Hex; lra).
    pose proof (near_close n cq _ _ Hn Hcq Hxs Hns He) as Hclose. rewrite Hex in Hclose.
    assert (Hne : mix <> []) by (intros ->; cbn in HS; lra).
    destruct (parse_core fl c um) as (counts & E & Hl & Hz & Hr); fold cq; fold ideal; auto.
    { unfold um. destruct mix; [congruence|discriminate]. }
    { lra. } { lra. }
    fold cq in Hr. fold ideal in Hr.
    exists counts. assert (Hlum : length um = length mix) by (unfold um; apply map_length).
    split.
    { unfold static_mixture. fold t. rewrite Hcl. cbn [negb]. fold um. rewrite E. unfold um. rewrite map_map. reflexivity. }
    split; [congruence|]. split; [exact Hz|].
    assert (Hall : forall i k w, nth_error mix i = Some (k, w) -> exists v, nth_error counts i = Some v
           /\ 0 <= v /\ (Qabs (inject_Z v - cq * w / S) <= 1 + (cq + 1) * (n + 3) * u)%Q).
    { intros i k w Hi.
      assert (Hw : (0 <= w)%Q) by (rewrite Forall_forall in Hmix; apply (Hmix (k, w)); eapply nth_error_In; exact Hi).
      destruct (Hr i (fl (cq * fl (w / t)))) as (v & Hv & Hor).
      { unfold ideal, um. rewrite !nth_error_map, Hi. reflexivity. }
      exists v. split; [exact Hv|].
      assert (Hy : (0 <= fl (cq * fl (w / t)))%Q) by (apply fl_nonneg, Qmult_le_0_compat; [assumption|apply fl_nonneg, Hvn, Hw]).
      pose proof (qtrunc_bounds _ Hy) as Hb. pose proof (qtrunc_nonneg _ Hy) as Hp.
      split; [lia|].
      assert (Hx : (0 <= cq * w / S <= cq)%Q).
      { assert (0 <= cq * w)%Q by (apply Qmult_le_0_compat; assumption). split; [apply Qle_shift_div_l; lra|].
        apply Qle_shift_div_r; [lra|]. 
        assert (w <= S)%Q.
        { unfold S. clear - Hi Hmix. revert i Hi. induction mix as [|[k' w'] l IH]; intros [|i] Hi; cbn in Hi; try discriminate; inversion Hmix; subst; cbn [map snd]; rewrite qsum_cons.
          - injection Hi as -> ->. assert (0 <= qsum (map snd l))%Q by (apply qsum_nonneg; rewrite Forall_map; assumption). lra.
          - specialize (IH H2 _ Hi). cbn in H1. lra. }
        nra. }
      pose proof (near_close n cq _ _ Hn Hcq Hx (Hnear1 w Hw) He) as Hc2.
      apply Qabs_Qle_condition. destruct Hor as [->| ->]; [|rewrite inject_Z_plus; change (inject_Z 1) with 1%Q]; split; lra. }
    split.
    - rewrite Forall_forall. intros v Hv. apply In_nth_error in Hv as (i & Hi).
      destruct (nth_error mix i) as [[k w]|] eqn:Em.
      + destruct (Hall i k w Em) as (v' & Hv' & H0 & _). congruence.
      + apply nth_error_None in Em. assert (i < length counts)%nat by (apply nth_error_Some; congruence). lia.
    - intros i k w Hi. destruct (Hall i k w Hi) as (v & ? & ? & ?). eauto.
  Qed.
End Float.
