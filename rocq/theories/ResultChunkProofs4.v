(** Proofs about the element counts of a window. *)
From Verif Require Import Base MixtureKeyModel UtilsModel UtilsProofs ChunkGenModel MixtureModel TokenModel ResultChunkModel ResultChunkProofs2.
From Coq Require Import QArith Qabs Qround Lqa Lia.
Open Scope Z_scope.

Lemma inj_le a b : a <= b -> (inject_Z a <= inject_Z b)%Q.
Proof. rewrite Zle_Qle. auto. Qed.

(** One count: [w * (v / c)] in floats, truncated. *)
Lemma float_share (fl : Q -> Q) (u : Q) w v c :
  (0 <= u)%Q -> (u <= 1)%Q -> (forall x, (0 <= x)%Q -> (Qabs (fl x - x) <= x * u)%Q) ->
  0 < c -> 0 <= v <= c -> 0 <= w -> (3 * u * inject_Z (w * c) < 1)%Q ->
  let f := qtrunc (fl (inject_Z w * fl (inject_Z v / inject_Z c))%Q) in
  w * v / c - 1 <= f <= w * v / c /\ 0 <= f /\ ((u == 0)%Q -> f = w * v / c).
Proof.
  intros Hu Hu1 Hfl Hc [Hv0 Hvc] Hw Hsm f.
  assert (Hcq : (0 < inject_Z c)%Q) by (change 0%Q with (inject_Z 0); rewrite <- Zlt_Qlt; exact Hc).
  assert (Hvq : (0 <= inject_Z v)%Q) by (change 0%Q with (inject_Z 0); apply inj_le; lia).
  assert (Hwq : (0 <= inject_Z w)%Q) by (change 0%Q with (inject_Z 0); apply inj_le; lia).
  assert (Hfl' : forall x, (0 <= x)%Q -> (x - x * u <= fl x)%Q /\ (fl x <= x + x * u)%Q).
  { intros x Hx. specialize (Hfl x Hx). apply Qabs_Qle_condition in Hfl. split; lra. }
  assert (Hpos : forall x, (0 <= x)%Q -> (0 <= fl x)%Q).
  { intros x Hx. destruct (Hfl' x Hx) as [H _]. assert (x * u <= x * 1)%Q by (apply Qmult_le_compat_nonneg; lra). lra. }
  set (z := (inject_Z v / inject_Z c)%Q) in *.
  assert (Hz : (0 <= z)%Q) by (unfold z; apply Qle_shift_div_l; [exact Hcq|lra]).
  assert (Hz1 : (z <= 1)%Q) by (unfold z; apply Qle_shift_div_r; [exact Hcq|]; rewrite Qmult_1_l; apply inj_le; lia).
  set (y := (inject_Z w * fl z)%Q) in *.
  assert (Hy : (0 <= y)%Q) by (apply Qmult_le_0_compat; auto).
  set (X := (inject_Z w * z)%Q).
  assert (HX0 : (0 <= X)%Q) by (apply Qmult_le_0_compat; auto).
  assert (HXw : (X <= inject_Z w)%Q) by (unfold X; rewrite <- (Qmult_1_r (inject_Z w)) at 2; apply Qmult_le_compat_nonneg; lra).
  destruct (Hfl' z Hz) as [Z1 Z2]. destruct (Hfl' y Hy) as [Y1 Y2].
  assert (YX1 : (X - X * u <= y)%Q).
  { unfold y, X. setoid_replace (inject_Z w * z - inject_Z w * z * u)%Q with (inject_Z w * (z - z * u))%Q by ring.
    apply Qmult_le_compat_nonneg; [lra|]. split; [|exact Z1]. assert (z * u <= z * 1)%Q by (apply Qmult_le_compat_nonneg; lra). lra. }
  assert (YX2 : (y <= X + X * u)%Q).
  { unfold y, X. setoid_replace (inject_Z w * z + inject_Z w * z * u)%Q with (inject_Z w * (z + z * u))%Q by ring.
    apply Qmult_le_compat_nonneg; [lra|]. split; [auto|exact Z2]. }
  assert (HXu : (0 <= X * u <= inject_Z w * u)%Q).
  { split; [apply Qmult_le_0_compat; assumption|]. apply Qmult_le_compat_r; assumption. }
  assert (Hyu : (y * u <= X * u + X * u)%Q).
  { assert (y * u <= (X + X * u) * u)%Q by (apply Qmult_le_compat_r; assumption).
    assert (X * u * u <= X * u * 1)%Q by (apply Qmult_le_compat_nonneg; lra). lra. }
  assert (Hlo : (X - 3 * (inject_Z w * u) <= fl y)%Q) by lra.
  assert (Hhi : (fl y <= X + 3 * (inject_Z w * u))%Q) by lra.
  set (q := w * v / c).
  pose proof (Z.div_mod (w * v) c ltac:(lia)) as Ed. pose proof (Z.mod_pos_bound (w * v) c Hc) as Em. fold q in Ed. set (r := (w * v) mod c) in *.
  assert (EX : (X * inject_Z c == inject_Z c * inject_Z q + inject_Z r)%Q).
  { unfold X, z. rewrite <- inject_Z_mult, <- inject_Z_plus, <- Ed, inject_Z_mult. field. lra. }
  assert (Hr : (0 <= inject_Z r)%Q /\ (inject_Z r <= inject_Z c - 1)%Q).
  { split; [change 0%Q with (inject_Z 0); apply inj_le; lia|]. change (inject_Z c - 1)%Q with (inject_Z c + inject_Z (-1))%Q. rewrite <- inject_Z_plus. apply inj_le. lia. }
  assert (Hwu : (3 * (inject_Z w * u) * inject_Z c < 1)%Q) by (rewrite inject_Z_mult in Hsm; lra).
  assert (HXq : (inject_Z q <= X)%Q).
  { apply Qmult_lt_0_le_reg_r with (z := inject_Z c); [exact Hcq|]. rewrite EX. lra. }
  assert (Hc1 : (1 <= inject_Z c)%Q) by (change 1%Q with (inject_Z 1); apply inj_le; lia).
  assert (Hwu0 : (0 <= inject_Z w * u)%Q) by (apply Qmult_le_0_compat; assumption).
  assert (Hwu1 : (3 * (inject_Z w * u) < 1)%Q).
  { apply Qle_lt_trans with (2 := Hwu). rewrite <- (Qmult_1_r (3 * (inject_Z w * u))) at 1. apply Qmult_le_compat_nonneg; lra. }
  destruct (qtrunc_bounds (fl y) (Hpos y Hy)) as [T1 T2]. fold f in T1, T2.
  assert (F0 : 0 <= f) by (apply qtrunc_nonneg; auto).
  assert (Fhi : f <= q).
  { apply Z.lt_succ_r. rewrite Zlt_Qlt. unfold Z.succ. rewrite inject_Z_plus. change (inject_Z 1) with 1%Q.
    apply Qmult_lt_r with (z := inject_Z c); [exact Hcq|].
    apply Qle_lt_trans with ((X + 3 * (inject_Z w * u)) * inject_Z c)%Q; [apply Qmult_le_compat_r; lra|]. lra. }
  split; [split; [|exact Fhi]|split; [exact F0|]].
  - assert (q - 2 < f); [|lia]. rewrite Zlt_Qlt. change (q - 2) with (q + -2). rewrite inject_Z_plus. change (inject_Z (-2)) with (- (2))%Q. lra.
  - intros E. assert (Hw0 : (inject_Z w * u == 0)%Q) by (rewrite E; ring).
    assert (q - 1 < f); [|lia]. rewrite Zlt_Qlt. change (q - 1) with (q + -1). rewrite inject_Z_plus. change (inject_Z (-1)) with (- (1))%Q. lra.
Qed.

Lemma zsum_floor_le (w c : Z) (l : list Z) : 0 < c -> 0 <= w -> Forall (fun v => 0 <= v) l -> zsum (map (fun v => w * v / c) l) <= w * zsum l / c.
Proof.
  intros Hc Hw. induction 1 as [|v l Hv _ IH]; [cbn; rewrite Z.mul_0_r, Z.div_0_l; lia|]. cbn [map]. rewrite !zsum_cons.
  rewrite Z.mul_add_distr_l. etransitivity; [apply Z.add_le_mono_l, IH|].
  pose proof (Z.div_mod (w * v) c ltac:(lia)). pose proof (Z.div_mod (w * zsum l) c ltac:(lia)).
  pose proof (Z.mod_pos_bound (w * v) c Hc). pose proof (Z.mod_pos_bound (w * zsum l) c Hc).
  apply Z.div_le_lower_bound; [exact Hc|]. nia.
Qed.

Lemma zsum_ge_floor (w c : Z) (l : list Z) (g : Z -> Z) : 0 < c -> (forall v, In v l -> w * v / c - 1 <= g v) ->
  w * zsum l / c - 2 * Z.of_nat (length l) <= zsum (map g l).
Proof.
  intros Hc. induction l as [|v l IH]; intros H; [cbn; rewrite Z.mul_0_r, Z.div_0_l; lia|]. cbn [map length]. rewrite !zsum_cons.
  specialize (IH (fun v Hv => H v (or_intror Hv))). pose proof (H v (or_introl eq_refl)) as H0.
  assert (w * (v + zsum l) / c <= w * v / c + w * zsum l / c + 1); [|lia].
  rewrite Z.mul_add_distr_l.
  pose proof (Z.div_mod (w * v) c ltac:(lia)). pose proof (Z.div_mod (w * zsum l) c ltac:(lia)).
  pose proof (Z.mod_pos_bound (w * v) c Hc). pose proof (Z.mod_pos_bound (w * zsum l) c Hc).
  apply Z.lt_succ_r. apply Z.div_lt_upper_bound; [exact Hc|]. nia.
Qed.

(** The counts of a window: they sum to the window; every key but the first gets its share rounded down, or one less
    because of float rounding; the first gets the rest. *)
Lemma element_counts_spec (fl : Q -> Q) (u : Q) w c (mix : list (mkey * Z)) :
  (0 <= u)%Q -> (u <= 1)%Q -> (forall x, (0 <= x)%Q -> (Qabs (fl x - x) <= x * u)%Q) ->
  0 < c -> 0 <= w -> (3 * u * inject_Z (w * c) < 1)%Q ->
  Forall (fun kv => 0 <= snd kv) mix -> zsum (map snd mix) = c ->
  exists ec, element_counts fl w c mix = Ok ec
    /\ map fst ec = map fst mix /\ zsum (map snd ec) = w /\ Forall (fun kn => 0 <= snd kn) ec
    /\ (forall i k v, nth_error mix i = Some (k, v) -> exists n, nth_error ec i = Some (k, n)
          /\ w * v / c - 1 <= n <= w * v / c + 2 * Z.of_nat (length mix)
          /\ (i <> 0%nat -> n <= w * v / c /\ ((u == 0)%Q -> n = w * v / c)) /\ ((u == 0)%Q -> w * v / c <= n)).
Proof.
  intros Hu Hu1 Hfl Hc Hw Hsm Hpos Hsum. unfold element_counts.
  replace (c =? 0) with false by (symmetry; apply Z.eqb_neq; lia). cbn [andb].
  set (g := fun v => qtrunc (fl (inject_Z w * fl (inject_Z v / inject_Z c))%Q)).
  change (map (fun kv : mkey * Z => (fst kv, qtrunc (fl (inject_Z w * fl (inject_Z (snd kv) / inject_Z c))%Q))) mix)
    with (map (fun kv : mkey * Z => (fst kv, g (snd kv))) mix).
  assert (Hle : forall l : list (mkey * Z), Forall (fun kv => 0 <= snd kv) l -> 0 <= zsum (map snd l)).
  { induction 1 as [|x l H _ IH]; [cbn; lia|]. cbn [map]. rewrite zsum_cons. lia. }
  assert (Hin : forall k v, In (k, v) mix -> 0 <= v <= c).
  { intros k v H. split; [rewrite Forall_forall in Hpos; apply (Hpos _ H)|].
    apply in_split in H as (l1 & l2 & ->). rewrite map_app in Hsum. cbn [map] in Hsum.
    assert (E : forall a b, zsum (a ++ b) = zsum a + zsum b). { induction a as [|x a IH]; intros b; cbn [app]; rewrite ?zsum_cons; [cbn; lia|]. rewrite IH. lia. }
    rewrite E, zsum_cons in Hsum. apply Forall_app in Hpos as [P1 P2]. inversion P2; subst. pose proof (Hle _ P1). pose proof (Hle l2 ltac:(assumption)). cbn in *. lia. }
  assert (Hg : forall k v, In (k, v) mix -> w * v / c - 1 <= g v <= w * v / c /\ 0 <= g v /\ ((u == 0)%Q -> g v = w * v / c)).
  { intros k v H. apply (float_share fl u w v c); auto. eapply Hin; exact H. }
  destruct mix as [|[k0 v0] l]; [cbn in Hsum; lia|].
  cbn [map fst snd length]. eexists. split; [reflexivity|].
  rewrite !map_map. cbn [fst snd map]. rewrite map_map. cbn [fst snd].
  set (rest := zsum (map (fun x : mkey * Z => g (snd x)) l)).
  assert (Hsv : v0 + zsum (map snd l) = c) by (cbn [map snd] in Hsum; rewrite zsum_cons in Hsum; exact Hsum).
  clear Hsum. inversion Hpos as [|? ? Hv0 Hposl]; subst. cbn [snd] in Hv0. rewrite zsum_cons. fold rest.
  assert (Er : rest = zsum (map g (map snd l))) by (unfold rest; rewrite map_map; reflexivity).
  assert (Hrest : rest <= w * zsum (map snd l) / (v0 + zsum (map snd l))).
  { rewrite Er. etransitivity; [|apply zsum_floor_le; [exact Hc|exact Hw|rewrite Forall_map; exact Hposl]].
    rewrite map_map, (map_map snd). apply zsum_map_le. intros [k v] H. cbn. apply (Hg k v). right. exact H. }
  assert (Hrest2 : w * zsum (map snd l) / (v0 + zsum (map snd l)) - 2 * Z.of_nat (length l) <= rest).
  { rewrite Er, <- (map_length snd l). apply zsum_ge_floor; [exact Hc|]. intros v Hv. apply in_map_iff in Hv as ([k v'] & <- & H). apply (Hg k v'). right. exact H. }
  set (C := v0 + zsum (map snd l)) in *. set (R := zsum (map snd l)) in *.
  assert (HR : 0 <= R) by (apply Hle, Hposl).
  assert (HwR : w * R / C <= w).
  { replace w with (w * C / C) at 2 by (apply Z.div_mul; lia). apply Z.div_le_mono; [exact Hc|]. unfold C. nia. }
  assert (Hsplit : w * v0 / C + w * R / C <= w <= w * v0 / C + w * R / C + 1).
  { pose proof (Z.div_mod (w * v0) C ltac:(lia)). pose proof (Z.div_mod (w * R) C ltac:(lia)).
    pose proof (Z.mod_pos_bound (w * v0) C Hc). pose proof (Z.mod_pos_bound (w * R) C Hc).
    set (q1 := w * v0 / C) in *. set (q2 := w * R / C) in *. set (m1 := (w * v0) mod C) in *. set (m2 := (w * R) mod C) in *. clearbody q1 q2 m1 m2.
    assert (w * C = C * (q1 + q2) + (m1 + m2)) by (unfold C; nia). split; nia. }
  split; [cbn [map fst]; rewrite ?map_map; reflexivity|]. split; [rewrite zsum_cons; rewrite map_map; cbn [snd]; lia|]. fold rest. split; [|].
  - constructor; [cbn [snd]; rewrite zsum_cons; fold rest; lia|]. rewrite Forall_map. apply Forall_forall. intros [k v] H. cbn. apply (Hg k v). right. exact H.
  - intros i k v Hi. destruct i as [|i].
    + cbn in Hi. injection Hi as <- <-. cbn [nth_error]. rewrite zsum_cons. fold rest. eexists. split; [reflexivity|].
      destruct (Hg k0 v0 (or_introl eq_refl)) as (G1 & G2 & G3). split; [split; lia|]. split; [congruence|]. intros _. lia.
    + cbn [nth_error] in Hi |- *. rewrite nth_error_map, Hi. cbn [option_map fst snd]. eexists. split; [reflexivity|].
      destruct (Hg k v (or_intror (nth_error_In _ _ Hi))) as (G1 & G2 & G3). split; [lia|]. split; [intros _; split; [lia|exact G3]|]. intros E. rewrite (G3 E). lia.
Qed.
