(** IEEE 754 binary64 and binary32 rounding (round to nearest, ties to even) of a rational number, without overflow,
    underflow and signed zeros: the result of one Python (or numpy) float operation whose exact value is the argument.  Used for concrete
    counterexamples; [fl64_close] shows that it satisfies the hypothesis of the theorems about float arithmetic. *)
From Verif Require Import Base.
From Coq Require Import QArith Qabs Qround Lqa Qpower Lia.
Open Scope Z_scope.

(** [n / d] rounded to the nearest integer, ties to even. *)
(** IEEE 754 4.3.1, for the float operations of result_chunk.py 467-489, utils.py 236-278, loss_avg.py 14-48 and ado.py 340-645. *)
Definition round_half_even (n d : Z) : Z :=
  let q := n / d in let r := n mod d in
  if 2 * r <? d then q else if d <? 2 * r then q + 1 else if Z.even q then q else q + 1.

(** [n * 2^s / d] as a pair of integers. *)
Definition scaled (n d s : Z) : Z * Z := if 0 <=? s then (n * 2 ^ s, d) else (n, d * 2 ^ (- s)).
(** IEEE 754, for the same float operations. *)
Definition unscale (m s : Z) : Q := if 0 <=? s then (inject_Z m / inject_Z (2 ^ s))%Q else inject_Z (m * 2 ^ (- s)).

(** Positive [n / d]: scale so that the quotient has [p] + 1 bits, round it, scale back. *)
Definition flp_pos (p n d : Z) : Q :=
  let e := Z.log2 n - Z.log2 d in
  let e' := let '(a, b) := scaled n d (- e) in if b <=? a then e else e - 1 in                 (* floor (log2 (n/d)) *)
  let s := p - e' in
  let '(a, b) := scaled n d s in Qred (unscale (round_half_even a b) s).
(** IEEE 754 rounding to [p] + 1 significant bits, for the same float operations; overflow and subnormals are not modelled. *)
Definition flp (p : Z) (x : Q) : Q :=
  match Qnum x with
  | Z0 => 0%Q
  | Zpos n => flp_pos p (Zpos n) (Zpos (Qden x))
  | Zneg n => (- flp_pos p (Zpos n) (Zpos (Qden x)))%Q
  end.
(** Python float and numpy float64: utils.py 236-278, ado.py 340-645. *)
Definition fl64 : Q -> Q := flp 52.
(** numpy float32: dynamic_mixing.py 22, loss_avg.py 14-48. *)
Definition fl32 : Q -> Q := flp 23.

Example fl64_tenth : fl64 (1 # 10) = (3602879701896397 # 36028797018963968)%Q.
Proof. vm_compute. reflexivity. Qed.
(** 0.1 + 0.2 = 0.30000000000000004 *)
Example fl64_sum : (fl64 (fl64 (1 # 10) + fl64 (2 # 10)) == 0.3000000000000000444089209850062616169452667236328125)%Q.
Proof. vm_compute. reflexivity. Qed.
(** 100 * (29 / 100) = 28.999999999999996 *)
Example fl64_29 : (fl64 (100 * fl64 (29 # 100)) == 28.999999999999996447286321199499070644378662109375)%Q.
Proof. vm_compute. reflexivity. Qed.

Lemma round_half_even_close n d : 0 < d -> Z.abs (2 * d * round_half_even n d - 2 * n) <= d.
Proof.
  intros Hd. unfold round_half_even. pose proof (Z.div_mod n d ltac:(lia)) as E. pose proof (Z.mod_pos_bound n d Hd) as B.
  set (q := n / d) in *. set (r := n mod d) in *. clearbody q r.
  destruct (Z.ltb_spec (2 * r) d); [nia|]. destruct (Z.ltb_spec d (2 * r)); [nia|]. destruct (Z.even q); nia.
Qed.

(** [p2 s] = 2^s as a rational. *)
Definition p2 (s : Z) : Q := (2 ^ s)%Q.
Lemma p2_pos s : (0 < p2 s)%Q.
Proof. apply Qpower_0_lt. reflexivity. Qed.
Lemma p2_add a b : (p2 (a + b) == p2 a * p2 b)%Q.
Proof. apply Qpower_plus. discriminate. Qed.
Lemma p2_Z s : 0 <= s -> (inject_Z (2 ^ s) == p2 s)%Q.
Proof. intros H. unfold p2. change 2%Q with (inject_Z 2). rewrite Zpower_Qpower by exact H. reflexivity. Qed.
Lemma p2_opp s : (p2 s * p2 (- s) == 1)%Q.
Proof. rewrite <- p2_add. replace (s + - s) with 0 by lia. reflexivity. Qed.

Lemma inj_pos d : 0 < d -> (0 < inject_Z d)%Q.
Proof. intros H. change 0%Q with (inject_Z 0). rewrite <- Zlt_Qlt. exact H. Qed.

Lemma scaled_spec n d s a b : 0 < n -> 0 < d -> scaled n d s = (a, b) ->
  0 < a /\ 0 < b /\ (inject_Z a / inject_Z b == inject_Z n / inject_Z d * p2 s)%Q.
Proof.
  intros Hn Hd H. unfold scaled in H. destruct (Z.leb_spec 0 s) as [Hs|Hs]; injection H as <- <-.
  - assert (0 < 2 ^ s) by (apply Z.pow_pos_nonneg; lia). split; [nia|]. split; [exact Hd|].
    rewrite inject_Z_mult, p2_Z by exact Hs. field. pose proof (inj_pos d Hd). lra.
  - assert (0 < 2 ^ (- s)) by (apply Z.pow_pos_nonneg; lia). split; [exact Hn|]. split; [nia|].
    rewrite inject_Z_mult, p2_Z by lia. pose proof (inj_pos d Hd). pose proof (p2_opp s) as E. pose proof (p2_pos (- s)). pose proof (p2_pos s).
    assert (E2 : (p2 s == / p2 (- s))%Q). { apply Qmult_inj_r with (z := p2 (- s)); [lra|]. rewrite E. field. lra. }
    rewrite E2. field. split; lra.
Qed.
Lemma unscale_spec m s : (unscale m s == inject_Z m * p2 (- s))%Q.
Proof.
  unfold unscale. destruct (Z.leb_spec 0 s) as [Hs|Hs].
  - rewrite p2_Z by exact Hs. pose proof (p2_opp s) as E. pose proof (p2_pos s).
    apply Qmult_inj_r with (z := p2 s); [lra|]. rewrite <- Qmult_assoc, (Qmult_comm (p2 (- s))), E. field. lra.
  - rewrite inject_Z_mult, p2_Z by lia. reflexivity.
Qed.

Lemma div_le (a b : Z) : 0 < b -> (b <= a <-> (1 <= inject_Z a / inject_Z b)%Q).
Proof.
  intros Hb. pose proof (inj_pos b Hb) as Hq. rewrite Zle_Qle. split; intros H.
  - apply Qle_shift_div_l; [exact Hq|]. lra.
  - assert (E : (inject_Z a == inject_Z a / inject_Z b * inject_Z b)%Q) by (field; lra). rewrite E. rewrite <- (Qmult_1_l (inject_Z b)) at 1.
    apply Qmult_le_compat_r; [exact H|lra].
Qed.

(** The relative error of one rounding is at most 2^-(p+1), and numbers up to 1 are rounded to numbers up to 1. *)
Lemma flp_pos_close p n d : 0 <= p -> 0 < n -> 0 < d ->
  (Qabs (flp_pos p n d - inject_Z n / inject_Z d) <= inject_Z n / inject_Z d * p2 (- p - 1))%Q
  /\ ((inject_Z n / inject_Z d < 1)%Q -> (flp_pos p n d <= 1)%Q).
Proof.
  intros Hp Hn Hd. unfold flp_pos. set (x := (inject_Z n / inject_Z d)%Q). set (e := Z.log2 n - Z.log2 d).
  destruct (scaled n d (- e)) as [a0 b0] eqn:E0. destruct (scaled_spec _ _ _ _ _ Hn Hd E0) as (Ha0 & Hb0 & Hx0). fold x in Hx0.
  set (e' := if b0 <=? a0 then e else e - 1).
  (* 2^e' <= x < 2^(e'+1) *)
  assert (Hlow : (p2 e' <= x < p2 (e' + 1))%Q).
  { assert (Hx : (x == (inject_Z a0 / inject_Z b0) * p2 e)%Q).
    { rewrite Hx0. rewrite <- Qmult_assoc, (Qmult_comm (p2 (- e))), p2_opp. lra. }
    unfold e'. destruct (Z.leb_spec b0 a0) as [H|H].
    - split; [rewrite Hx; rewrite <- (Qmult_1_l (p2 e)) at 1; apply Qmult_le_compat_r; [exact (proj1 (div_le a0 b0 Hb0) H)|apply Qlt_le_weak, p2_pos]|].
      pose proof (Z.log2_spec n Hn) as [_ L1]. pose proof (Z.log2_spec d Hd) as [L2 _]. pose proof (Z.log2_nonneg n). pose proof (Z.log2_nonneg d).
      unfold x. apply Qlt_shift_div_r; [apply inj_pos, Hd|].
      apply Qlt_le_trans with (p2 (e + 1) * p2 (Z.log2 d))%Q.
      + rewrite <- p2_add. unfold e. replace (Z.log2 n - Z.log2 d + 1 + Z.log2 d) with (Z.succ (Z.log2 n)) by lia. rewrite <- p2_Z by lia. rewrite <- Zlt_Qlt. exact L1.
      + apply Qmult_le_l; [apply p2_pos|]. rewrite <- p2_Z by lia. rewrite <- Zle_Qle. exact L2.
    - split.
      2:{ replace (e - 1 + 1) with e by lia. rewrite Hx. rewrite <- (Qmult_1_l (p2 e)) at 2. apply Qmult_lt_r; [apply p2_pos|]. apply Qnot_le_lt. intros C. apply (proj2 (div_le a0 b0 Hb0)) in C. lia. }
      (* n / d >= 2^(log2 n) / 2^(log2 d + 1) = 2^(e-1) *)
      pose proof (Z.log2_spec n Hn) as [L1 _]. pose proof (Z.log2_spec d Hd) as [_ L2].
      pose proof (Z.log2_nonneg n). pose proof (Z.log2_nonneg d).
      unfold x. apply Qle_shift_div_l; [apply inj_pos, Hd|].
      apply Qle_trans with (p2 (e - 1) * p2 (Z.succ (Z.log2 d)))%Q.
      + apply Qmult_le_l; [apply p2_pos|]. rewrite <- p2_Z by lia. rewrite <- Zle_Qle. lia.
      + rewrite <- p2_add. unfold e. replace (Z.log2 n - Z.log2 d - 1 + Z.succ (Z.log2 d)) with (Z.log2 n) by lia.
        rewrite <- p2_Z by lia. rewrite <- Zle_Qle. exact L1. }
  clearbody e'. destruct Hlow as [Hlow Hup]. set (s := p - e'). destruct (scaled n d s) as [a b] eqn:E1.
  destruct (scaled_spec _ _ _ _ _ Hn Hd E1) as (Ha & Hb & Hxs). fold x in Hxs. rewrite Qred_correct, unscale_spec.
  pose proof (round_half_even_close a b Hb) as Hr. set (m := round_half_even a b) in *. clearbody m.
  (* |m - a/b| <= 1/2 *)
  assert (Hm : (Qabs (inject_Z m - inject_Z a / inject_Z b) <= 1 # 2)%Q).
  { pose proof (inj_pos b Hb) as Hq. apply Qabs_Qle_condition.
    assert (H1 : (- inject_Z b <= 2 * inject_Z b * inject_Z m - 2 * inject_Z a)%Q /\ (2 * inject_Z b * inject_Z m - 2 * inject_Z a <= inject_Z b)%Q).
    { change 2%Q with (inject_Z 2). rewrite <- !inject_Z_mult, <- inject_Z_opp. unfold Qminus. rewrite <- !inject_Z_opp, <- !inject_Z_plus, <- !Zle_Qle. lia. }
    assert (E : (inject_Z a == inject_Z a / inject_Z b * inject_Z b)%Q) by (field; lra).
    set (y := (inject_Z a / inject_Z b)%Q) in *. set (B := inject_Z b) in *. set (M := inject_Z m) in *. rewrite E in H1.
    split.
    - apply Qnot_lt_le. intros Hlt. assert (B * (M - y) < B * (- (1#2)))%Q by (apply Qmult_lt_l; lra). lra.
    - apply Qnot_lt_le. intros Hlt. assert (B * (1#2) < B * (M - y))%Q by (apply Qmult_lt_l; lra). lra. }
  split.
  2:{ intros Hx1. assert (He : e' + 1 <= 0). { destruct (Z_lt_le_dec e' 0); [lia|]. exfalso. rewrite <- p2_Z in Hlow by lia. assert (1 <= 2 ^ e') by (apply Z.pow_pos_nonneg with (a := 2) in l; lia). rewrite Zle_Qle in H. change (inject_Z 1) with 1%Q in H. lra. }
      assert (Hy : (inject_Z a / inject_Z b < p2 (p + 1))%Q). { rewrite Hxs. apply Qlt_le_trans with (p2 (e' + 1) * p2 s)%Q; [apply Qmult_lt_r; [apply p2_pos|exact Hup]|]. rewrite <- p2_add. unfold s. replace (e' + 1 + (p - e')) with (p + 1) by lia. lra. }
      apply Qabs_Qle_condition in Hm. rewrite <- p2_Z in Hy by lia.
      assert (Hmi : m <= 2 ^ (p + 1)). { assert (X : (inject_Z m < inject_Z (2 ^ (p + 1)) + 1)%Q) by lra. change 1%Q with (inject_Z 1) in X. rewrite <- inject_Z_plus, <- Zlt_Qlt in X. lia. }
      apply Qle_trans with (inject_Z (2 ^ (p + 1)) * p2 (- s))%Q; [apply Qmult_le_compat_r; [rewrite <- Zle_Qle; exact Hmi|apply Qlt_le_weak, p2_pos]|].
      rewrite p2_Z by lia. rewrite <- p2_add. unfold s. replace (p + 1 + - (p - e')) with (e' + 1) by lia.
      pose proof (p2_opp (e' + 1)) as E. pose proof (p2_pos (e' + 1)). rewrite <- (p2_Z (- (e' + 1))) in E by lia. assert (1 <= 2 ^ (- (e' + 1))) by (assert (0 < 2 ^ (- (e' + 1))) by (apply Z.pow_pos_nonneg; lia); lia). rewrite Zle_Qle in H0. change (inject_Z 1) with 1%Q in H0. nra. }
  assert (Hd2 : (inject_Z m * p2 (- s) - x == (inject_Z m - inject_Z a / inject_Z b) * p2 (- s))%Q).
  { rewrite Hxs. assert (E : (x * p2 s * p2 (- s) == x)%Q) by (rewrite <- Qmult_assoc, p2_opp; lra).
    unfold Qminus. rewrite Qmult_plus_distr_l. setoid_replace (- (x * p2 s) * p2 (- s))%Q with (- (x * p2 s * p2 (- s)))%Q by ring. rewrite E. reflexivity. }
  rewrite Hd2, Qabs_Qmult. rewrite (Qabs_pos (p2 (- s))) by (apply Qlt_le_weak, p2_pos).
  apply Qle_trans with ((1 # 2) * p2 (- s))%Q; [apply Qmult_le_compat_r; [exact Hm|apply Qlt_le_weak, p2_pos]|].
  unfold s. replace (- (p - e')) with (e' + (1 + (- p - 1))) by lia. rewrite !p2_add. change (p2 1) with 2%Q.
  setoid_replace ((1 # 2) * (p2 e' * (2 * (p2 (- p - 1)))))%Q with (p2 e' * p2 (- p - 1))%Q by ring. apply Qmult_le_compat_r; [exact Hlow|apply Qlt_le_weak, p2_pos].
Qed.

Lemma flp_close p x : 0 <= p -> (0 <= x)%Q -> (Qabs (flp p x - x) <= x * p2 (- p - 1))%Q /\ ((x <= 1)%Q -> (flp p x <= 1)%Q).
Proof.
  intros Hp. destruct x as [n d]. intros H. unfold flp. cbn [Qnum Qden].
  assert (Hx : ((n # d) == inject_Z n / inject_Z (Zpos d))%Q) by apply Qmake_Qdiv.
  destruct n as [|n|n].
  - assert (E : (0 # d == 0)%Q) by reflexivity. split; [rewrite E, Qmult_0_l; discriminate|discriminate].
  - pose proof (flp_pos_close p (Zpos n) (Zpos d) Hp ltac:(lia) ltac:(lia)) as [H1 H2]. rewrite <- Hx in H1, H2. split; [exact H1|]. intros H3.
    apply Qle_lteq in H3 as [H3|H3]; [auto|]. unfold flp_pos.
    assert (E : n = d) by (unfold Qeq in H3; cbn in H3; lia). subst d. rewrite Z.sub_diag. cbv zeta.
    replace (scaled (Zpos n) (Zpos n) (- 0)) with (Zpos n, Zpos n) by (unfold scaled; change (0 <=? -0) with true; cbv iota; change (2 ^ -0) with 1; rewrite Z.mul_1_r; reflexivity). cbv beta iota. rewrite Z.leb_refl, Z.sub_0_r. unfold scaled.
    replace (0 <=? p) with true by (symmetry; apply Z.leb_le, Hp). rewrite Qred_correct, unscale_spec. assert (R : round_half_even (Zpos n * 2 ^ p) (Zpos n) = 2 ^ p).
    { unfold round_half_even. rewrite (Z.mul_comm _ (2 ^ p)), Z.div_mul, Z.mod_mul by lia. reflexivity. }
    rewrite R, p2_Z, p2_opp by exact Hp. lra.
  - exfalso. unfold Qle in H. cbn in H. lia.
Qed.
Lemma fl64_close x : (0 <= x)%Q -> (Qabs (fl64 x - x) <= x * (1 # 2 ^ 53))%Q.
Proof. intros H. apply (flp_close 52 x); [discriminate|exact H]. Qed.
Lemma fl32_close x : (0 <= x)%Q -> (Qabs (fl32 x - x) <= x * (1 # 2 ^ 24))%Q.
Proof. intros H. apply (flp_close 23 x); [discriminate|exact H]. Qed.
