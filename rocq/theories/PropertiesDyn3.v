(** C40 for the DynamicMixture, C59 for averaging, C60. *)
From Coq Require Import String.
From Verif Require Import Base MixtureKeyModel MixtureKeyProofs UtilsModel UtilsProofs ChunkGenModel MixtureModel MixtureProofs PropertiesMixture DynModel SpecDyn DynProofs DynProofs2 DynProofs3 DynProofs4 DynProofs5 DynProofs6 DynProofs7 FloatModel PropertiesDyn PropertiesDyn2.
From Coq Require Import QArith Qpower Qabs Qminmax Lqa Permutation.
Open Scope Z_scope.

(** A DynamicMixture as constructed, over an initial mixture with these rows. *)
Definition fresh {A} (c : Z) (rows : list (mkey * Z)) (a : A) : dyn A := mkDyn A c rows a false None [].
Definition filled (c : Z) (rows : list (mkey * Z)) : Prop := zsum (map snd rows) = c /\ Forall (fun kv => 0 <= snd kv) rows.

Lemma widest_le n l : Forall (devent_ok (K:=mkey) n) (map Feedback l) -> 0 <= n -> Z.of_nat (widest l) <= n.
Proof. intros H Hn. induction l as [|f l IH]; [cbn; lia|]. inversion H as [|? ? H1 H2]; subst. destruct H1 as (_ & H1 & _). specialize (IH H2). cbn [widest fold_right]. fold (widest l). lia. Qed.
Lemma oks n l : Forall (devent_ok (K:=mkey) n) (map Feedback l) -> Forall well_formed l /\ Forall (fun g => Forall (fun x => (0 <= x)%Q) (fb_losses g)) l.
Proof. rewrite Forall_map. intros H. split; (eapply Forall_impl; [|exact H]; intros f (H1 & H2 & H3); assumption). Qed.
Lemma sums_pos fl nsum : floating fl -> sums fl nsum -> forall l, nonneg l -> (0 <= nsum l)%Q /\ ((0 < nsum l)%Q <-> some_pos l).
Proof. intros Hd Hs l Hl. exact (float_sum_pos fl u32 u32_1 (proj1 Hd) _ _ _ (Hs l) Hl). Qed.

Section Filled.
  (** Arithmetic of the algorithm, and of the installation of its mixture. *)
  Variables (fl : Q -> Q) (nsum : list Q -> Q) (fli : Q -> Q) (u : Q) (c n : Z).
  Hypothesis Hd : floating fl.
  Hypothesis Hs : sums fl nsum.
  Hypothesis Hi : rounds fli u.
  Hypothesis Hen : enough u c n.
  Hypothesis Hc : 0 <= c.
  Hypothesis Hn : 0 <= n <= 2 ^ 20.

  (** ** Averaging *)
  Notation avg := (avg_process fl nsum).
  Definition avg_start (a : savg) : Prop := a = savg0.
  Definition avg_going (a : savg) : Prop := exists l, Forall (devent_ok (K:=mkey) n) (map Feedback l) /\ a = run avg l savg0.
  Lemma avg_inform_ok m a : avg_start a -> nonneg m -> some_pos m -> avg_going (avg_inform m a).
  Proof using. intros -> _ _. exists []. split; [constructor|reflexivity]. Qed.
  Lemma avg_process_going f a : devent_ok (K:=mkey) n (Feedback f) -> avg_going a -> avg_going (fst (avg (fb_losses f) (fb_counts f) (fb_mixture f) a)).
  Proof using. intros Hf (l & Hl & ->). exists (l ++ [f]). rewrite map_app, run_app. split; [apply Forall_app; split; [exact Hl|constructor; [exact Hf|constructor]]|reflexivity]. Qed.
  Lemma avg_going_result f a : devent_ok (K:=mkey) n (Feedback f) -> avg_going a ->
    exists x, snd (avg (fb_losses f) (fb_counts f) (fb_mixture f) a) = inl x /\ (forall mix, x = Some mix -> near_distribution mix /\ Z.of_nat (length mix) <= n /\ np_isclose (nsum mix) 1 = true).
  Proof using Hd Hs Hn.
    intros Hf (l & Hl & ->). assert (Hall : Forall (devent_ok (K:=mkey) n) (map Feedback (l ++ [f]))) by (rewrite map_app; apply Forall_app; split; [exact Hl|constructor; [exact Hf|constructor]]).
    pose proof (widest_le n _ Hall ltac:(lia)) as Hwd. destruct (oks n _ Hall) as [W N]. pose proof (C40_averaging_float fl nsum l f Hd Hs W ltac:(unfold few_keys; lia) N) as R.
    destruct (snd (avg _ _ _ _)) as [[mix|]|e]; [|exists None; split; [reflexivity|discriminate]|destruct R]. exists (Some mix). split; [reflexivity|]. intros m [= <-]. destruct R as (R1 & R2 & _ & R3). rewrite R1. auto.
  Qed.
  Lemma avg_process_result f a mix : devent_ok (K:=mkey) n (Feedback f) -> avg_going a -> snd (avg (fb_losses f) (fb_counts f) (fb_mixture f) a) = inl (Some mix) -> near_distribution mix /\ Z.of_nat (length mix) <= n.
  Proof using Hd Hs Hn. intros Hf Ha E. destruct (avg_going_result f a Hf Ha) as (x & E' & H). rewrite E in E'. injection E' as <-. destruct (H mix eq_refl) as (? & ? & _). auto. Qed.

  (** Whatever happens to a DynamicMixture over averaging, its mixture fills the chunk. *)
  Theorem C40_averaging_filled rows l : filled c rows -> Forall (devent_ok n) l ->
    filled c (dy_rows (dyn_run fli nsum avg avg_inform l (fresh c rows savg0))).
  Proof using Hd Hs Hi Hen Hc Hn.
    intros [F1 F2] Hl. assert (X := dyn_run_inv fli nsum u c n Hi Hen Hc (sums_pos fl nsum Hd Hs) avg avg_inform avg_start avg_going avg_inform_ok avg_process_going avg_process_result l (fresh c rows savg0) Hl).
    destruct X as (_ & X1 & X2 & _); [|split; assumption]. split; [reflexivity|]. split; [exact F1|]. split; [exact F2|]. split; [constructor|reflexivity].
  Qed.

  (** Once the map from keys to ids is known and covers the reported keys, feedback is always accepted by averaging,
      whether it reports more or fewer keys than before. *)
  Theorem C59_averaging_accepts_partial rows l f : filled c rows -> Forall (devent_ok n) (l ++ [Feedback f]) -> 0 <= fb_mixture f ->
    let d := dyn_run fli nsum avg avg_inform l (fresh c rows savg0) in
    dy_informed d = true -> dy_keys d <> None -> (forall j, 0 <= j < n -> exists k, Zget j (dy_ids d) = Some k) ->
    snd (devent_step fli nsum avg avg_inform (Feedback f) d) = None.
  Proof using Hd Hs Hi Hen Hc Hn.
    intros [F1 F2] Hl Hm d Ei Ek Hids. apply Forall_app in Hl as [Hl Hf]. pose proof (Forall_inv Hf) as Hf'.
    assert (X : dinv c avg_start avg_going d) by (apply (dyn_run_inv fli nsum u c n Hi Hen Hc (sums_pos fl nsum Hd Hs) avg avg_inform avg_start avg_going avg_inform_ok avg_process_going avg_process_result l (fresh c rows savg0) Hl); repeat (split; [reflexivity || assumption || constructor|]); reflexivity).
    pose proof X as (_ & _ & _ & _ & G). rewrite Ei in G. destruct (avg_going_result f _ Hf' G) as (x & Ex & Hx).
    apply (feedback_accepted fli nsum u c n Hi Hen Hc (sums_pos fl nsum Hd Hs) avg avg_inform avg_start avg_going avg_inform_ok avg_process_going avg_process_result f d x Hf' X Ei Ek Hm).
    - intros mix _ _ E. apply (Hx mix E).
    - exact Ex.
    - intros mix E j Hj. apply Hids. destruct (Hx mix E) as (_ & L & _). lia.
  Qed.
  (** The rows after accepted feedback are those of the mixture that averaging returned: exactly the keys with a positive
      share have rows, each within 2 of its part of the chunk. *)
  Theorem C40_averaging_installed rows l f mix : filled c rows -> Forall (devent_ok n) (l ++ [Feedback f]) ->
    let d := dyn_run fli nsum avg avg_inform l (fresh c rows savg0) in
    snd (avg (fb_losses f) (fb_counts f) (fb_mixture f) (dy_alg d)) = inl (Some mix) ->
    snd (devent_step fli nsum avg avg_inform (Feedback f) d) = None ->
    let rows' := dy_rows (fst (devent_step fli nsum avg avg_inform (Feedback f) d)) in
    (forall k r, In (k, r) rows' -> exists j v, nth_error mix j = Some v /\ (0 < v)%Q /\ Zget (Z.of_nat j) (dy_ids d) = Some k /\ (Qabs (inject_Z r - inject_Z c * v / qsum mix) <= 2)%Q)
    /\ (forall j v, nth_error mix j = Some v -> (0 < v)%Q -> exists k r, Zget (Z.of_nat j) (dy_ids d) = Some k /\ In (k, r) rows').
  Proof using Hd Hs Hi Hen Hc Hn.
    intros [F1 F2] Hl d Em Eo. apply Forall_app in Hl as [Hl Hf]. pose proof (Forall_inv Hf) as Hf'.
    assert (X : dinv c avg_start avg_going d) by (apply (dyn_run_inv fli nsum u c n Hi Hen Hc (sums_pos fl nsum Hd Hs) avg avg_inform avg_start avg_going avg_inform_ok avg_process_going avg_process_result l (fresh c rows savg0) Hl); repeat (split; [reflexivity || assumption || constructor|]); reflexivity).
    exact (feedback_installed fli nsum u c n Hi Hen Hc (sums_pos fl nsum Hd Hs) avg avg_inform avg_start avg_going avg_inform_ok avg_process_going avg_process_result f d mix Hf' X Em Eo).
  Qed.

  (** ** ADO *)
  Variable cfg : config.
  Variable P : Type.
  Variable p_zero : P.
  Variable fit1 : list (list Z) -> list (list Q) -> Z -> nat -> res P.
  Variable deriv : P -> Q -> Q.
  Variable pow_s : Q -> Q.
  Hypothesis Hcfg : sane cfg pow_s.
  Notation adop := (ado_process fl nsum cfg P p_zero fit1 deriv pow_s).
  Definition ado_start (a : ado P) : Prop := exists x, a = ado0 P x.
  Definition ado_going (a : ado P) : Prop := exists m l, nonneg m /\ some_pos m /\ Forall (devent_ok (K:=mkey) n) (map Feedback l) /\ a = run adop l (ado0 P m).
  Lemma ado_inform_ok m a : ado_start a -> nonneg m -> some_pos m -> ado_going (ado_inform P m a).
  Proof using. intros [x ->] H1 H2. exists m, []. split; [exact H1|]. split; [exact H2|]. split; [constructor|reflexivity]. Qed.
  Lemma ado_process_going f a : devent_ok (K:=mkey) n (Feedback f) -> ado_going a -> ado_going (fst (adop (fb_losses f) (fb_counts f) (fb_mixture f) a)).
  Proof using. intros Hf (m & l & H1 & H2 & Hl & ->). exists m, (l ++ [f]). rewrite map_app, run_app. split; [exact H1|]. split; [exact H2|]. split; [apply Forall_app; split; [exact Hl|constructor; [exact Hf|constructor]]|reflexivity]. Qed.
  Lemma ado_process_result f a mix : devent_ok (K:=mkey) n (Feedback f) -> ado_going a -> snd (adop (fb_losses f) (fb_counts f) (fb_mixture f) a) = inl (Some mix) -> near_distribution mix /\ Z.of_nat (length mix) <= n.
  Proof using Hd Hs Hn Hcfg.
    intros Hf (m & l & H1 & H2 & Hl & ->) E. assert (Hall : Forall (devent_ok (K:=mkey) n) (map Feedback (l ++ [f]))) by (rewrite map_app; apply Forall_app; split; [exact Hl|constructor; [exact Hf|constructor]]).
    pose proof (widest_le n _ Hall ltac:(lia)) as Hwd. destruct (oks n _ Hall) as [W N].
    destruct (C40_ado_float fl nsum cfg P p_zero fit1 deriv pow_s Hd Hs Hcfg m l f mix H1 H2 W ltac:(unfold few_keys; lia) E) as (R1 & R2 & _). rewrite R1. auto.
  Qed.
  Lemma ado_run_inv rows l x : filled c rows -> Forall (devent_ok n) l -> dinv c ado_start ado_going (dyn_run fli nsum adop (ado_inform P) l (fresh c rows (ado0 P x))).
  Proof using Hd Hs Hi Hen Hc Hn Hcfg.
    intros [F1 F2] Hl. apply (dyn_run_inv fli nsum u c n Hi Hen Hc (sums_pos fl nsum Hd Hs) adop (ado_inform P) ado_start ado_going ado_inform_ok ado_process_going ado_process_result l _ Hl).
    split; [reflexivity|]. split; [exact F1|]. split; [exact F2|]. split; [constructor|]. exists x. reflexivity.
  Qed.
  (** The same for ADO, for every fit and derivative; [x] is the placeholder it is constructed with. *)
  Theorem C40_ado_filled rows l x : filled c rows -> Forall (devent_ok n) l ->
    filled c (dy_rows (dyn_run fli nsum adop (ado_inform P) l (fresh c rows (ado0 P x)))).
  Proof using Hd Hs Hi Hen Hc Hn Hcfg. intros F Hl. destruct (ado_run_inv rows l x F Hl) as (_ & X1 & X2 & _). split; assumption. Qed.
  Theorem C40_ado_installed rows l x f mix : filled c rows -> Forall (devent_ok n) (l ++ [Feedback f]) ->
    let d := dyn_run fli nsum adop (ado_inform P) l (fresh c rows (ado0 P x)) in
    snd (adop (fb_losses f) (fb_counts f) (fb_mixture f) (dy_alg d)) = inl (Some mix) ->
    snd (devent_step fli nsum adop (ado_inform P) (Feedback f) d) = None ->
    let rows' := dy_rows (fst (devent_step fli nsum adop (ado_inform P) (Feedback f) d)) in
    (forall k r, In (k, r) rows' -> exists j v, nth_error mix j = Some v /\ (0 < v)%Q /\ Zget (Z.of_nat j) (dy_ids d) = Some k /\ (Qabs (inject_Z r - inject_Z c * v / qsum mix) <= 2)%Q)
    /\ (forall j v, nth_error mix j = Some v -> (0 < v)%Q -> exists k r, Zget (Z.of_nat j) (dy_ids d) = Some k /\ In (k, r) rows').
  Proof using Hd Hs Hi Hen Hc Hn Hcfg.
    intros F Hl d Em Eo. apply Forall_app in Hl as [Hl Hf]. pose proof (Forall_inv Hf) as Hf'. pose proof (ado_run_inv rows l x F Hl) as X. fold d in X.
    exact (feedback_installed fli nsum u c n Hi Hen Hc (sums_pos fl nsum Hd Hs) adop (ado_inform P) ado_start ado_going ado_inform_ok ado_process_going ado_process_result f d mix Hf' X Em Eo).
  Qed.

  (** ** The minimum probability *)
  (** Every sampled domain keeps at least delta / (1 + m * delta) of ADO's mixture, up to rounding, where [m] is the number
      of sampled domains. *)
  Theorem C60_minimum_partial initial l f mix k : Forall (fun x => (0 <= x)%Q) initial -> Exists (fun x => (0 < x)%Q) initial ->
    Forall well_formed (l ++ [f]) -> few_keys (l ++ [f]) -> (0 <= c_delta_min cfg)%Q ->
    snd (adop (fb_losses f) (fb_counts f) (fb_mixture f) (run adop l (ado0 P initial))) = inl (Some mix) ->
    0 < zsum (counts_of k (l ++ [f])) ->
    let m := inject_Z (Z.of_nat (length (filter (fun j => 0 <? zsum (counts_of j (l ++ [f]))) (seq 0 (widest (l ++ [f])))))) in
    ((1 - (1 # 2 ^ 16)) * (c_delta_min cfg / (1 + m * c_delta_min cfg)) <= nth k mix 0)%Q.
  Proof using Hd Hs Hcfg.
    clear Hi Hen Hc Hn u n c fli. intros I1 I2 Hw Hk Hdel E Hpos m. set (delta := c_delta_min cfg) in *. pose proof Hw as Hw0. apply Forall_app in Hw as [Hl Hf]. pose proof (Forall_inv Hf) as Hwf. destruct Hcfg as (C1 & C2 & C3).
    pose proof (step_result fl nsum u32 dep u32_0 u32_1 (proj1 Hd) (proj2 Hd) Hs cfg P p_zero fit1 deriv pow_s C3 C1 C2 initial l f I1 I2 Hl Hwf) as R. unfold step_process in R.
    pose proof (ado_acc_run fl nsum cfg P p_zero fit1 deriv pow_s initial (l ++ [f]) Hw0) as (A1 & A2 & A3 & A4). rewrite run_app in A1, A2, A3, A4. cbn [run] in A1, A2, A3, A4.
    destruct (adop _ _ _ (run adop l (ado0 P initial))) as [o' r]. cbn [fst snd] in *. subst r.
    destruct R as (pi0 & adj & N0 & P0 & L0 & Eadj & Na & Pa & ->). set (counts := a_counts (o_acc P o')) in *. fold delta in Eadj.
    assert (Ec : counts = map (fun j => zsum (counts_of j (l ++ [f]))) (seq 0 (widest (l ++ [f])))).
    { apply nth_ext with (d := 0) (d' := 0); [rewrite map_length, seq_length; exact A2|]. intros j Hj. rewrite A2 in Hj. rewrite A4. symmetry.
      rewrite nth_indep with (d' := zsum (counts_of 0 (l ++ [f]))) by (rewrite map_length, seq_length; exact Hj). rewrite (map_nth (fun j => zsum (counts_of j (l ++ [f])))), seq_nth by exact Hj. reflexivity. }
    assert (Em : m = inject_Z (Z.of_nat (length (filter (fun x => 0 <? x) counts)))).
    { unfold m. rewrite Ec. do 2 f_equal. generalize (seq 0 (widest (l ++ [f]))). induction l0 as [|j l0 IH]; [reflexivity|]. cbn [filter map]. destruct (0 <? zsum _); cbn [length]; auto. }
    set (pi1 := map (fun x => fl (x / nsum pi0)%Q) pi0) in *. assert (L1 : length pi1 = length counts) by (unfold pi1; rewrite map_length; exact L0).
    assert (S0 : (0 < nsum pi0)%Q) by (apply (sums_pos fl nsum Hd Hs pi0 N0), P0).
    assert (N1 : nonneg pi1) by (apply (nonneg_scale fl u32 u32_1 (proj1 Hd)); assumption).
    assert (Q1 : (qsum pi1 <= 1 + (1 # 131072))%Q).
    { destruct (normalised_nsum fl u32 u32_0 u32_1 (proj1 Hd) nsum dep pi0 Hs N0 S0) as [_ X]. rewrite L0 in X. unfold few_keys in Hk. rewrite A2 in X. destruct (X (eps_1000 _ Hk)) as [X1 _]. apply (within_eps _ _ Hk) in X1. change (1 # 2 ^ 17)%Q with (1 # 131072)%Q in X1. unfold pi1. lra. }
    assert (Qa : (qsum adj <= qsum pi1 + m * delta)%Q).
    { rewrite Eadj, Em. clear - N1 L1 Hdel. clearbody counts pi1. revert counts L1. induction pi1 as [|x p IH]; intros [|y cs] L; [change (0 <= 0 + 0 * delta)%Q; lra|discriminate L|discriminate L|].
      inversion N1 as [|? ? Hx Hp]; subst. specialize (IH Hp cs ltac:(cbn in L; lia)). injection L as L. cbn [combine map filter fst snd]. rewrite !qsum_cons. destruct (0 <? y); [|lra]. cbn [length]. rewrite Nat2Z.inj_succ, <- Z.add_1_l, inject_Z_plus. change (inject_Z 1) with 1%Q.
      assert (Qmax x delta <= x + delta)%Q by (apply Q.max_lub; lra). lra. }
    assert (La : length adj = length counts) by (rewrite Eadj, map_length, combine_length; lia).
    pose proof (Hs adj) as F. rewrite La, A2 in F. pose proof (dep_52 _ Hk) as HD. unfold dep in HD. set (D := inject_Z (Z.of_nat (32 + Nat.log2 (widest (l ++ [f]))))) in *.
    assert (HDu : (0 <= D * u32 <= 1 # 262144)%Q). { split; [apply Qmult_le_0_compat; [tauto|discriminate]|]. apply Qle_trans with (52 * u32)%Q; [apply Qmult_le_compat_r; [tauto|discriminate]|discriminate]. }
    destruct (float_sum_bounds fl u32 u32_0 u32_1 (proj1 Hd) _ _ _ F Na) as (_ & _ & B2); [fold D; lra|]. fold D in B2. set (q := (D * u32)%Q) in *. set (v := nsum adj) in *.
    assert (Hkl : (k < length counts)%nat). { destruct (Nat.lt_ge_cases k (length counts)) as [|C]; [assumption|]. rewrite <- A4 in Hpos. fold counts in Hpos. rewrite nth_overflow in Hpos by exact C. lia. }
    assert (Hak : (delta <= nth k adj 0)%Q).
    { rewrite Eadj. rewrite nth_indep with (d' := (fun p : Q * Z => if 0 <? snd p then Qmax (fst p) delta else fst p) (0%Q, 0)) by (rewrite map_length, combine_length; lia). rewrite (map_nth (fun p : Q * Z => if 0 <? snd p then Qmax (fst p) delta else fst p)). rewrite combine_nth by exact L1. cbn [fst snd].
      assert (X : nth k counts 0 = zsum (counts_of k (l ++ [f]))) by apply A4. rewrite X. rewrite (proj2 (Z.ltb_lt _ _) Hpos). apply Q.le_max_r. }
    rewrite nth_indep with (d' := (fun x => fl (x / v)%Q) 0%Q) by (rewrite map_length, La; exact Hkl). rewrite (map_nth (fun x => fl (x / v)%Q)).
    set (a := nth k adj 0%Q) in *. assert (Hm0 : (0 <= m)%Q) by (unfold m; change 0%Q with (inject_Z 0); rewrite <- Zle_Qle; lia).
    assert (Hmd : (0 <= m * delta)%Q) by (apply Qmult_le_0_compat; assumption). set (M := (m * delta)%Q) in *.
    assert (Hav : (0 <= a / v)%Q) by (apply Qle_shift_div_l; [exact Pa|lra]). destruct (proj1 Hd _ Hav) as [G1 _]. change (1 # 2 ^ 24)%Q with (1 # 16777216)%Q in G1. change (1 # 2 ^ 16)%Q with (1 # 65536)%Q.
    assert (Hv : (v * (1 - (1 # 262144)) <= (1 + M) * (1 + (1 # 131072)))%Q) by nra.
    assert (Ha : (a == a / v * v)%Q) by (field; lra). set (w := (a / v)%Q) in *.
    assert (Hz : (delta == delta / (1 + M) * (1 + M))%Q) by (field; lra). set (z := (delta / (1 + M))%Q) in *. assert (Hz0 : (0 <= z)%Q) by (apply Qle_shift_div_l; lra).
    (* z (1+M) <= w v <= w (1+M) (1+1/131072) / (1-1/262144) *)
    assert (K1 : (z * (1 + M) * (1 - (1 # 262144)) <= w * ((1 + M) * (1 + (1 # 131072))))%Q).
    { apply Qle_trans with (w * (v * (1 - (1 # 262144))))%Q; [|rewrite !(Qmult_comm w); apply Qmult_le_compat_r; assumption]. rewrite <- Hz, Qmult_assoc, <- Ha. apply Qmult_le_compat_r; [exact Hak|discriminate]. }
    assert (K2 : (z * (1 - (1 # 262144)) <= w * (1 + (1 # 131072)))%Q).
    { apply Qmult_le_r with (z := (1 + M)%Q); [lra|]. setoid_replace (z * (1 - (1 # 262144)) * (1 + M))%Q with (z * (1 + M) * (1 - (1 # 262144)))%Q by ring. setoid_replace (w * (1 + (1 # 131072)) * (1 + M))%Q with (w * ((1 + M) * (1 + (1 # 131072))))%Q by ring. exact K1. }
    lra.
  Qed.
End Filled.
Print Assumptions C40_averaging_filled.
Print Assumptions C40_averaging_installed.
Print Assumptions C40_ado_filled.
Print Assumptions C40_ado_installed.
Print Assumptions C59_averaging_accepts_partial.
Print Assumptions C60_minimum_partial.
