(** Proofs about accumulation, flags and float sums in dynamic mixing. *)
From Verif Require Import Base MixtureKeyModel UtilsModel UtilsProofs ChunkGenModel MixtureModel MixtureProofs DynModel SpecDyn.
From Coq Require Import QArith Qabs Qminmax Lqa Permutation.
Open Scope Z_scope.

Lemma add_front_length {A} (f : A -> A -> A) acc xs : length (add_front f acc xs) = length acc.
Proof. revert xs. induction acc as [|a acc IH]; intros [|x xs]; cbn; auto. Qed.
Lemma to_length_same {A} (l : list A) n : length l = n -> to_length n l = Some l.
Proof. intros <-. unfold to_length. rewrite Nat.eqb_refl. reflexivity. Qed.
Lemma grow_length {A} (z : A) k l : length (grow z k l) = (length l + k)%nat.
Proof. unfold grow. rewrite app_length, repeat_length. reflexivity. Qed.
Lemma nth_grow {A} (z : A) k l i : nth i (grow z k l) z = nth i l z.
Proof.
  unfold grow. destruct (Nat.lt_ge_cases i (length l)) as [H|H]; [apply app_nth1, H|]. rewrite app_nth2 by exact H. rewrite (nth_overflow l) by exact H.
  destruct (nth_in_or_default (i - length l) (repeat z k) z) as [Hin|E]; [|exact E]. apply repeat_spec in Hin. exact Hin.
Qed.
Lemma nth_add_front {A} (f : A -> A -> A) z acc xs k : (length xs <= length acc)%nat ->
  nth k (add_front f acc xs) z = match nth_error xs k with Some x => f (nth k acc z) x | None => nth k acc z end.
Proof.
  revert xs k. induction acc as [|a acc IH]; intros [|x xs] [|k] H; cbn in *; try reflexivity; try lia. apply IH. lia.
Qed.

Section Acc.
  Variable fl : Q -> Q.

  (** One well-formed message: accepted, arrays as long as the longest, key by key one addition. *)
  Lemma update_ok f (a : acc) : well_formed f -> length (a_losses a) = length (a_counts a) ->
    exists a', update_state fl (fb_losses f) (fb_counts f) a = (a', None)
      /\ length (a_losses a') = Nat.max (length (fb_losses f)) (length (a_losses a)) /\ length (a_counts a') = length (a_losses a')
      /\ (forall k, nth k (a_losses a') 0%Q = match nth_error (fb_losses f) k with Some x => fl (nth k (a_losses a) 0 + x)%Q | None => nth k (a_losses a) 0%Q end)
      /\ (forall k, nth k (a_counts a') 0 = match nth_error (fb_counts f) k with Some x => nth k (a_counts a) 0 + x | None => nth k (a_counts a) 0 end).
  Proof.
    intros Hw Hl. unfold update_state. rewrite to_length_same by (symmetry; exact Hw). eexists. split; [reflexivity|]. cbn [a_losses a_counts].
    rewrite !add_front_length, !grow_length. split; [lia|]. split; [lia|]. unfold well_formed in Hw. split; intros k.
    - rewrite nth_add_front by (rewrite grow_length; lia). rewrite nth_grow. reflexivity.
    - rewrite nth_add_front by (rewrite grow_length; lia). rewrite nth_grow. reflexivity.
  Qed.

  Definition accumulated (l : list fb) (a : acc) : Prop :=
    length (a_losses a) = widest l /\ length (a_counts a) = widest l
    /\ (forall k, nth k (a_losses a) 0%Q = fsum fl (losses_of k l)) /\ (forall k, nth k (a_counts a) 0 = zsum (counts_of k l)).
  Lemma accumulated_nil : accumulated [] acc0.
  Proof. split; [reflexivity|]. split; [reflexivity|]. split; intros [|k]; reflexivity. Qed.
  Lemma widest_snoc l f : widest (l ++ [f]) = Nat.max (length (fb_losses f)) (widest l).
  Proof. induction l as [|g l IH]; cbn [app widest fold_right]; [lia|]. fold (widest (l ++ [f])) (widest l). rewrite IH. lia. Qed.
  Lemma losses_of_app k l1 l2 : losses_of k (l1 ++ l2) = losses_of k l1 ++ losses_of k l2.
  Proof. unfold losses_of. apply flat_map_app. Qed.
  Lemma counts_of_app k l1 l2 : counts_of k (l1 ++ l2) = counts_of k l1 ++ counts_of k l2.
  Proof. unfold counts_of. apply flat_map_app. Qed.
  Lemma accumulated_snoc l f a : well_formed f -> accumulated l a ->
    exists a', update_state fl (fb_losses f) (fb_counts f) a = (a', None) /\ accumulated (l ++ [f]) a'.
  Proof.
    intros Hw (L1 & L2 & L3 & L4). destruct (update_ok f a Hw ltac:(congruence)) as (a' & E & H1 & H2 & H3 & H4).
    exists a'. split; [exact E|]. unfold accumulated. rewrite widest_snoc. split; [lia|]. split; [lia|]. split; intros k.
    - rewrite H3, L3, losses_of_app. change (losses_of k [f]) with ((match nth_error (fb_losses f) k with Some x => [x] | None => [] end) ++ []). destruct (nth_error (fb_losses f) k); cbn [app]; [|rewrite app_nil_r; reflexivity].
      unfold fsum. rewrite fold_left_app. reflexivity.
    - rewrite H4, L4, counts_of_app. change (counts_of k [f]) with ((match nth_error (fb_counts f) k with Some x => [x] | None => [] end) ++ []). destruct (nth_error (fb_counts f) k); cbn [app]; [|rewrite app_nil_r; reflexivity].
      rewrite zsum_app. cbn. lia.
  Qed.
End Acc.

(** ** Running an algorithm over a history of messages *)
Section Run.
  Context {S : Type} (process : list Q -> list Z -> Z -> S -> S * (option (list Q) + exn)).
  Fixpoint run (l : list fb) (s : S) : S :=
    match l with [] => s | f :: l' => run l' (fst (process (fb_losses f) (fb_counts f) (fb_mixture f) s)) end.
  Lemma run_app l1 l2 s : run (l1 ++ l2) s = run l2 (run l1 s).
  Proof. revert s. induction l1 as [|f l1 IH]; intros s; cbn; auto. Qed.
End Run.

Section Flag.
  Context {S : Type} (last : S -> Z) (set_last : Z -> S -> S) (upd : list Q -> list Z -> S -> S * option exn) (calc : bool -> S -> S * (option (list Q) + exn)).
  Hypothesis set_get : forall i s, last (set_last i s) = i.
  Hypothesis upd_last : forall a b s, last (fst (upd a b s)) = last s.
  Hypothesis calc_last : forall b s, last (fst (calc b s)) = last s.
  Notation process := (process_losses last set_last upd calc).
  Lemma process_last a b i s : last (fst (process a b i s)) = Z.max (last s) i.
  Proof.
    unfold process_losses. destruct (last s <? i) eqn:E; [apply Z.ltb_lt in E|apply Z.ltb_ge in E].
    - pose proof (upd_last a b (set_last i s)) as Hu. destruct (upd a b (set_last i s)) as [s2 [e|]]; cbn [fst] in *; rewrite ?calc_last, Hu, set_get; lia.
    - pose proof (upd_last a b s) as Hu. destruct (upd a b s) as [s2 [e|]]; cbn [fst] in *; rewrite ?calc_last, Hu; lia.
  Qed.
  Lemma run_last l s : last (run process l s) = fold_left Z.max (map fb_mixture l) (last s).
  Proof. revert s. induction l as [|f l IH]; intros s; cbn [run map fold_left]; [reflexivity|]. rewrite IH, process_last. reflexivity. Qed.
End Flag.
Lemma fold_max_ge l a : a <= fold_left Z.max l a /\ Forall (fun j => j <= fold_left Z.max l a) l.
Proof.
  revert a. induction l as [|x l IH]; intros a; cbn [fold_left]; [split; [lia|constructor]|]. destruct (IH (Z.max a x)) as [H1 H2]. split; [lia|]. constructor; [lia|exact H2].
Qed.
Lemma fold_max_lt l a i : a < i -> Forall (fun j => j < i) l -> fold_left Z.max l a < i.
Proof. revert a. induction l as [|x l IH]; intros a Ha H; cbn [fold_left]; [exact Ha|]. inversion H; subst. apply IH; [lia|assumption]. Qed.
Lemma newest_iff l i : newest i l <-> fold_left Z.max l (-1) < i.
Proof.
  split.
  - intros [H0 H]. apply fold_max_lt; [lia|exact H].
  - intros H. destruct (fold_max_ge l (-1)) as [H1 H2]. split; [lia|]. eapply Forall_impl; [|exact H2]. cbn. lia.
Qed.

(** ** Float sums *)
Section FSum.
  Variables (fl : Q -> Q) (u : Q).
  Hypothesis Hu : (0 <= u)%Q.
  Hypothesis Hu1 : (u <= 1 # 2)%Q.
  Hypothesis Hfl : rounds fl u.

  Lemma fl_pos x : (0 <= x)%Q -> (0 <= fl x)%Q.
  Proof. apply (fl_nonneg fl u Hu1 Hfl). Qed.
  Lemma fl_spos x : (0 < x)%Q -> (0 < fl x)%Q.
  Proof. intros H. destruct (Hfl x) as [H1 _]; [lra|]. eapply Qlt_le_trans; [|exact H1]. apply Qmult_lt_0_compat; lra. Qed.
  Lemma fl_zero x : (x == 0)%Q -> (fl x == 0)%Q.
  Proof. intros H. destruct (Hfl x) as [H1 H2]; [lra|]. rewrite H in H1 at 1. rewrite H in H2 at 2. lra. Qed.

  Lemma perm_forall {A} (P : A -> Prop) l l' : Permutation l l' -> Forall P l' -> Forall P l.
  Proof. intros Hp H. rewrite Forall_forall in *. intros x Hx. apply H. eapply Permutation_in; eassumption. Qed.

  Lemma float_sum_bounds d l v : float_sum fl d l v -> Forall (fun x => (0 <= x)%Q) l -> (inject_Z (Z.of_nat d) * u <= 1)%Q ->
    (0 <= v)%Q /\ ((1 - inject_Z (Z.of_nat d) * u) * qsum l <= v)%Q /\ (v * (1 - inject_Z (Z.of_nat d) * u) <= qsum l)%Q.
  Proof.
    induction 1 as [d|d x|d l1 l2 v1 v2 H1 IH1 H2 IH2|d l l' v Hp H IH]; intros Hl Hd.
    - cbn. split; [lra|]. split; lra.
    - inversion Hl; subst. cbn [qsum fold_right].
      assert (0 <= inject_Z (Z.of_nat d))%Q by (change 0%Q with (inject_Z 0); rewrite <- Zle_Qle; lia).
      assert (0 <= inject_Z (Z.of_nat d) * u)%Q by (apply Qmult_le_0_compat; assumption). split; [assumption|]. split; nra.
    - apply Forall_app in Hl as [Hl1 Hl2].
      assert (EN : (inject_Z (Z.of_nat (S d)) == inject_Z (Z.of_nat d) + 1)%Q)
        by (rewrite Nat2Z.inj_succ; unfold Z.succ; rewrite inject_Z_plus; reflexivity).
      set (D := inject_Z (Z.of_nat d)) in *. rewrite EN in Hd |- *.
      assert (HD : (0 <= D)%Q) by (unfold D; change 0%Q with (inject_Z 0); rewrite <- Zle_Qle; lia).
      assert (HDu : (0 <= D * u)%Q) by (apply Qmult_le_0_compat; assumption).
      destruct (IH1 Hl1) as (A1 & A2 & A3); [lra|]. destruct (IH2 Hl2) as (B1 & B2 & B3); [lra|].
      rewrite qsum_app. pose proof (qsum_nonneg _ Hl1) as N1. pose proof (qsum_nonneg _ Hl2) as N2.
      set (Q1 := qsum l1) in *. set (Q2 := qsum l2) in *. assert (Hs : (0 <= v1 + v2)%Q) by lra. destruct (Hfl _ Hs) as [F1 F2].
      split; [apply fl_pos, Hs|]. split.
      + eapply Qle_trans; [|exact F1]. assert (C : ((1 - D * u) * (Q1 + Q2) <= v1 + v2)%Q) by lra.
        assert (C2 : ((1 - u) * ((1 - D * u) * (Q1 + Q2)) <= (1 - u) * (v1 + v2))%Q) by nra.
        assert (C3 : (0 <= u * (D * u) * (Q1 + Q2))%Q) by (apply Qmult_le_0_compat; [apply Qmult_le_0_compat; lra|lra]). lra.
      + assert (P0 : (0 <= 1 - (D + 1) * u)%Q) by lra.
        assert (P1 : (fl (v1 + v2) * (1 - (D + 1) * u) <= (1 + u) * (v1 + v2) * (1 - (D + 1) * u))%Q) by nra.
        assert (P2 : ((1 + u) * (1 - (D + 1) * u) <= 1 - D * u)%Q) by nra.
        assert (P3 : ((1 + u) * (1 - (D + 1) * u) * (v1 + v2) <= (1 - D * u) * (v1 + v2))%Q) by nra. lra.
    - destruct (IH (perm_forall _ _ _ Hp Hl) Hd) as (A1 & A2 & A3). rewrite (qsum_perm _ _ Hp) in A2, A3. auto.
  Qed.
  (** The sum is positive exactly if some element is. *)
  Lemma qsum_pos_ex l : Forall (fun x => (0 <= x)%Q) l -> ((0 < qsum l)%Q <-> Exists (fun x => (0 < x)%Q) l).
  Proof.
    induction 1 as [|x l Hx Hl IH]; [split; [cbn; lra|intros H; inversion H]|]. rewrite qsum_cons. pose proof (qsum_nonneg _ Hl) as Hn. split.
    - intros H. destruct (Qlt_le_dec 0 x) as [Hp|Hp]; [left; exact Hp|right; apply IH; lra].
    - intros H. inversion H as [? ? Hp|? ? Hp]; subst; [lra|]. apply IH in Hp. lra.
  Qed.
  Lemma float_sum_pos d l v : float_sum fl d l v -> Forall (fun x => (0 <= x)%Q) l -> (0 <= v)%Q /\ ((0 < v)%Q <-> Exists (fun x => (0 < x)%Q) l).
  Proof.
    induction 1 as [d|d x|d l1 l2 v1 v2 H1 IH1 H2 IH2|d l l' v Hp H IH]; intros Hl.
    - split; [lra|]. split; [lra|intros H; inversion H].
    - inversion Hl; subst. split; [assumption|]. split; [left; assumption|intros H; inversion H as [? ? ?|? ? Hn]; subst; [assumption|inversion Hn]].
    - apply Forall_app in Hl as [Hl1 Hl2]. destruct (IH1 Hl1) as [A1 A2]. destruct (IH2 Hl2) as [B1 B2]. split; [apply fl_pos; lra|]. rewrite Exists_app, <- A2, <- B2. split.
      + intros Hp. destruct (Qlt_le_dec 0 v1) as [|N1]; [left; assumption|]. destruct (Qlt_le_dec 0 v2) as [|N2]; [right; assumption|]. exfalso.
        assert (E : (v1 + v2 == 0)%Q) by lra. rewrite (fl_zero _ E) in Hp. lra.
      + intros Hp. apply fl_spos. destruct Hp; lra.
    - destruct (IH (perm_forall _ _ _ Hp Hl)) as [A1 A2]. split; [exact A1|]. rewrite A2. rewrite !Exists_exists. split; intros (x & Hx & Hxp); exists x; (split; [|exact Hxp]); [eapply Permutation_in; eassumption|].
      eapply Permutation_in; [symmetry; exact Hp|exact Hx].
  Qed.

  (** Dividing by the computed sum gives numbers whose computed sum is close to one. *)
  Lemma normalised_close d l s l' t : Forall (fun x => (0 <= x)%Q) l -> float_sum fl d l s -> (0 < s)%Q ->
    l' = map (fun x => fl (x / s)%Q) l -> float_sum fl d l' t ->
    let e := ((2 * inject_Z (Z.of_nat d) + 2) * u * (1001 # 1000))%Q in (e <= 1 # 1000)%Q ->
    Forall (fun x => (0 <= x)%Q) l' /\ (1 - e <= qsum l' <= 1 + e)%Q /\ (1 - e <= t <= 1 + e)%Q.
  Proof.
    intros Hl Hs Hsp -> Ht e He. set (D := inject_Z (Z.of_nat d)) in *.
    assert (HD : (0 <= D)%Q) by (unfold D; change 0%Q with (inject_Z 0); rewrite <- Zle_Qle; lia).
    assert (HDu : (0 <= D * u)%Q) by (apply Qmult_le_0_compat; assumption).
    assert (Ee : (e == (1001 # 1000) * (2 * (D * u) + 2 * u))%Q) by (unfold e; ring).
    assert (HD1 : (D * u <= 1)%Q) by lra.
    destruct (float_sum_bounds d l s Hs Hl HD1) as (S0 & S1 & S2). fold D in S1, S2. set (A := qsum l) in *.
    set (l' := map (fun x => fl (x / s)%Q) l) in *.
    assert (Hdiv : forall x, (0 <= x)%Q -> (0 <= x / s)%Q) by (intros x Hx; apply Qle_shift_div_l; lra).
    assert (Hl' : Forall (fun x => (0 <= x)%Q) l').
    { unfold l'. rewrite Forall_map. eapply Forall_impl; [|exact Hl]. cbn. intros x Hx. apply fl_pos, Hdiv, Hx. }
    set (B := qsum l').
    assert (HB : ((1 - u) * (A / s) <= B /\ B <= (1 + u) * (A / s))%Q).
    { unfold B, A, l'. clear -Hl Hfl Hdiv Hsp. induction Hl as [|x l Hx Hl IH]; cbn [map]; [cbn; split; setoid_replace (0 / s)%Q with 0%Q by (field; lra); lra|].
      rewrite !qsum_cons. destruct IH as [I1 I2]. destruct (Hfl _ (Hdiv _ Hx)) as [F1 F2].
      setoid_replace ((x + qsum l) / s)%Q with (x / s + qsum l / s)%Q by (field; lra). split; lra. }
    set (q := (A / s)%Q) in *. assert (Hq : (q * s == A)%Q) by (unfold q; field; lra).
    assert (Q1 : (1 - D * u <= q)%Q) by (apply (Qmult_le_r _ _ _ Hsp); lra).
    assert (Q2 : (q * (1 - D * u) <= 1)%Q).
    { apply (Qmult_le_r _ _ _ Hsp). assert (E : (q * (1 - D * u) * s == (1 - D * u) * A)%Q) by (rewrite <- Hq; ring). rewrite E. lra. }
    destruct HB as [HB1 HB2]. destruct (float_sum_bounds d l' t Ht Hl' HD1) as (T0 & T1 & T2). fold D B in T1, T2.
    assert (Hqp : (0 <= q)%Q) by lra.
    assert (HDu2 : (D * u <= 1 # 2000)%Q) by lra. assert (Hu2 : (u <= 1 # 2000)%Q) by lra.
    assert (B1 : (1 - D * u - u <= B)%Q).
    { eapply Qle_trans; [|exact HB1]. assert ((1 - u) * (1 - D * u) <= (1 - u) * q)%Q by nra.
      assert (0 <= u * (D * u))%Q by (apply Qmult_le_0_compat; assumption). lra. }
    assert (B2 : (B * (1 - D * u) <= 1 + u)%Q).
    { assert (B * (1 - D * u) <= (1 + u) * q * (1 - D * u))%Q by nra. assert ((1 + u) * (q * (1 - D * u)) <= (1 + u) * 1)%Q by nra. lra. }
    assert (HB0 : (0 <= B)%Q) by lra.
    assert (He0 : (0 <= e)%Q) by lra.
    assert (B3 : (B <= 1 + e)%Q).
    { assert (Hd : (0 < 1 - D * u)%Q) by lra. apply (Qmult_le_r _ _ _ Hd). eapply Qle_trans; [exact B2|].
      assert (D * u * e <= D * u * (1 # 1000))%Q by nra. lra. }
    split; [exact Hl'|]. split; [split; [lra|exact B3]|]. split.
    - eapply Qle_trans; [|exact T1]. assert ((1 - D * u) * (1 - D * u - u) <= (1 - D * u) * B)%Q by nra.
      assert (0 <= D * u * (D * u + u))%Q by (apply Qmult_le_0_compat; lra). lra.
    - assert (Hd : (0 < (1 - D * u) * (1 - D * u))%Q) by (apply Qmult_lt_0_compat; lra). apply (Qmult_le_r _ _ _ Hd).
      assert (t * (1 - D * u) * (1 - D * u) <= B * (1 - D * u))%Q by nra.
      assert (E : (t * ((1 - D * u) * (1 - D * u)) == t * (1 - D * u) * (1 - D * u))%Q) by ring. rewrite E.
      eapply Qle_trans; [exact H|]. eapply Qle_trans; [exact B2|].
      assert (X : (1 - 2 * (D * u) <= (1 - D * u) * (1 - D * u))%Q) by nra.
      assert (Y : ((1 + e) * (1 - 2 * (D * u)) <= (1 + e) * ((1 - D * u) * (1 - D * u)))%Q) by nra.
      eapply Qle_trans; [|exact Y]. assert (D * u * e <= D * u * (1 # 1000))%Q by nra. lra.
  Qed.
  (** The same with the algorithm's own sum. *)
  Lemma normalised_nsum (nsum : list Q -> Q) (dep : nat -> nat) l : (forall l, float_sum fl (dep (length l)) l (nsum l)) -> Forall (fun x => (0 <= x)%Q) l -> (0 < nsum l)%Q ->
    let l' := map (fun x => fl (x / nsum l)%Q) l in
    let e := ((2 * inject_Z (Z.of_nat (dep (length l))) + 2) * u * (1001 # 1000))%Q in
    Forall (fun x => (0 <= x)%Q) l' /\ ((e <= 1 # 1000)%Q -> (1 - e <= qsum l' <= 1 + e)%Q /\ (1 - e <= nsum l' <= 1 + e)%Q).
  Proof.
    intros Hsum Hl Hs l' e. split.
    - unfold l'. rewrite Forall_map. eapply Forall_impl; [|exact Hl]. cbn. intros x Hx. apply fl_pos. apply Qle_shift_div_l; lra.
    - intros He. assert (Hll : length l' = length l) by apply map_length.
      assert (Ht : float_sum fl (dep (length l)) l' (nsum l')) by (rewrite <- Hll; apply Hsum).
      destruct (normalised_close (dep (length l)) l (nsum l) l' (nsum l') Hl (Hsum l) Hs eq_refl Ht He) as (_ & N2 & N3). split; assumption.
  Qed.
End FSum.
