(** C39, C40: dynamic mixing accounts its feedback and produces distributions. *)
From Verif Require Import Base MixtureKeyModel MixtureKeyProofs UtilsModel UtilsProofs ChunkGenModel MixtureModel MixtureProofs PropertiesMixture DynModel SpecDyn DynProofs DynProofs2 DynProofs3 DynProofs4 DynProofs5 DynProofs6 DynProofs7 FloatModel.
From Coq Require Import QArith Qpower Qabs Qminmax Lqa Permutation.
Open Scope Z_scope.

(** Hypotheses of the theorems below hold of exact, of single-precision and of double-precision arithmetic, with pairwise
    summation. *)
Fixpoint pairwise (fl : Q -> Q) (fuel : nat) (l : list Q) : Q :=
  match l, fuel with
  | [x], _ => x
  | [], _ | _, O => 0%Q
  | _, S k => let h := (length l / 2)%nat in fl (pairwise fl k (firstn h l) + pairwise fl k (skipn h l))%Q
  end.
Definition numpy_sum (fl : Q -> Q) (l : list Q) : Q := pairwise fl (2 + Nat.log2 (length l)) l.
Lemma pairwise_ok fl k l : (length l <= 2 ^ k)%nat -> float_sum fl k l (pairwise fl k l).
Proof.
  revert l. induction k as [|k IH]; intros l H; [destruct l as [|x [|y l]]; [constructor|constructor|cbn in H; lia]|]. destruct l as [|x [|y l]]; [constructor|constructor|].
  set (L := x :: y :: l) in *. set (h := (length L / 2)%nat). change (pairwise fl (S k) L) with (fl (pairwise fl k (firstn h L) + pairwise fl k (skipn h L))%Q).
  assert (Hh : (h <= 2 ^ k /\ length L - h <= 2 ^ k)%nat). { rewrite Nat.pow_succ_r' in H. pose proof (Nat.div_mod (length L) 2 ltac:(lia)) as E. pose proof (Nat.mod_upper_bound (length L) 2 ltac:(lia)). fold h in E. lia. }
  rewrite <- (firstn_skipn h L) at 1. apply fs_add; apply IH; [rewrite firstn_length|rewrite skipn_length]; lia.
Qed.
Lemma float_sum_mono fl d d' l v : (d <= d')%nat -> float_sum fl d l v -> float_sum fl d' l v.
Proof.
  intros Hd H. revert d' Hd. induction H as [d|d x|d l1 l2 v1 v2 H1 IH1 H2 IH2|d l l' v Hp H IH]; intros d' Hd; [constructor|constructor| |].
  - destruct d' as [|d']; [lia|]. apply fs_add; [apply IH1|apply IH2]; lia.
  - eapply fs_perm; [exact Hp|apply IH, Hd].
Qed.
Lemma sums_numpy fl : sums fl (numpy_sum fl).
Proof.
  intros l. eapply float_sum_mono; [|apply pairwise_ok; unfold numpy_sum].
  2:{ destruct l as [|x l]; [cbn; lia|]. set (n := length (x :: l)). assert (Hn : (0 < n)%nat) by (cbn; lia). pose proof (Nat.log2_spec n Hn) as [_ H]. apply Nat.lt_le_incl. eapply Nat.lt_trans; [exact H|]. apply Nat.pow_lt_mono_r; lia. }
  lia.
Qed.
Lemma floating_flp p : 23 <= p -> floating (flp p).
Proof.
  intros Hp. split; [|intros x [H0 H1]; apply flp_close; [lia|exact H0|exact H1]]. intros x Hx. destruct (flp_close p x ltac:(lia) Hx) as [H _]. apply Qabs_Qle_condition in H.
  assert (P : (p2 (- p - 1) <= 1 # 2 ^ 24)%Q). { replace (- p - 1) with (- (p - 23) + - 24) by lia. rewrite p2_add. change (1 # 2 ^ 24)%Q with (p2 (- 24)). pose proof (p2_opp (p - 23)) as E. rewrite <- p2_Z in E by lia. assert (1 <= 2 ^ (p - 23)) by (assert (0 < 2 ^ (p - 23)) by (apply Z.pow_pos_nonneg; lia); lia). rewrite Zle_Qle in H0. change (inject_Z 1) with 1%Q in H0. pose proof (p2_pos (- (p - 23))). pose proof (p2_pos (- 24)). set (a := p2 (- (p - 23))) in *. set (b := p2 (-24)) in *. set (z := inject_Z _) in *. assert (a <= 1)%Q by nra. nra. }
  assert (X : (x * p2 (- p - 1) <= x * (1 # 2 ^ 24))%Q). { rewrite !(Qmult_comm x). apply Qmult_le_compat_r; assumption. } lra.
Qed.
Lemma floating_32 : floating fl32.
Proof. apply floating_flp. discriminate. Qed.
Lemma floating_64 : floating fl64.
Proof. apply floating_flp. discriminate. Qed.
Lemma floating_exactly : floating exactly.
Proof. split; [|intros x Hx; unfold exactly; tauto]. intros x Hx. unfold exactly. assert (0 <= (1 # 2 ^ 24) * x)%Q by (apply Qmult_le_0_compat; [discriminate|exact Hx]). split; lra. Qed.

Lemma float_sum_exactly d l v : float_sum exactly d l v -> (v == qsum l)%Q.
Proof.
  induction 1 as [d|d x|d l1 l2 v1 v2 H1 IH1 H2 IH2|d l l' v Hp H IH]; [reflexivity|cbn; ring|unfold exactly; rewrite qsum_app, IH1, IH2; reflexivity|]. rewrite IH. apply qsum_perm, Hp.
Qed.
Lemma fsum_depth fl l : float_sum fl (length l) l (fsum fl l).
Proof. unfold fsum. induction l as [|x l IH] using rev_ind; [constructor|]. rewrite fold_left_app, app_length. cbn [fold_left length]. rewrite Nat.add_1_r. apply fs_add; [exact IH|constructor]. Qed.

(** ** Averaging *)
Lemma avg_step fl nsum f s : well_formed f -> length (a_losses (s_acc s)) = length (a_counts (s_acc s)) ->
  exists a', update_state fl (fb_losses f) (fb_counts f) (s_acc s) = (a', None)
    /\ s_acc (fst (avg_process fl nsum (fb_losses f) (fb_counts f) (fb_mixture f) s)) = a'
    /\ snd (avg_process fl nsum (fb_losses f) (fb_counts f) (fb_mixture f) s) = inl (avg_mixture fl nsum a').
Proof.
  intros Hw Hl. destruct (update_ok fl f (s_acc s) Hw Hl) as (a' & E & _). exists a'. split; [exact E|].
  unfold avg_process, process_losses, avg_update. set (s1 := if _ <? _ then _ else s). assert (E1 : s_acc s1 = s_acc s) by (unfold s1; destruct (_ <? _); reflexivity).
  rewrite E1, E. auto.
Qed.
Lemma avg_run fl nsum l : Forall well_formed l -> accumulated fl l (s_acc (run (avg_process fl nsum) l savg0)).
Proof.
  induction l as [|f l IH] using rev_ind; intros Hl; [apply accumulated_nil|]. apply Forall_app in Hl as [Hl Hf]. inversion Hf as [|? ? Hw _]; subst. specialize (IH Hl). rewrite run_app. cbn [run].
  set (s := run _ l _) in *. destruct (accumulated_snoc fl l f (s_acc s) Hw IH) as (a' & E & H). destruct IH as (L1 & L2 & _). destruct (avg_step fl nsum f s Hw ltac:(congruence)) as (a2 & E2 & E3 & _).
  rewrite E3. rewrite E in E2. injection E2 as <-. exact H.
Qed.
Lemma avg_result fl nsum l f : Forall well_formed (l ++ [f]) -> exists a, accumulated fl (l ++ [f]) a
  /\ snd (avg_process fl nsum (fb_losses f) (fb_counts f) (fb_mixture f) (run (avg_process fl nsum) l savg0)) = inl (avg_mixture fl nsum a).
Proof.
  intros H. pose proof H as H0. apply Forall_app in H0 as [Hl Hf]. inversion Hf as [|? ? Hw _]; subst. pose proof (avg_run fl nsum l Hl) as A. destruct (accumulated_snoc fl l f _ Hw A) as (a' & E & A').
  destruct A as (L1 & L2 & _). destruct (avg_step fl nsum f _ Hw ltac:(rewrite L1, L2; reflexivity)) as (a2 & E2 & _ & E3). rewrite E in E2. injection E2 as <-. exists a'. auto.
Qed.

(** After any history of messages with as many losses as counts, whatever their lengths and mixture ids: the arrays are
    as long as the longest message; the count of a key is the sum of its counts, and its loss is the sum of its losses,
    added one by one in floating point. *)
Theorem C39_averaging_accounts_partial : forall fl nsum l, Forall well_formed l ->
  let a := s_acc (run (avg_process fl nsum) l savg0) in
  length (a_losses a) = widest l /\ length (a_counts a) = widest l
  /\ forall k, nth k (a_counts a) 0 = zsum (counts_of k l) /\ float_sum fl (length (losses_of k l)) (losses_of k l) (nth k (a_losses a) 0%Q).
Proof. intros fl nsum l Hl a. destruct (avg_run fl nsum l Hl) as (A1 & A2 & A3 & A4). fold a in A1, A2, A3, A4. split; [exact A1|]. split; [exact A2|]. intros k. split; [apply A4|]. rewrite A3. apply fsum_depth. Qed.
(** Without rounding: exactly the sums. *)
Corollary C39_averaging_accounts_exactly_partial : forall nsum l, Forall well_formed l ->
  let a := s_acc (run (avg_process exactly nsum) l savg0) in
  forall k, nth k (a_counts a) 0 = zsum (counts_of k l) /\ (nth k (a_losses a) 0 == qsum (losses_of k l))%Q.
Proof. intros nsum l Hl a k. destruct (C39_averaging_accounts_partial exactly nsum l Hl) as (_ & _ & H). destruct (H k) as [H1 H2]. split; [exact H1|]. eapply float_sum_exactly, H2. Qed.

Definition l_ex : list fb := [Fb [3%Q; 1%Q] [3; 1] 0; Fb [2%Q; 1%Q; 8%Q] [1; 1; 4] 1; Fb [1%Q] [2] 0].
Example C39_example : Forall well_formed l_ex
  /\ a_counts (s_acc (run (avg_process exactly qsum) l_ex savg0)) = [6; 2; 4] /\ zsum (counts_of 0 l_ex) = 6
  /\ losses_of 2 l_ex = [8%Q] /\ widest l_ex = 3%nat.
Proof. split; [repeat constructor|]. vm_compute. auto. Qed.

(** The averaging mixture, without rounding: nothing while no key has been counted; afterwards, whatever the history, the
    share of every key, and a distribution if no loss is negative. *)
Theorem C40_averaging_exact : forall l f, Forall well_formed (l ++ [f]) ->
  match snd (avg_process exactly qsum (fb_losses f) (fb_counts f) (fb_mixture f) (run (avg_process exactly qsum) l savg0)) with
  | inr _ => False
  | inl None => forall k, zsum (counts_of k (l ++ [f])) <= 0
  | inl (Some mix) =>
      (exists k, (k < widest (l ++ [f]))%nat /\ 0 < zsum (counts_of k (l ++ [f])))
      /\ length mix = widest (l ++ [f]) /\ (forall k, (k < widest (l ++ [f]))%nat -> (nth k mix 0 == share k (l ++ [f]))%Q)
      /\ (Forall (fun g => Forall (fun x => (0 <= x)%Q) (fb_losses g)) (l ++ [f]) -> distribution mix)
  end.
Proof.
  intros l f Hw. destruct (avg_result exactly qsum l f Hw) as (a & A & E). rewrite E. pose proof (avg_exact (l ++ [f]) a A) as H.
  pose proof A as (A1 & A2 & A3 & A4). destruct (avg_mixture exactly qsum a) as [mix|] eqn:Em; [|exact H]. destruct H as (H1 & H2 & H3). split; [exact H1|]. split; [exact H2|]. split; [exact H3|].
  intros Hn. assert (Hnl : Forall (fun x => (0 <= x)%Q) (a_losses a)).
  { rewrite Forall_forall. intros x Hx. apply In_nth_error in Hx as (k & Ek). apply nth_error_nth with (d := 0%Q) in Ek. rewrite <- Ek, A3, fsum_exact. apply qsum_nonneg. rewrite Forall_forall. intros y Hy. unfold losses_of in Hy. apply in_flat_map in Hy as (g & Hg & Hy). rewrite Forall_forall in Hn. specialize (Hn g Hg). destruct (nth_error (fb_losses g) k) as [z|] eqn:Ez; [|destruct Hy]. destruct Hy as [<-|[]]. apply nth_error_In in Ez. rewrite Forall_forall in Hn. auto. }
  assert (D := avg_mixture_ok exactly qsum 0 (fun n => n) ltac:(discriminate) ltac:(discriminate) rounds_exactly qsum_float_sum a ltac:(congruence) Hnl). destruct D as [_ D]. destruct (D mix Em) as (_ & N & _ & S).
  split; [exact N|]. destruct S as [[S1 S2] _]; [rewrite Qmult_0_r, Qmult_0_l; discriminate|]. rewrite Qmult_0_r, Qmult_0_l in S1, S2. lra.
Qed.
Print Assumptions C40_averaging_exact.

(** In single or double precision, with at most 2^20 keys and no negative losses: the mixture is a distribution up to rounding, only
    counted keys have a share, and the DynamicMixture's check of the sum accepts it. *)
Definition few_keys (l : list fb) : Prop := Z.of_nat (widest l) <= 2 ^ 20.
Lemma within_eps n v : Z.of_nat n <= 2 ^ 20 -> (1 - eps n <= v <= 1 + eps n)%Q -> (1 - (1 # 2 ^ 17) <= v <= 1 + (1 # 2 ^ 17))%Q.
Proof. intros Hn H. apply eps_small in Hn. change (1 # 2 ^ 17)%Q with (1 # 131072)%Q in *. lra. Qed.
Lemma eps_1000 n : Z.of_nat n <= 2 ^ 20 -> (eps n <= 1 # 1000)%Q.
Proof. intros Hn. eapply Qle_trans; [apply eps_small, Hn|discriminate]. Qed.
Lemma losses_nonneg fl l a : floating fl -> accumulated fl l a -> Forall (fun g => Forall (fun x => (0 <= x)%Q) (fb_losses g)) l -> Forall (fun x => (0 <= x)%Q) (a_losses a).
Proof.
  intros Hd (A1 & A2 & A3 & A4) Hn. rewrite Forall_forall. intros x Hx. apply In_nth_error in Hx as (k & Ek). apply nth_error_nth with (d := 0%Q) in Ek. rewrite <- Ek, A3.
  apply (float_sum_pos fl u32 u32_1 (proj1 Hd) _ _ _ (fsum_depth fl (losses_of k l))). rewrite Forall_forall. intros y Hy. unfold losses_of in Hy. apply in_flat_map in Hy as (g & Hg & Hy). rewrite Forall_forall in Hn. specialize (Hn g Hg). destruct (nth_error (fb_losses g) k) as [z|] eqn:Ez; [|destruct Hy]. destruct Hy as [<-|[]]. apply nth_error_In in Ez. rewrite Forall_forall in Hn. auto.
Qed.
Theorem C40_averaging_float : forall fl nsum l f, floating fl -> sums fl nsum ->
  Forall well_formed (l ++ [f]) -> few_keys (l ++ [f]) -> Forall (fun g => Forall (fun x => (0 <= x)%Q) (fb_losses g)) (l ++ [f]) ->
  match snd (avg_process fl nsum (fb_losses f) (fb_counts f) (fb_mixture f) (run (avg_process fl nsum) l savg0)) with
  | inr _ => False
  | inl None => forall k, zsum (counts_of k (l ++ [f])) <= 0
  | inl (Some mix) =>
      length mix = widest (l ++ [f]) /\ near_distribution mix /\ (forall k, (0 < nth k mix 0)%Q -> 0 < zsum (counts_of k (l ++ [f]))) /\ np_isclose (nsum mix) 1 = true
  end.
Proof.
  intros fl nsum l f Hd Hs Hw Hk Hn. destruct (avg_result fl nsum l f Hw) as (a & A & E). rewrite E. pose proof A as (A1 & A2 & A3 & A4).
  destruct (avg_mixture_ok fl nsum u32 dep u32_0 u32_1 (proj1 Hd) Hs a ltac:(congruence) (losses_nonneg fl _ a Hd A Hn)) as [D0 D].
  destruct (avg_mixture fl nsum a) as [mix|].
  - destruct (D mix eq_refl) as (D1 & D2 & D3 & D4). rewrite A1 in *. destruct (D4 (eps_1000 _ Hk)) as [D5 D6]. apply (within_eps _ _ Hk) in D5, D6. split; [exact D1|]. split; [split; assumption|]. split; [|apply close_np, D6]. intros k Hp. rewrite <- A4. apply D3, Hp.
  - intros k. rewrite <- A4. destruct (nth_in_or_default k (a_counts a) 0) as [Hin| ->]; [|lia]. pose proof (proj1 D0 eq_refl) as H. rewrite Forall_forall in H. auto.
Qed.
Print Assumptions C40_averaging_float.
Example C40_example : Forall well_formed l_ex /\ few_keys l_ex
  /\ snd (avg_process exactly qsum [1%Q] [2] 0 (run (avg_process exactly qsum) (firstn 2 l_ex) savg0)) <> inl None
  /\ (share 0 l_ex == 1 # 4)%Q /\ (share 1 l_ex == 1 # 4)%Q /\ (share 2 l_ex == 1 # 2)%Q.
Proof. split; [repeat constructor|]. split; [unfold few_keys; vm_compute; discriminate|]. split; [discriminate|]. vm_compute. auto. Qed.
