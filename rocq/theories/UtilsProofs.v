From Verif Require Import Base UtilsModel.
From Coq Require Import ZifyBool ZifyNat QArith Qabs Qround Lqa.
Open Scope Z_scope.

(** ** merge_sorted_lists *)
Lemma merge_nil_l l : merge_sorted_lists [] l = l.
Proof. destruct l; reflexivity. Qed.
Lemma merge_nil_r l : merge_sorted_lists l [] = l.
Proof. destruct l; reflexivity. Qed.
Lemma merge_cons x l1 y l2 :
  merge_sorted_lists (x :: l1) (y :: l2) =
  if fst x <=? fst y then x :: merge_sorted_lists l1 (y :: l2) else y :: merge_sorted_lists (x :: l1) l2.
Proof. reflexivity. Qed.

Lemma merge_perm l1 l2 : Permutation (merge_sorted_lists l1 l2) (l1 ++ l2).
Proof.
  revert l2. induction l1 as [|x l1 IH1]; intros l2; [rewrite merge_nil_l; reflexivity|].
  induction l2 as [|y l2 IH2]; [rewrite merge_nil_r, app_nil_r; reflexivity|].
  rewrite merge_cons. destruct (fst x <=? fst y).
  - cbn. constructor. apply IH1.
  - rewrite IH2. apply (Permutation_middle (x :: l1) l2 y).
Qed.

Definition start_le (a b : range) : Prop := fst a <= fst b.

Lemma merge_sorted l1 l2 :
  StronglySorted start_le l1 -> StronglySorted start_le l2 -> StronglySorted start_le (merge_sorted_lists l1 l2).
Proof.
  revert l2. induction l1 as [|x l1 IH1]; intros l2 H1 H2; [rewrite merge_nil_l; exact H2|].
  induction l2 as [|y l2 IH2]; [rewrite merge_nil_r; exact H1|].
  rewrite merge_cons.
  inversion H1 as [|? ? Hs1 Hf1]; subst. inversion H2 as [|? ? Hs2 Hf2]; subst.
  destruct (fst x <=? fst y) eqn:E.
  - constructor; [apply IH1; assumption|].
    rewrite Forall_forall in *. intros z Hz.
    apply (Permutation_in _ (merge_perm _ _)), in_app_or in Hz as [Hz|[<-|Hz]]; [auto| |]; unfold start_le in *.
    + lia.
    + specialize (Hf2 _ Hz). lia.
  - constructor; [apply IH2; assumption|].
    rewrite Forall_forall in *. intros z Hz.
    apply (Permutation_in _ (merge_perm _ _)), in_app_or in Hz as [[<-|Hz]|Hz]; [| |auto]; unfold start_le in *.
    + lia.
    + specialize (Hf1 _ Hz). lia.
Qed.

(** ** Largest remainder *)
Lemma qltb_spec a b : qltb a b = true <-> (a < b)%Q.
Proof.
  unfold qltb. rewrite Qlt_alt. destruct (Qcompare a b); split; congruence.
Qed.
Lemma qltb_false a b : qltb a b = false <-> (b <= a)%Q.
Proof.
  rewrite <- not_true_iff_false, qltb_spec. split; [apply Qnot_lt_le|apply Qle_not_lt].
Qed.

Lemma qtrunc_floor x : (0 <= x)%Q -> qtrunc x = Qfloor x.
Proof.
  intros H. unfold qtrunc, Qfloor. destruct x as [p q]. cbn [Qnum Qden].
  unfold Qle in H. cbn in H. apply Z.quot_div_nonneg; lia.
Qed.

Lemma qtrunc_bounds x : (0 <= x)%Q -> (inject_Z (qtrunc x) <= x)%Q /\ (x < inject_Z (qtrunc x) + 1)%Q.
Proof.
  intros H. rewrite (qtrunc_floor x H). split; [apply Qfloor_le|].
  pose proof (Qlt_floor x) as Hl. rewrite inject_Z_plus in Hl. exact Hl.
Qed.
Lemma qtrunc_nonneg x : (0 <= x)%Q -> 0 <= qtrunc x.
Proof.
  intros H. rewrite (qtrunc_floor x H). change 0 with (Qfloor 0). apply Qfloor_resp_le. exact H.
Qed.

Lemma qsum_cons x l : qsum (x :: l) = (x + qsum l)%Q.
Proof. reflexivity. Qed.
Lemma qsum_app a b : (qsum (a ++ b) == qsum a + qsum b)%Q.
Proof. induction a as [|x a IH]; cbn [app]; [cbn; ring|]. rewrite !qsum_cons, IH. ring. Qed.
Lemma qsum_perm a b : Permutation a b -> (qsum a == qsum b)%Q.
Proof.
  induction 1 as [|x a b _ IH|x y a|a b c _ IH1 _ IH2]; rewrite ?qsum_cons.
  - reflexivity.
  - rewrite IH. reflexivity.
  - ring.
  - rewrite IH1. exact IH2.
Qed.
Lemma qsum_le_len l : Forall (fun x => (x < 1)%Q) l -> (qsum l <= inject_Z (Z.of_nat (length l)))%Q.
Proof.
  induction 1 as [|x l Hx Hl IH]; [apply Qle_refl|].
  rewrite qsum_cons. cbn [length]. rewrite Nat2Z.inj_succ, <- Z.add_1_r, inject_Z_plus.
  change (inject_Z 1) with 1%Q. lra.
Qed.
Lemma qsum_nonpos l : Forall (fun x => (x <= 0)%Q) l -> (qsum l <= 0)%Q.
Proof. induction 1 as [|x l Hx Hl IH]; rewrite ?qsum_cons; [cbn; lra|lra]. Qed.
Lemma qsum_nonneg l : Forall (fun x => (0 <= x)%Q) l -> (0 <= qsum l)%Q.
Proof. induction 1 as [|x l Hx Hl IH]; rewrite ?qsum_cons; [cbn; lra|lra]. Qed.
Lemma inject_Z_zsum l : (inject_Z (zsum l) == qsum (map inject_Z l))%Q.
Proof.
  induction l as [|x l IH]; [reflexivity|]. cbn [map]. rewrite zsum_cons, qsum_cons, inject_Z_plus, IH. reflexivity.
Qed.

(** In a list of fractional parts sorted downwards whose sum is [r], the first [r] are positive and there are at
    least [r] of them. *)
Lemma sorted_fracs_positive (l : list Q) (r : Z) :
  Forall (fun x => (x < 1)%Q) l ->
  StronglySorted (fun a b => (b <= a)%Q) l ->
  (qsum l == inject_Z r)%Q ->
  forall p x, (Z.of_nat p < r) -> nth_error l p = Some x -> (0 < x)%Q.
Proof.
  intros Hlt Hs Hsum p x Hp Hn.
  apply Qnot_le_lt. intros Hx.
  assert (Hsplit : l = firstn p l ++ skipn p l) by (symmetry; apply firstn_skipn).
  assert (Hsk : Forall (fun y => (y <= 0)%Q) (skipn p l)).
  { clear Hsum Hlt Hsplit Hp. revert p x Hn Hx. induction Hs as [|a l Hs IH Hf]; intros p x Hn Hx.
    - destruct p; discriminate.
    - destruct p as [|p]; cbn in Hn |- *.
      + injection Hn as ->. constructor; [exact Hx|]. eapply Forall_impl; [|exact Hf]. cbn. intros b Hb. lra.
      + eapply IH; eauto. }
  assert (Hfn : (qsum (firstn p l) <= inject_Z (Z.of_nat p))%Q).
  { assert (Hlen : (length (firstn p l) <= p)%nat) by apply firstn_le_length.
    assert (H1 : (qsum (firstn p l) <= inject_Z (Z.of_nat (length (firstn p l))))%Q).
    { apply qsum_le_len. rewrite Hsplit in Hlt. apply Forall_app in Hlt. tauto. }
    eapply Qle_trans; [exact H1|]. rewrite <- Zle_Qle. lia. }
  pose proof (qsum_nonpos _ Hsk) as H0.
  rewrite Hsplit, qsum_app in Hsum.
  assert (Hr : (inject_Z (Z.of_nat p) < inject_Z r)%Q) by (rewrite <- Zlt_Qlt; exact Hp).
  lra.
Qed.

Lemma fracs_length (l : list Q) (r : Z) :
  Forall (fun x => (x < 1)%Q) l -> (qsum l == inject_Z r)%Q -> r <= Z.of_nat (length l).
Proof.
  intros H1 H2. pose proof (qsum_le_len l H1) as H. rewrite H2 in H. rewrite <- Zle_Qle in H. exact H.
Qed.

(** Effect of [dist_loop]. *)
Lemma incr_nth_length i l : length (incr_nth i l) = length l.
Proof. revert i. induction l as [|x l IH]; intros [|i]; cbn; auto. Qed.
Lemma incr_nth_nth i j l : nth_error (incr_nth i l) j =
  match nth_error l j with None => None | Some x => Some (if Nat.eqb i j then x + 1 else x) end.
Proof.
  revert i j. induction l as [|x l IH]; intros [|i] [|j]; cbn; try reflexivity.
  - destruct (nth_error l j); reflexivity.
  - rewrite IH. reflexivity.
Qed.

Lemma dist_loop_length r fp a : length (dist_loop r fp a) = length a.
Proof.
  revert r a. induction fp as [|[f i] fp IH]; intros r a; cbn; [reflexivity|].
  destruct (0 <? r); [|reflexivity]. rewrite IH. apply incr_nth_length.
Qed.

Lemma dist_loop_nth r fp a j :
  NoDup (map snd fp) ->
  nth_error (dist_loop r fp a) j =
  match nth_error a j with
  | None => None
  | Some x => Some (if existsb (Nat.eqb j) (map snd (firstn (Z.to_nat r) fp)) then x + 1 else x)
  end.
Proof.
  revert r a. induction fp as [|[f i] fp IH]; intros r a Hnd; cbn [dist_loop].
  - rewrite firstn_nil. cbn. destruct (nth_error a j); reflexivity.
  - cbn [map] in Hnd. inversion Hnd as [|? ? Hni Hnd']; subst. cbn [snd] in Hni.
    destruct (0 <? r) eqn:E.
    + rewrite IH by exact Hnd'. rewrite incr_nth_nth.
      replace (Z.to_nat r) with (S (Z.to_nat (r - 1))) by lia. cbn [firstn map existsb snd].
      destruct (nth_error a j) as [x|]; [|reflexivity]. f_equal.
      rewrite (Nat.eqb_sym j i). destruct (Nat.eqb i j) eqn:Eij; cbn [orb]; [|reflexivity].
      apply Nat.eqb_eq in Eij. subst j.
      replace (existsb (Nat.eqb i) (map snd (firstn (Z.to_nat (r - 1)) fp))) with false; [reflexivity|].
      symmetry. apply not_true_iff_false. rewrite existsb_exists. intros (y & Hy & Hyi). apply Nat.eqb_eq in Hyi. subst y.
      apply Hni. rewrite <- (firstn_skipn (Z.to_nat (r - 1)) fp), map_app. apply in_or_app. left. exact Hy.
    + replace (Z.to_nat r) with O by lia. cbn. destruct (nth_error a j); reflexivity.
Qed.

Lemma zsum_incr_nth i l : (i < length l)%nat -> zsum (incr_nth i l) = zsum l + 1.
Proof.
  revert i. induction l as [|x l IH]; intros [|i] H; cbn in H; try lia; cbn [incr_nth]; rewrite !zsum_cons; [lia|].
  rewrite IH by lia. lia.
Qed.
Lemma zsum_dist_loop r fp a :
  (forall f i, In (f, i) fp -> (i < length a)%nat) -> 0 <= r <= Z.of_nat (length fp) ->
  zsum (dist_loop r fp a) = zsum a + r.
Proof.
  revert r a. induction fp as [|[f i] fp IH]; intros r a Hin Hr; cbn [dist_loop length] in *; [lia|].
  destruct (0 <? r) eqn:E; [|lia].
  rewrite IH.
  - rewrite zsum_incr_nth; [lia|]. eapply Hin. left. reflexivity.
  - intros f' i' H'. rewrite incr_nth_length. eapply Hin. right. exact H'.
  - lia.
Qed.

(** The common core of distribute_by_ratio and of StaticMixture.parse_user_mixture. *)
Definition lr_assign (n : Z) (exact : list Q) : list Z :=
  let assigned := map qtrunc exact in
  let fp := combine (map (fun x => (x - inject_Z (qtrunc x))%Q) exact) (seq 0 (length exact)) in
  dist_loop (n - zsum assigned) (sort_desc fp) assigned.

Lemma sort_desc_perm l : Permutation (sort_desc l) l.
Proof. apply isort_perm. Qed.
Lemma sort_desc_sorted l : StronglySorted (fun a b => (fst b <= fst a)%Q) (sort_desc l).
Proof.
  unfold sort_desc.
  pose proof (isort_sorted (fun a b : Q * nat => qltb (fst b) (fst a))) as H.
  assert (H' : StronglySorted (fun a b : Q * nat => qltb (fst a) (fst b) = false)
                 (isort (fun a b : Q * nat => qltb (fst b) (fst a)) l)).
  { apply H.
    - intros a b. rewrite qltb_spec, qltb_false. intros Hl. lra.
    - intros a b c. rewrite !qltb_false. intros. lra. }
  clear H. induction H' as [|a l' Hs IH Hf]; constructor; [exact IH|].
  eapply Forall_impl; [|exact Hf]. cbn. intros b Hb. apply qltb_false in Hb. exact Hb.
Qed.

Lemma StronglySorted_map_fst (l : list (Q * nat)) :
  StronglySorted (fun a b => (fst b <= fst a)%Q) l -> StronglySorted (fun a b => (b <= a)%Q) (map fst l).
Proof.
  induction 1 as [|a l Hs IH Hf]; cbn; constructor; [exact IH|].
  rewrite Forall_forall in *. intros x Hx. apply in_map_iff in Hx as (y & <- & Hy). auto.
Qed.

Lemma map_fst_combine_ {A B} (a : list A) (b : list B) : length a = length b -> map fst (combine a b) = a.
Proof. revert b. induction a as [|x a IH]; intros [|y b] H; cbn in *; try discriminate; [reflexivity|]. f_equal. auto. Qed.
Lemma map_snd_combine_ {A B} (a : list A) (b : list B) : length a = length b -> map snd (combine a b) = b.
Proof. revert b. induction a as [|x a IH]; intros [|y b] H; cbn in *; try discriminate; [reflexivity|]. f_equal. auto. Qed.

Lemma in_combine_seq {A} (a : list A) x i s :
  In (x, i) (combine a (seq s (length a))) -> nth_error a (i - s) = Some x /\ (s <= i < s + length a)%nat.
Proof.
  revert s. induction a as [|y a IH]; intros s; cbn; [tauto|].
  intros [[= <- <-]|H].
  - rewrite Nat.sub_diag. cbn. split; [reflexivity|lia].
  - apply IH in H as [H1 H2]. split; [|lia].
    replace (i - s)%nat with (S (i - S s)) by lia. exact H1.
Qed.

Section LargestRemainder.
  Variables (n : Z) (exact : list Q).
  Hypothesis Hpos : Forall (fun x => (0 <= x)%Q) exact.
  Hypothesis Hsum : (qsum exact == inject_Z n)%Q.

  Let fracs := map (fun x => (x - inject_Z (qtrunc x))%Q) exact.
  Let fp := combine fracs (seq 0 (length exact)).
  Let assigned := map qtrunc exact.
  Let r := n - zsum assigned.

  Lemma lr_fracs_len : length fracs = length (seq 0 (length exact)).
  Proof. unfold fracs. rewrite map_length, seq_length. reflexivity. Qed.

  Lemma lr_fracs_range : Forall (fun x => (0 <= x < 1)%Q) fracs.
  Proof.
    unfold fracs. apply Forall_forall. intros x Hx. apply in_map_iff in Hx as (y & <- & Hy).
    rewrite Forall_forall in Hpos. pose proof (qtrunc_bounds y (Hpos y Hy)). lra.
  Qed.

  Lemma lr_fracs_sum : (qsum fracs == inject_Z r)%Q.
  Proof.
    unfold r, assigned. replace (n - zsum (map qtrunc exact)) with (n + - zsum (map qtrunc exact)) by lia.
    rewrite inject_Z_plus, inject_Z_opp, <- Hsum, inject_Z_zsum. unfold fracs.
    clear. induction exact as [|x l IH]; [reflexivity|]. cbn [map]. rewrite !qsum_cons, IH. ring.
  Qed.

  Lemma lr_r_range : 0 <= r <= Z.of_nat (length exact).
  Proof.
    split.
    - assert (H : (0 <= inject_Z r)%Q).
      { rewrite <- lr_fracs_sum. apply qsum_nonneg. eapply Forall_impl; [|apply lr_fracs_range]. cbn. intros; lra. }
      change 0%Q with (inject_Z 0) in H. rewrite <- Zle_Qle in H. exact H.
    - replace (length exact) with (length fracs) by (unfold fracs; apply map_length).
      apply fracs_length; [|apply lr_fracs_sum]. eapply Forall_impl; [|apply lr_fracs_range]. cbn. intros; lra.
  Qed.

  Lemma lr_sum : zsum (lr_assign n exact) = n.
  Proof.
    unfold lr_assign. fold assigned fracs fp r.
    rewrite zsum_dist_loop.
    - unfold r. lia.
    - intros f i Hin. apply (Permutation_in _ (sort_desc_perm _)) in Hin. unfold fp in Hin.
      replace (length exact) with (length fracs) in Hin by (unfold fracs; apply map_length).
      apply in_combine_seq in Hin as [_ Hi]. unfold assigned. rewrite map_length.
      unfold fracs in Hi. rewrite map_length in Hi. lia.
    - rewrite (Permutation_length (sort_desc_perm fp)). unfold fp. rewrite combine_length, seq_length.
      replace (length fracs) with (length exact) by (unfold fracs; rewrite map_length; reflexivity).
      rewrite Nat.min_id. apply lr_r_range.
  Qed.

  Lemma lr_length : length (lr_assign n exact) = length exact.
  Proof. unfold lr_assign. rewrite dist_loop_length, map_length. reflexivity. Qed.

  (** Every part is the exact share rounded down or up. *)
  Lemma lr_round i x : nth_error exact i = Some x ->
    exists v, nth_error (lr_assign n exact) i = Some v /\ (v = Qfloor x \/ v = Qceiling x).
  Proof.
    intros Hx. unfold lr_assign. fold assigned fracs fp r.
    assert (Hnds : NoDup (map snd (sort_desc fp))).
    { eapply Permutation_NoDup; [apply Permutation_map; symmetry; apply sort_desc_perm|].
      unfold fp. rewrite map_snd_combine_ by apply lr_fracs_len. apply seq_NoDup. }
    rewrite dist_loop_nth by exact Hnds.
    unfold assigned at 1. rewrite nth_error_map, Hx. cbn [option_map].
    assert (Hx0 : (0 <= x)%Q) by (rewrite Forall_forall in Hpos; apply Hpos; eapply nth_error_In; exact Hx).
    rewrite (qtrunc_floor x Hx0).
    destruct (existsb (Nat.eqb i) (map snd (firstn (Z.to_nat r) (sort_desc fp)))) eqn:E; [|eauto].
    exists (Qfloor x + 1). split; [reflexivity|]. right.
    apply existsb_exists in E as (i' & Hin & Hi). apply Nat.eqb_eq in Hi. subst i'.
    apply in_map_iff in Hin as ([f i'] & Hi' & Hin). cbn in Hi'. subst i'.
    (* position of (f,i) *)
    apply In_nth_error in Hin as (p & Hp).
    assert (Hplt : (p < Z.to_nat r)%nat).
    { assert (p < length (firstn (Z.to_nat r) (sort_desc fp)))%nat by (apply nth_error_Some; congruence).
      pose proof (firstn_le_length (Z.to_nat r) (sort_desc fp)). lia. }
    assert (Hp' : nth_error (sort_desc fp) p = Some (f, i)).
    { rewrite <- (firstn_skipn (Z.to_nat r) (sort_desc fp)). rewrite nth_error_app1; [exact Hp|].
      apply nth_error_Some. congruence. }
    assert (Hfp : (0 < f)%Q).
    { apply (sorted_fracs_positive (map fst (sort_desc fp)) r) with (p := p).
      - rewrite Forall_forall. intros y Hy. apply (Permutation_in _ (Permutation_map fst (sort_desc_perm fp))) in Hy.
        unfold fp in Hy. rewrite map_fst_combine_ in Hy by apply lr_fracs_len.
        pose proof lr_fracs_range as Hr. rewrite Forall_forall in Hr. apply Hr in Hy. lra.
      - apply StronglySorted_map_fst, sort_desc_sorted.
      - rewrite (qsum_perm _ _ (Permutation_map fst (sort_desc_perm fp))). unfold fp.
        rewrite map_fst_combine_ by apply lr_fracs_len. apply lr_fracs_sum.
      - lia.
      - rewrite nth_error_map, Hp'. reflexivity. }
    apply nth_error_In in Hp'. apply (Permutation_in _ (sort_desc_perm _)) in Hp'. unfold fp in Hp'.
    replace (length exact) with (length fracs) in Hp' by (unfold fracs; apply map_length).
    apply in_combine_seq in Hp' as [Hf _]. rewrite Nat.sub_0_r in Hf.
    unfold fracs in Hf. rewrite nth_error_map, Hx in Hf. cbn in Hf. injection Hf as Hf.
    rewrite (qtrunc_floor x Hx0) in Hf. subst f.
    (* ceiling = floor + 1 when the fraction is positive *)
    assert (Hc1 : Qfloor x + 1 <= Qceiling x).
    { assert (H : (inject_Z (Qfloor x) < inject_Z (Qceiling x))%Q) by (pose proof (Qle_ceiling x); lra).
      rewrite <- Zlt_Qlt in H. lia. }
    assert (Hc2 : Qceiling x <= Qfloor x + 1).
    { pose proof (Qceiling_lt x) as H1. pose proof (Qlt_floor x) as H2.
      assert (H : (inject_Z (Qceiling x - 1) < inject_Z (Qfloor x + 1))%Q) by lra.
      rewrite <- Zlt_Qlt in H. lia. }
    lia.
  Qed.

  Lemma lr_nonneg : Forall (fun v => 0 <= v) (lr_assign n exact).
  Proof.
    rewrite Forall_forall. intros v Hv. apply In_nth_error in Hv as (i & Hi).
    destruct (nth_error exact i) as [x|] eqn:Hx.
    - destruct (lr_round i x Hx) as (v' & Hv' & Hor). rewrite Hi in Hv'. injection Hv' as ->.
      assert (Hx0 : (0 <= x)%Q) by (rewrite Forall_forall in Hpos; apply Hpos; eapply nth_error_In; exact Hx).
      assert (H0 : 0 <= Qfloor x) by (change 0 with (Qfloor 0); apply Qfloor_resp_le; exact Hx0).
      assert (H1 : Qfloor x <= Qceiling x).
      { rewrite Zle_Qle. pose proof (Qfloor_le x). pose proof (Qle_ceiling x). lra. }
      lia.
    - apply nth_error_None in Hx. assert (i < length (lr_assign n exact))%nat by (apply nth_error_Some; congruence).
      rewrite lr_length in H. lia.
  Qed.
End LargestRemainder.

Lemma qsum_scale n l : (qsum (map (fun r => (r * inject_Z n)%Q) l) == qsum l * inject_Z n)%Q.
Proof. induction l as [|x l IH]; cbn [map]; [cbn; ring|]. rewrite !qsum_cons, IH. ring. Qed.

Lemma distribute_eq n ratios :
  ratios <> [] -> (qsum ratios == 1)%Q ->
  distribute_by_ratio n ratios = Some (lr_assign n (map (fun r => (r * inject_Z n)%Q) ratios)).
Proof.
  intros Hne Hs. unfold distribute_by_ratio. destruct ratios as [|r0 rs]; [congruence|].
  set (l := r0 :: rs) in *.
  assert (Hd : qltb (1 # 1000000000) (Qabs (qsum l - 1)) = false).
  { apply qltb_false. assert (Hz : (qsum l - 1 == 0)%Q) by lra. rewrite Hz. cbn. discriminate. }
  rewrite Hd. reflexivity.
Qed.

Lemma distribute_spec n ratios :
  0 <= n -> ratios <> [] -> Forall (fun r => (0 <= r)%Q) ratios -> (qsum ratios == 1)%Q ->
  exists l, distribute_by_ratio n ratios = Some l /\ length l = length ratios /\ zsum l = n
            /\ Forall (fun v => 0 <= v) l
            /\ forall i r, nth_error ratios i = Some r ->
                 exists v, nth_error l i = Some v
                           /\ (v = Qfloor (r * inject_Z n) \/ v = Qceiling (r * inject_Z n)).
Proof.
  intros Hn Hne Hpos Hs. rewrite distribute_eq by assumption. eexists. split; [reflexivity|].
  set (ex := map (fun r => (r * inject_Z n)%Q) ratios).
  assert (Hexpos : Forall (fun x => (0 <= x)%Q) ex).
  { unfold ex. rewrite Forall_forall in *. intros x Hx. apply in_map_iff in Hx as (y & <- & Hy).
    apply Qmult_le_0_compat; [auto|]. change 0%Q with (inject_Z 0). rewrite <- Zle_Qle. exact Hn. }
  assert (Hexsum : (qsum ex == inject_Z n)%Q) by (unfold ex; rewrite qsum_scale, Hs; ring).
  split; [rewrite lr_length; unfold ex; apply map_length|].
  split; [apply lr_sum; assumption|].
  split; [apply lr_nonneg; assumption|].
  intros i r Hi. apply lr_round; try assumption. unfold ex. rewrite nth_error_map, Hi. reflexivity.
Qed.
