(** Proofs about the averaging algorithm. *)
From Verif Require Import Base MixtureKeyModel UtilsModel UtilsProofs ChunkGenModel MixtureModel MixtureProofs DynModel SpecDyn DynProofs.
From Coq Require Import QArith Qabs Qminmax Lqa Permutation.
Open Scope Z_scope.

Lemma combine_map_both {A B C D} (f : A -> C) (g : B -> D) (l : list A) (r : list B) :
  combine (map f l) (map g r) = map (fun p => (f (fst p), g (snd p))) (combine l r).
Proof. revert r. induction l as [|x l IH]; intros [|y r]; cbn; try reflexivity. rewrite IH. reflexivity. Qed.
Lemma map_snd_combine_eq {A B} (l : list A) (r : list B) : length l = length r -> map snd (combine l r) = r.
Proof. revert r. induction l as [|x l IH]; intros [|y r] H; cbn in *; try discriminate; [reflexivity|]. rewrite IH by lia. reflexivity. Qed.
Lemma map_fst_combine_eq {A B} (l : list A) (r : list B) : length l = length r -> map fst (combine l r) = l.
Proof. revert r. induction l as [|x l IH]; intros [|y r] H; cbn in *; try discriminate; [reflexivity|]. rewrite IH by lia. reflexivity. Qed.
Lemma filter_map_comm {A B} (f : A -> B) (p : B -> bool) l : filter p (map f l) = map f (filter (fun x => p (f x)) l).
Proof. induction l as [|x l IH]; cbn; [reflexivity|]. destruct (p (f x)); cbn; rewrite IH; reflexivity. Qed.
Lemma Qeq_bool_pos x : (0 < x)%Q -> Qeq_bool x 0 = false.
Proof. intros H. apply not_true_is_false. intros E. apply Qeq_bool_iff in E. lra. Qed.
Lemma qpos_true x : qpos x = true <-> (0 < x)%Q.
Proof.
  unfold qpos. rewrite negb_true_iff. split.
  - intros H. apply Qnot_le_lt. intros C. apply Qle_bool_iff in C. congruence.
  - intros H. apply not_true_is_false. intros E. apply Qle_bool_iff in E. lra.
Qed.
Lemma qpos_false x : qpos x = false <-> (x <= 0)%Q.
Proof. unfold qpos. rewrite negb_false_iff. apply Qle_bool_iff. Qed.

Section Avg.
  Variables (fl : Q -> Q) (nsum : list Q -> Q) (u : Q) (dep : nat -> nat).
  Hypothesis Hu : (0 <= u)%Q.
  Hypothesis Hu1 : (u <= 1 # 2)%Q.
  Hypothesis Hfl : rounds fl u.
  Hypothesis Hsum : forall l, float_sum fl (dep (length l)) l (nsum l).

  Definition avg_of (p : Q * Z) : Q := fl (fst p / inject_Z (snd p))%Q.
  Definition counted (p : Q * Z) : bool := 0 <? snd p.
  (** The array before the last normalisation. *)
  Definition raw_mix (lc : list (Q * Z)) : list Q :=
    let t := nsum (map avg_of (filter counted lc)) in
    map (fun p => if counted p then if Qeq_bool t 0 then fl (1 / inject_Z (Z.of_nat (length (filter counted lc))))%Q else fl (avg_of p / t)%Q else 0%Q) lc.

  Lemma avg_mixture_eq a : length (a_losses a) = length (a_counts a) ->
    avg_mixture fl nsum a =
      let lc := combine (a_losses a) (a_counts a) in
      if existsb counted lc then let s := nsum (raw_mix lc) in Some (if Qeq_bool s 0 then raw_mix lc else map (fun x => fl (x / s)%Q) (raw_mix lc)) else None.
  Proof.
    intros Hl. set (lc := combine (a_losses a) (a_counts a)). unfold avg_mixture.
    assert (Em : map (fun c => 0 <? c) (a_counts a) = map counted lc) by (unfold counted; rewrite <- (map_snd_combine_eq _ _ Hl) at 1; fold lc; rewrite map_map; reflexivity).
    rewrite Em. fold lc.
    assert (Ee : existsb (fun b => b) (map counted lc) = existsb counted lc) by (clear; induction lc as [|p l IH]; cbn; [reflexivity|rewrite IH; reflexivity]).
    rewrite Ee. destruct (existsb counted lc) eqn:Ex; cbn [negb]; [|reflexivity].
    assert (Ec : combine (map (fun p : Q * Z => if 0 <? snd p then fl (fst p / inject_Z (snd p))%Q else 0%Q) lc) (map counted lc)
                 = map (fun p => (if counted p then avg_of p else 0%Q, counted p)) lc).
    { clear. induction lc as [|p l IH]; cbn; [reflexivity|]. rewrite IH. reflexivity. }
    rewrite Ec. rewrite filter_map_comm, map_map. cbn [fst snd].
    assert (Ef : map (fun x => if counted x then avg_of x else 0%Q) (filter (fun x => counted x) lc) = map avg_of (filter counted lc)).
    { apply map_ext_in. intros x Hx. apply filter_In in Hx as [_ Hx]. rewrite Hx. reflexivity. }
    rewrite Ef. rewrite filter_map_comm, map_length.
    assert (Er : (if Qeq_bool (nsum (map avg_of (filter counted lc))) 0
                  then map (fun p : Q * bool => if snd p then fl (1 / inject_Z (Z.of_nat (length (filter (fun x => counted x) lc))))%Q else 0%Q) (map (fun p => (if counted p then avg_of p else 0%Q, counted p)) lc)
                  else map (fun p : Q * bool => if snd p then fl (fst p / nsum (map avg_of (filter counted lc)))%Q else 0%Q) (map (fun p => (if counted p then avg_of p else 0%Q, counted p)) lc))
                 = raw_mix lc).
    { unfold raw_mix. destruct (Qeq_bool _ 0); rewrite map_map; apply map_ext; intros p; cbn [fst snd]; destruct (counted p); reflexivity. }
    rewrite Er. reflexivity.
  Qed.

  Lemma counted_some lc : existsb counted lc = true -> filter counted lc <> [].
  Proof. intros H. apply existsb_exists in H as (x & Hx & Hc). intros E. assert (In x (filter counted lc)) by (apply filter_In; auto). rewrite E in H. exact H. Qed.
  Lemma avg_of_nonneg p : (0 <= fst p)%Q -> counted p = true -> (0 <= avg_of p)%Q.
  Proof.
    intros H Hc. unfold avg_of. apply (fl_pos fl u Hu1 Hfl). apply Z.ltb_lt in Hc. apply Qle_shift_div_l; [change 0%Q with (inject_Z 0); rewrite <- Zlt_Qlt; exact Hc|lra].
  Qed.

  Lemma raw_mix_ok lc : Forall (fun p => (0 <= fst p)%Q) lc -> existsb counted lc = true ->
    Forall (fun x => (0 <= x)%Q) (raw_mix lc) /\ Exists (fun x => (0 < x)%Q) (raw_mix lc).
  Proof.
    intros Hl Hc. pose proof (counted_some lc Hc) as Hne. set (L := map avg_of (filter counted lc)).
    assert (HL : Forall (fun x => (0 <= x)%Q) L).
    { unfold L. rewrite Forall_map, Forall_forall. intros p Hp. apply filter_In in Hp as [Hp1 Hp2]. apply avg_of_nonneg; [|exact Hp2]. rewrite Forall_forall in Hl. apply Hl, Hp1. }
    destruct (float_sum_pos fl u Hu1 Hfl _ _ _ (Hsum L) HL) as [T0 T1]. set (t := nsum L) in *.
    set (m := inject_Z (Z.of_nat (length (filter counted lc)))).
    assert (Hm : (0 < m)%Q). { unfold m. change 0%Q with (inject_Z 0). rewrite <- Zlt_Qlt. destruct (filter counted lc); [congruence|cbn; lia]. }
    assert (Hinv : (0 < 1 / m)%Q) by (apply Qlt_shift_div_l; lra).
    unfold raw_mix. fold L t m. destruct (Qeq_bool t 0) eqn:Et.
    - split.
      + rewrite Forall_map, Forall_forall. intros p Hp. destruct (counted p); [|lra]. apply (fl_pos fl u Hu1 Hfl). lra.
      + apply existsb_exists in Hc as (p & Hp & Hcp). apply Exists_exists. exists (fl (1 / m)%Q). split; [|apply (fl_spos fl u Hu1 Hfl), Hinv].
        apply in_map_iff. exists p. rewrite Hcp. auto.
    - assert (Ht : (0 < t)%Q). { destruct (Qlt_le_dec 0 t) as [|N]; [assumption|]. exfalso. assert (E : (t == 0)%Q) by lra. apply Qeq_bool_iff in E. congruence. }
      split.
      + rewrite Forall_map, Forall_forall. intros p Hp. destruct (counted p) eqn:Ecp; [|lra]. apply (fl_pos fl u Hu1 Hfl). apply Qle_shift_div_l; [exact Ht|].
        rewrite Forall_forall in Hl. pose proof (avg_of_nonneg p (Hl p Hp) Ecp). lra.
      + apply T1 in Ht as Hex. apply Exists_exists in Hex as (x & Hx & Hxp). unfold L in Hx. apply in_map_iff in Hx as (p & <- & Hp). apply filter_In in Hp as [Hp1 Hp2].
        apply Exists_exists. exists (fl (avg_of p / t)%Q). split; [apply in_map_iff; exists p; rewrite Hp2; auto|]. apply (fl_spos fl u Hu1 Hfl). apply Qlt_shift_div_l; lra.
  Qed.

  Lemma avg_mixture_ok a : length (a_losses a) = length (a_counts a) -> Forall (fun x => (0 <= x)%Q) (a_losses a) ->
    (avg_mixture fl nsum a = None <-> Forall (fun c => c <= 0) (a_counts a))
    /\ forall mix, avg_mixture fl nsum a = Some mix ->
         let e := ((2 * inject_Z (Z.of_nat (dep (length (a_losses a)))) + 2) * u * (1001 # 1000))%Q in
         length mix = length (a_losses a) /\ Forall (fun x => (0 <= x)%Q) mix
         /\ (forall k, (0 < nth k mix 0)%Q -> 0 < nth k (a_counts a) 0)
         /\ ((e <= 1 # 1000)%Q -> (1 - e <= qsum mix <= 1 + e)%Q /\ (1 - e <= nsum mix <= 1 + e)%Q).
  Proof.
    intros Hl Hn. rewrite avg_mixture_eq by exact Hl. cbv zeta. set (lc := combine (a_losses a) (a_counts a)).
    assert (Hlc : Forall (fun p => (0 <= fst p)%Q) lc) by (rewrite Forall_forall in *; intros [x c] Hp; apply Hn; apply in_combine_l in Hp; exact Hp).
    assert (Hcs : a_counts a = map snd lc) by (symmetry; apply map_snd_combine_eq, Hl).
    assert (Hll : length lc = length (a_losses a)) by (unfold lc; rewrite combine_length; lia). split.
    - rewrite Hcs, Forall_map. destruct (existsb counted lc) eqn:Ex.
      + split; [discriminate|]. intros H. exfalso. apply existsb_exists in Ex as (p & Hp & Hc). rewrite Forall_forall in H. specialize (H p Hp). apply Z.ltb_lt in Hc. lia.
      + split; [intros _|reflexivity]. rewrite Forall_forall. intros p Hp. destruct (Z.leb_spec (snd p) 0); [assumption|]. exfalso.
        assert (existsb counted lc = true) by (apply existsb_exists; exists p; split; [exact Hp|apply Z.ltb_lt; lia]). congruence.
    - intros mix. destruct (existsb counted lc) eqn:Ex; [|discriminate]. destruct (raw_mix_ok lc Hlc Ex) as [R1 R2].
      destruct (float_sum_pos fl u Hu1 Hfl _ _ _ (Hsum (raw_mix lc)) R1) as [_ T1]. apply T1 in R2 as Hs. rewrite Qeq_bool_pos by exact Hs. intros [= <-].
      assert (Hlr : length (raw_mix lc) = length (a_losses a)) by (unfold raw_mix; rewrite map_length; exact Hll).
      split; [rewrite map_length; exact Hlr|].
      assert (Hnn : Forall (fun x => (0 <= x)%Q) (map (fun x => fl (x / nsum (raw_mix lc))%Q) (raw_mix lc))).
      { rewrite Forall_map. eapply Forall_impl; [|exact R1]. cbn. intros x Hx. apply (fl_pos fl u Hu1 Hfl). apply Qle_shift_div_l; lra. }
      split; [exact Hnn|]. split.
      + intros k Hk. rewrite Hcs. destruct (nth_error lc k) as [p|] eqn:Ep.
        * assert (E : nth k (map (fun x => fl (x / nsum (raw_mix lc))%Q) (raw_mix lc)) 0%Q
                      = fl ((if counted p then if Qeq_bool (nsum (map avg_of (filter counted lc))) 0 then fl (1 / inject_Z (Z.of_nat (length (filter counted lc))))%Q else fl (avg_of p / nsum (map avg_of (filter counted lc)))%Q else 0%Q) / nsum (raw_mix lc))%Q).
          { apply nth_error_nth. rewrite nth_error_map. unfold raw_mix at 2. rewrite nth_error_map, Ep. reflexivity. }
          rewrite E in Hk. rewrite (nth_error_nth (map snd lc) k 0 (x := snd p)) by (rewrite nth_error_map, Ep; reflexivity).
          destruct (counted p) eqn:Ec; [apply Z.ltb_lt in Ec; exact Ec|]. exfalso.
          assert (E0 : (0 / nsum (raw_mix lc) == 0)%Q) by (field; lra). rewrite (fl_zero fl u Hfl _ E0) in Hk. lra.
        * apply nth_error_None in Ep. rewrite nth_overflow in Hk by (rewrite map_length; lia). lra.
      + destruct (normalised_nsum fl u Hu Hu1 Hfl nsum dep (raw_mix lc) Hsum R1 Hs) as [_ N]. rewrite Hlr in N. exact N.
  Qed.
End Avg.

(** ** Exact arithmetic *)
Lemma rounds_exactly : rounds exactly 0.
Proof. intros x Hx. unfold exactly. lra. Qed.
(** One left-to-right sum, as a special case of a float sum. *)
Lemma fsum_float_sum fl l : float_sum fl (length l) l (fold_right (fun x acc => fl (x + acc)%Q) 0%Q l).
Proof. induction l as [|x l IH]; [constructor|]. cbn [length fold_right]. change (x :: l) with ([x] ++ l). apply fs_add; [constructor|exact IH]. Qed.
Lemma qsum_float_sum l : float_sum exactly (length l) l (qsum l).
Proof. apply (fsum_float_sum exactly l). Qed.
