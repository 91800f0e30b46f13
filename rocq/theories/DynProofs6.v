(** The averaging algorithm in exact arithmetic. *)
From Verif Require Import Base MixtureKeyModel UtilsModel UtilsProofs ChunkGenModel MixtureModel MixtureProofs DynModel SpecDyn DynProofs DynProofs2.
From Coq Require Import QArith Qabs Qminmax Lqa Permutation.
Open Scope Z_scope.

Lemma combine_seq (ls : list Q) (cs : list Z) : length ls = length cs -> combine ls cs = map (fun j => (nth j ls 0%Q, nth j cs 0)) (seq 0 (length ls)).
Proof.
  revert cs. induction ls as [|x ls IH]; intros [|c cs] H; try discriminate; [reflexivity|]. cbn [combine length seq map nth]. f_equal. rewrite IH by (cbn in H; lia). rewrite <- seq_shift, map_map. reflexivity.
Qed.
Lemma qsum_filter_map {A} (p : A -> bool) (f : A -> Q) l : (qsum (map f (filter p l)) == qsum (map (fun x => if p x then f x else 0%Q) l))%Q.
Proof. induction l as [|x l IH]; [reflexivity|]. cbn [filter map]. destruct (p x); cbn [map]; rewrite !qsum_cons, IH; [reflexivity|ring]. Qed.
Lemma qsum_ext {A} (f g : A -> Q) l : (forall x, In x l -> (f x == g x)%Q) -> (qsum (map f l) == qsum (map g l))%Q.
Proof. induction l as [|x l IH]; intros H; [reflexivity|]. cbn [map]. rewrite !qsum_cons, (H x) by (left; reflexivity). rewrite IH; [reflexivity|]. intros; apply H; right; assumption. Qed.
Lemma qsum_const {A} (c : Q) (l : list A) : (qsum (map (fun _ => c) l) == c * inject_Z (Z.of_nat (length l)))%Q.
Proof. induction l as [|x l IH]; [cbn; ring|]. cbn [map length]. rewrite qsum_cons, IH, Nat2Z.inj_succ, <- Z.add_1_r, inject_Z_plus. change (inject_Z 1) with 1%Q. ring. Qed.
Lemma qsum_div {A} (f : A -> Q) t l : ~ (t == 0)%Q -> (qsum (map (fun x => (f x / t)%Q) l) == qsum (map f l) / t)%Q.
Proof. intros Ht. induction l as [|x l IH]; [cbn; field; exact Ht|]. cbn [map]. rewrite !qsum_cons, IH. field. exact Ht. Qed.
Lemma Qeq_bool_ext a b c : (a == b)%Q -> Qeq_bool a c = Qeq_bool b c.
Proof. intros H. destruct (Qeq_bool b c) eqn:E; [apply Qeq_bool_iff; apply Qeq_bool_iff in E; rewrite H; exact E|]. apply not_true_is_false. intros C. apply Qeq_bool_iff in C. rewrite H in C. apply Qeq_bool_iff in C. congruence. Qed.

Lemma accumulated_mean l a j : accumulated exactly l a ->
  ((if counted (nth j (a_losses a) 0%Q, nth j (a_counts a) 0%Z) then avg_of exactly (nth j (a_losses a) 0%Q, nth j (a_counts a) 0%Z) else 0%Q) == mean_loss j l)%Q.
Proof.
  intros (_ & _ & A3 & A4). unfold counted, avg_of, mean_loss. cbn [fst snd]. rewrite A3, A4. destruct (0 <? zsum (counts_of j l)); [|reflexivity]. unfold exactly at 1. rewrite fsum_exact. reflexivity.
Qed.

(** The shares of the keys, computed exactly. *)
Lemma avg_exact l a : accumulated exactly l a ->
  match avg_mixture exactly qsum a with
  | None => forall k, zsum (counts_of k l) <= 0
  | Some mix => (exists k, (k < widest l)%nat /\ 0 < zsum (counts_of k l)) /\ length mix = widest l /\ forall k, (k < widest l)%nat -> (nth k mix 0%Q == share k l)%Q
  end.
Proof.
  intros Hacc. pose proof Hacc as (A1 & A2 & A3 & A4). rewrite avg_mixture_eq by congruence. cbv zeta. rewrite combine_seq by congruence. rewrite A1.
  set (g := fun j => (nth j (a_losses a) 0%Q, nth j (a_counts a) 0)). set (keys := seq 0 (widest l)). set (lc := map g keys).
  assert (Hcnt : forall j, counted (g j) = (0 <? zsum (counts_of j l))) by (intros j; unfold counted, g; cbn [snd]; rewrite A4; reflexivity).
  destruct (existsb counted lc) eqn:Ex.
  2:{ intros k. destruct (Nat.lt_ge_cases k (widest l)) as [Hk|Hk]; [|rewrite <- A4, nth_overflow by lia; lia]. destruct (Z.leb_spec (zsum (counts_of k l)) 0); [assumption|exfalso].
      assert (existsb counted lc = true); [|congruence]. apply existsb_exists. exists (g k). split; [apply in_map_iff; exists k; split; [reflexivity|apply in_seq; lia]|]. rewrite Hcnt. apply Z.ltb_lt. assumption. }
  assert (Hex : exists k, (k < widest l)%nat /\ 0 < zsum (counts_of k l)).
  { apply existsb_exists in Ex as (p & Hp & Hc). apply in_map_iff in Hp as (k & <- & Hk). apply in_seq in Hk. exists k. split; [lia|]. rewrite Hcnt in Hc. apply Z.ltb_lt, Hc. }
  set (t := qsum (map (avg_of exactly) (filter counted lc))). set (T := qsum (map (fun j => mean_loss j l) keys)).
  assert (Et : (t == T)%Q). { unfold t, T. rewrite qsum_filter_map. unfold lc. rewrite map_map. apply qsum_ext. intros j _. apply accumulated_mean, Hacc. }
  set (seen := filter (fun j => 0 <? zsum (counts_of j l)) keys).
  assert (Eseen : filter counted lc = map g seen) by (unfold lc, seen; rewrite filter_map_comm; f_equal; apply filter_ext; exact Hcnt).
  assert (Hseen : seen <> []). { destruct Hex as (k & Hk & Hp). intros C. assert (In k seen) by (apply filter_In; split; [apply in_seq; lia|apply Z.ltb_lt, Hp]). rewrite C in H. exact H. }
  assert (Eraw : Forall2 Qeq (raw_mix exactly qsum lc) (map (fun j => share j l) keys)).
  { unfold raw_mix, lc. fold lc. fold t. rewrite Eseen, map_length. unfold lc. rewrite map_map. assert (Hgen : forall ks, Forall2 Qeq (map (fun x => if counted (g x) then if Qeq_bool t 0 then exactly (1 / inject_Z (Z.of_nat (length seen))) else exactly (avg_of exactly (g x) / t) else 0%Q) ks) (map (fun j => share j l) ks)).
    { induction ks as [|j ks IH]; [constructor|]. cbn [map]. constructor; [|exact IH]. unfold share. fold keys seen. cbv zeta. fold T. rewrite <- Hcnt, (Qeq_bool_ext t T 0 Et). pose proof (accumulated_mean l a j Hacc) as Hm. fold (g j) in Hm. destruct (counted (g j)); [|reflexivity].
      destruct (Qeq_bool T 0); [reflexivity|]. unfold exactly at 1. rewrite Hm, Et. reflexivity. }
    apply Hgen. }
  assert (Hsum : (qsum (raw_mix exactly qsum lc) == 1)%Q).
  { unfold raw_mix. fold t. rewrite Eseen, map_length.
    transitivity (qsum (map (fun p => if Qeq_bool t 0 then (1 / inject_Z (Z.of_nat (length seen)))%Q else (avg_of exactly p / t)%Q) (filter counted lc))).
    { rewrite qsum_filter_map. apply qsum_ext. intros p _. destruct (counted p), (Qeq_bool t 0); reflexivity. }
    destruct (Qeq_bool t 0) eqn:E0.
    - rewrite qsum_const, Eseen, map_length. assert (Hpos : (0 < inject_Z (Z.of_nat (length seen)))%Q). { change 0%Q with (inject_Z 0). rewrite <- Zlt_Qlt. destruct seen; [congruence|cbn [length]; lia]. } field. lra.
    - assert (Hn : ~ (t == 0)%Q) by (intros C; apply Qeq_bool_iff in C; congruence). rewrite qsum_div by exact Hn. fold t. field. exact Hn. }
  replace (Qeq_bool (qsum (raw_mix exactly qsum lc)) 0) with false. 2:{ symmetry. apply Qeq_bool_pos. rewrite Hsum. lra. }
  split; [exact Hex|]. assert (Hlen : length (raw_mix exactly qsum lc) = widest l) by (unfold raw_mix, lc, keys; rewrite !map_length, seq_length; reflexivity). rewrite map_length. split; [exact Hlen|].
  intros k Hk. set (R := raw_mix exactly qsum lc) in *. set (s := qsum R) in *.
  rewrite (nth_indep _ 0%Q (exactly (0 / s)%Q)) by (rewrite map_length; lia). rewrite (map_nth (fun x => exactly (x / s)%Q)).
  unfold exactly at 1. rewrite Hsum. assert (Hn : (nth k R 0 == share k l)%Q).
  { clear - Eraw Hk. assert (Hk' : nth_error keys k = Some k) by (unfold keys; rewrite nth_error_nth' with (d := O) by (rewrite seq_length; exact Hk); rewrite seq_nth by exact Hk; reflexivity).
    assert (E : nth_error (map (fun j => share j l) keys) k = Some (share k l)) by (rewrite nth_error_map, Hk'; reflexivity). revert E. generalize (share k l). clear Hk'. revert k Hk. induction Eraw as [|x y R Y Hxy H IH]; intros k Hk q E; [destruct k; discriminate|]. destruct k; cbn in *; [injection E as <-; exact Hxy|]. apply (IH k); [lia|exact E]. }
  rewrite Hn. field.
Qed.
