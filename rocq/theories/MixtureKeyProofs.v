From Verif Require Import Base MixtureKeyModel.
From Coq Require Import ZifyBool ZifyNat.

Lemma Zcompare_eq_ a b : Z.compare a b = Eq <-> a = b.
Proof. apply Z.compare_eq_iff. Qed.
Lemma Zcompare_anti a b : Z.compare b a = CompOpp (Z.compare a b).
Proof. apply Z.compare_antisym. Qed.
Lemma Zcompare_tr a b c : Z.compare a b = Lt -> Z.compare b c = Lt -> Z.compare a c = Lt.
Proof. rewrite !Z.compare_lt_iff. lia. Qed.

Lemma str_eqb_spec a b : str_eqb a b = true <-> a = b.
Proof. apply list_eqb_spec. intros x y. apply Z.eqb_eq. Qed.
Lemma strs_eqb_spec a b : list_eqb str_eqb a b = true <-> a = b.
Proof. apply list_eqb_spec, str_eqb_spec. Qed.
Lemma mkey_eqb_spec a b : mkey_eqb a b = true <-> a = b.
Proof.
  apply list_eqb_spec. intros [x1 x2] [y1 y2]. cbn [fst snd].
  rewrite andb_true_iff, str_eqb_spec, strs_eqb_spec. split; [intros [-> ->]; reflexivity|intros [= -> ->]; auto].
Qed.
Lemma mkey_eqb_refl a : mkey_eqb a a = true.
Proof. apply mkey_eqb_spec. reflexivity. Qed.
Lemma mkey_eqb_neq a b : a <> b -> mkey_eqb a b = false.
Proof. apply eqb_neq_, mkey_eqb_spec. Qed.
Lemma mkey_eq_dec (a b : mkey) : {a = b} + {a <> b}.
Proof.
  destruct (mkey_eqb a b) eqn:E; [left|right].
  - apply mkey_eqb_spec. exact E.
  - intros ->. rewrite mkey_eqb_refl in E. discriminate.
Qed.

Lemma str_cmp_eq a b : str_cmp a b = Eq <-> a = b.
Proof. apply lex_eq, Zcompare_eq_. Qed.
Lemma str_cmp_anti a b : str_cmp b a = CompOpp (str_cmp a b).
Proof. apply lex_antisym, Zcompare_anti. Qed.
Lemma str_cmp_trans a b c : str_cmp a b = Lt -> str_cmp b c = Lt -> str_cmp a c = Lt.
Proof. apply lex_trans; [apply Zcompare_eq_|apply Zcompare_tr]. Qed.
Lemma strs_cmp_eq a b : strs_cmp a b = Eq <-> a = b.
Proof. apply lex_eq, str_cmp_eq. Qed.
Lemma strs_cmp_anti a b : strs_cmp b a = CompOpp (strs_cmp a b).
Proof. apply lex_antisym, str_cmp_anti. Qed.
Lemma strs_cmp_trans a b c : strs_cmp a b = Lt -> strs_cmp b c = Lt -> strs_cmp a c = Lt.
Proof. apply lex_trans; [apply str_cmp_eq|apply str_cmp_trans]. Qed.

(** A three-way comparison that [key_ltb] computes. *)
Definition pair_cmp (a b : str * nat) : comparison :=
  match str_cmp (fst a) (fst b) with Eq => Nat.compare (snd a) (snd b) | c => c end.
Lemma pair_cmp_eq a b : pair_cmp a b = Eq <-> a = b.
Proof.
  destruct a as [a1 a2], b as [b1 b2]. unfold pair_cmp. cbn [fst snd].
  destruct (str_cmp a1 b1) eqn:E.
  - apply str_cmp_eq in E. subst. rewrite Nat.compare_eq_iff. split; congruence.
  - split; [discriminate|]. intros [= -> ->]. assert (str_cmp b1 b1 = Eq) by (apply str_cmp_eq; reflexivity). congruence.
  - split; [discriminate|]. intros [= -> ->]. assert (str_cmp b1 b1 = Eq) by (apply str_cmp_eq; reflexivity). congruence.
Qed.
Lemma pair_cmp_anti a b : pair_cmp b a = CompOpp (pair_cmp a b).
Proof.
  unfold pair_cmp. rewrite (str_cmp_anti (fst a) (fst b)).
  destruct (str_cmp (fst a) (fst b)); cbn; auto. apply Nat.compare_antisym.
Qed.
Lemma pair_cmp_trans a b c : pair_cmp a b = Lt -> pair_cmp b c = Lt -> pair_cmp a c = Lt.
Proof.
  unfold pair_cmp. destruct a as [a1 a2], b as [b1 b2], c as [c1 c2]. cbn [fst snd].
  destruct (str_cmp a1 b1) eqn:E1; destruct (str_cmp b1 c1) eqn:E2; try discriminate; intros H1 H2.
  - apply str_cmp_eq in E1, E2. subst. assert (str_cmp c1 c1 = Eq) as -> by (apply str_cmp_eq; reflexivity).
    rewrite Nat.compare_lt_iff in *. lia.
  - apply str_cmp_eq in E1. subst. rewrite E2. reflexivity.
  - apply str_cmp_eq in E2. subst. rewrite E1. reflexivity.
  - rewrite (str_cmp_trans _ _ _ E1 E2). reflexivity.
Qed.

Definition sig (k : mkey) : list (str * nat) := map (fun kv => (fst kv, length (snd kv))) k.
Definition vals (k : mkey) : list (list str) := map (fun kv => isort str_ltb (snd kv)) k.

Definition key_cmp (a b : mkey) : comparison :=
  match Nat.compare (length a) (length b) with
  | Eq => match lex pair_cmp (sig (props_sorted a)) (sig (props_sorted b)) with
          | Eq => lex strs_cmp (vals (props_sorted a)) (vals (props_sorted b))
          | c => c
          end
  | c => c
  end.

Lemma str_eqb_cmp a b : str_eqb a b = match str_cmp a b with Eq => true | _ => false end.
Proof.
  destruct (str_cmp a b) eqn:E.
  - apply str_cmp_eq in E. apply str_eqb_spec. exact E.
  - apply eqb_neq_; [apply str_eqb_spec|]. intros H. apply str_cmp_eq in H. congruence.
  - apply eqb_neq_; [apply str_eqb_spec|]. intros H. apply str_cmp_eq in H. congruence.
Qed.
Lemma strs_eqb_cmp a b : list_eqb str_eqb a b = match strs_cmp a b with Eq => true | _ => false end.
Proof.
  destruct (strs_cmp a b) eqn:E.
  - apply strs_cmp_eq in E. apply strs_eqb_spec. exact E.
  - apply eqb_neq_; [apply strs_eqb_spec|]. intros H. apply strs_cmp_eq in H. congruence.
  - apply eqb_neq_; [apply strs_eqb_spec|]. intros H. apply strs_cmp_eq in H. congruence.
Qed.

Lemma lt_names_cmp a b :
  length a = length b ->
  lt_names a b = match lex pair_cmp (sig a) (sig b) with Eq => None | Lt => Some true | Gt => Some false end.
Proof.
  revert b. induction a as [|[ka va] a IH]; intros [|[kb vb] b] H; cbn in H; try discriminate; [reflexivity|].
  cbn [lt_names sig map lex fst snd]. unfold pair_cmp at 1. cbn [fst snd].
  rewrite str_eqb_cmp. unfold str_ltb.
  destruct (str_cmp ka kb); cbn [negb]; try reflexivity.
  destruct (Nat.compare (length va) (length vb)) eqn:E.
  - apply Nat.compare_eq_iff in E. rewrite E, Nat.eqb_refl. cbn [negb]. apply IH. congruence.
  - apply Nat.compare_lt_iff in E. replace (Nat.eqb (length va) (length vb)) with false by lia.
    cbn [negb]. f_equal. lia.
  - apply Nat.compare_gt_iff in E. replace (Nat.eqb (length va) (length vb)) with false by lia.
    cbn [negb]. f_equal. lia.
Qed.

Lemma lt_values_cmp a b :
  length a = length b ->
  lt_values a b = match lex strs_cmp (vals a) (vals b) with Eq => None | Lt => Some true | Gt => Some false end.
Proof.
  revert b. induction a as [|[ka va] a IH]; intros [|[kb vb] b] H; cbn in H; try discriminate; [reflexivity|].
  cbn [lt_values vals map lex fst snd].
  rewrite strs_eqb_cmp. unfold strs_ltb.
  destruct (strs_cmp (isort str_ltb va) (isort str_ltb vb)); cbn [negb]; try reflexivity.
  apply IH. congruence.
Qed.

Lemma canon_eq_sig_vals a b :
  canon a = canon b <-> sig (props_sorted a) = sig (props_sorted b) /\ vals (props_sorted a) = vals (props_sorted b).
Proof.
  unfold canon, sig, vals. generalize (props_sorted a) as x. generalize (props_sorted b) as y.
  intros y x. revert y. induction x as [|[kx vx] x IH]; intros [|[ky vy] y]; cbn [map fst snd];
    try (split; [discriminate|intros [? ?]; discriminate]); [tauto|].
  split.
  - intros [= -> Hv Ht]. apply IH in Ht as [H1 H2]. split; [|f_equal; assumption].
    f_equal; [|exact H1]. f_equal. rewrite <- (isort_length str_ltb vx), Hv. apply isort_length.
  - intros [[= -> Hl H1] [= Hv H2]]. f_equal; [f_equal; exact Hv|]. apply IH. auto.
Qed.

Lemma props_sorted_length a : length (props_sorted a) = length a.
Proof. apply isort_length. Qed.

Lemma canon_length a : length (canon a) = length a.
Proof. unfold canon. rewrite map_length. apply props_sorted_length. Qed.

Lemma key_str_canon a b : canon a = canon b -> key_str a = key_str b.
Proof.
  intros H.
  assert (Hk : forall x, key_str x = join semicolon (map (fun kv => fst kv ++ colon :: join colon (snd kv)) (canon x))).
  { intros x. unfold key_str, canon. rewrite map_map. reflexivity. }
  rewrite !Hk, H. reflexivity.
Qed.

Lemma key_ltb_cmp a b : key_ltb a b = match key_cmp a b with Lt => true | _ => false end.
Proof.
  unfold key_ltb, key_cmp.
  destruct (Nat.compare (length a) (length b)) eqn:E.
  - apply Nat.compare_eq_iff in E. rewrite E, Nat.eqb_refl. cbn [negb].
    assert (Hl : length (props_sorted a) = length (props_sorted b)) by (rewrite !props_sorted_length; exact E).
    rewrite lt_names_cmp by exact Hl.
    destruct (lex pair_cmp (sig (props_sorted a)) (sig (props_sorted b))) eqn:E2; try reflexivity.
    rewrite lt_values_cmp by exact Hl.
    destruct (lex strs_cmp (vals (props_sorted a)) (vals (props_sorted b))) eqn:E3; try reflexivity.
    apply lex_eq in E2; [|apply pair_cmp_eq]. apply lex_eq in E3; [|apply strs_cmp_eq].
    rewrite (key_str_canon a b) by (apply canon_eq_sig_vals; auto).
    unfold str_ltb. assert (str_cmp (key_str b) (key_str b) = Eq) as -> by (apply str_cmp_eq; reflexivity).
    reflexivity.
  - apply Nat.compare_lt_iff in E. replace (Nat.eqb (length a) (length b)) with false by lia. cbn [negb]. lia.
  - apply Nat.compare_gt_iff in E. replace (Nat.eqb (length a) (length b)) with false by lia. cbn [negb]. lia.
Qed.

Lemma key_cmp_eq a b : key_cmp a b = Eq <-> canon a = canon b.
Proof.
  rewrite canon_eq_sig_vals. unfold key_cmp.
  destruct (Nat.compare (length a) (length b)) eqn:E.
  - destruct (lex pair_cmp (sig (props_sorted a)) (sig (props_sorted b))) eqn:E2.
    + apply lex_eq in E2; [|apply pair_cmp_eq]. rewrite lex_eq by apply strs_cmp_eq. tauto.
    + split; [discriminate|]. intros [H _]. apply (lex_eq _ pair_cmp_eq) in H. congruence.
    + split; [discriminate|]. intros [H _]. apply (lex_eq _ pair_cmp_eq) in H. congruence.
  - split; [discriminate|]. intros [H _]. apply (f_equal (@length _)) in H. unfold sig in H.
    rewrite !map_length, !props_sorted_length in H. apply Nat.compare_lt_iff in E. lia.
  - split; [discriminate|]. intros [H _]. apply (f_equal (@length _)) in H. unfold sig in H.
    rewrite !map_length, !props_sorted_length in H. apply Nat.compare_gt_iff in E. lia.
Qed.

Lemma key_cmp_anti a b : key_cmp b a = CompOpp (key_cmp a b).
Proof.
  unfold key_cmp. rewrite (Nat.compare_antisym (length a) (length b)).
  destruct (Nat.compare (length a) (length b)); cbn [CompOpp]; try reflexivity.
  rewrite (lex_antisym _ pair_cmp_anti (sig (props_sorted a))).
  destruct (lex pair_cmp (sig (props_sorted a)) (sig (props_sorted b))); cbn [CompOpp]; try reflexivity.
  apply lex_antisym, strs_cmp_anti.
Qed.

Lemma key_cmp_trans a b c : key_cmp a b = Lt -> key_cmp b c = Lt -> key_cmp a c = Lt.
Proof.
  unfold key_cmp.
  destruct (Nat.compare (length a) (length b)) eqn:E1; destruct (Nat.compare (length b) (length c)) eqn:E2;
    try discriminate.
  - apply Nat.compare_eq_iff in E1, E2. rewrite E1, E2, Nat.compare_refl.
    destruct (lex pair_cmp (sig (props_sorted a)) (sig (props_sorted b))) eqn:F1;
    destruct (lex pair_cmp (sig (props_sorted b)) (sig (props_sorted c))) eqn:F2; try discriminate; intros H1 H2.
    + apply (lex_eq _ pair_cmp_eq) in F1, F2.
      assert (lex pair_cmp (sig (props_sorted a)) (sig (props_sorted c)) = Eq) as ->
        by (apply (lex_eq _ pair_cmp_eq); congruence).
      eapply lex_trans; eauto using strs_cmp_trans. apply strs_cmp_eq.
    + apply (lex_eq _ pair_cmp_eq) in F1. rewrite F1, F2. reflexivity.
    + apply (lex_eq _ pair_cmp_eq) in F2. rewrite <- F2, F1. reflexivity.
    + rewrite (lex_trans _ pair_cmp_eq pair_cmp_trans _ _ _ F1 F2). reflexivity.
  - apply Nat.compare_eq_iff in E1. rewrite E1, E2. reflexivity.
  - apply Nat.compare_eq_iff in E2. rewrite <- E2, E1. reflexivity.
  - rewrite Nat.compare_lt_iff in *. assert (Hl : (length a < length c)%nat) by lia.
    apply Nat.compare_lt_iff in Hl. rewrite Hl. reflexivity.
Qed.

Lemma key_ltb_irrefl a : key_ltb a a = false.
Proof. rewrite key_ltb_cmp. assert (key_cmp a a = Eq) as -> by (apply key_cmp_eq; reflexivity). reflexivity. Qed.
Lemma key_ltb_trans a b c : key_ltb a b = true -> key_ltb b c = true -> key_ltb a c = true.
Proof.
  rewrite !key_ltb_cmp.
  destruct (key_cmp a b) eqn:E1; try discriminate. destruct (key_cmp b c) eqn:E2; try discriminate.
  rewrite (key_cmp_trans _ _ _ E1 E2). reflexivity.
Qed.
Lemma key_ltb_asym a b : key_ltb a b = true -> key_ltb b a = false.
Proof.
  rewrite !key_ltb_cmp, (key_cmp_anti a b). destruct (key_cmp a b); cbn; congruence.
Qed.
Lemma key_ltb_total a b : key_ltb a b = false -> key_ltb b a = false -> canon a = canon b.
Proof.
  rewrite !key_ltb_cmp, (key_cmp_anti a b). destruct (key_cmp a b) eqn:E; cbn; try discriminate.
  intros _ _. apply key_cmp_eq. exact E.
Qed.
Lemma key_nlt_trans a b c : key_ltb b a = false -> key_ltb c b = false -> key_ltb c a = false.
Proof.
  rewrite !key_ltb_cmp. intros H1 H2.
  destruct (key_cmp c a) eqn:E; try reflexivity. exfalso.
  destruct (key_cmp b a) eqn:E1; try discriminate; destruct (key_cmp c b) eqn:E2; try discriminate.
  - apply key_cmp_eq in E1, E2. assert (key_cmp c a = Eq) by (apply key_cmp_eq; congruence). congruence.
  - pose proof (key_cmp_anti c b) as E2'. rewrite E2 in E2'. cbn in E2'.
    pose proof (key_cmp_trans _ _ _ E2' E) as H. congruence.
  - pose proof (key_cmp_anti b a) as E1'. rewrite E1 in E1'. cbn in E1'.
    pose proof (key_cmp_trans _ _ _ E E1') as H. congruence.
  - pose proof (key_cmp_anti c b) as E2'. rewrite E2 in E2'. cbn in E2'.
    pose proof (key_cmp_trans _ _ _ E2' E) as H. congruence.
Qed.
Lemma ksort_sorted l : StronglySorted (fun a b => key_ltb b a = false) (ksort l).
Proof. apply isort_sorted; [apply key_ltb_asym|apply key_nlt_trans]. Qed.
Lemma ksort_perm l : Permutation (ksort l) l.
Proof. apply isort_perm. Qed.

(** Equality *)
Lemma str_mem_spec x l : str_mem x l = true <-> In x l.
Proof.
  unfold str_mem. rewrite existsb_exists. split.
  - intros [y [H1 H2]]. apply str_eqb_spec in H2. congruence.
  - intros H. exists x. split; [exact H|]. apply str_eqb_spec. reflexivity.
Qed.

Lemma prop_matches_spec other k v :
  prop_matches other (k, v) = true <->
  exists ov, aget str_eqb k other = Some ov /\ ((exists x, In x v /\ In x ov) \/ (v = [] /\ ov = [])).
Proof.
  unfold prop_matches. cbn [fst snd]. destruct (aget str_eqb k other) as [ov|].
  2:{ split; [discriminate|]. intros (? & ? & _). discriminate. }
  destruct (existsb (fun x => str_mem x ov) v) eqn:E; cbn [negb andb].
  - split; [|reflexivity]. intros _. exists ov. split; [reflexivity|]. left.
    apply existsb_exists in E as (x & Hx & Hm). apply str_mem_spec in Hm. eauto.
  - destruct v as [|x v]; destruct ov as [|y ov]; cbn -[existsb str_mem].
    + replace (0 <? Z.of_nat 0) with false by lia. cbn. split; [|reflexivity]. intros _. exists []. auto.
    + replace (0 <? Z.of_nat (S (length ov))) with true by lia. rewrite orb_true_r.
      split; [discriminate|]. intros (ov' & [= <-] & [(x & [] & _)|[_ Hn]]). discriminate.
    + replace (0 <? Z.of_nat (S (length v))) with true by lia. cbn.
      split; [discriminate|]. intros (ov' & [= <-] & [(z & _ & [])|[Hn _]]). discriminate.
    + replace (0 <? Z.of_nat (S (length v))) with true by lia. cbn.
      split; [discriminate|]. intros (ov' & [= <-] & [(z & Hz & Hz')|[Hn _]]); [|discriminate].
      assert (existsb (fun x0 : str => str_mem x0 (y :: ov)) (x :: v) = true).
      { apply existsb_exists. exists z. split; [exact Hz|]. apply str_mem_spec. exact Hz'. }
      congruence.
Qed.

Lemma key_eq_spec a b :
  key_eq a b = true <->
  forall k v, In (k, v) a -> exists ov, aget str_eqb k b = Some ov /\
                             ((exists x, In x v /\ In x ov) \/ (v = [] /\ ov = [])).
Proof.
  unfold key_eq. rewrite forallb_forall. split.
  - intros H k v Hin. apply prop_matches_spec. apply H. exact Hin.
  - intros H [k v] Hin. apply prop_matches_spec. auto.
Qed.

Lemma key_eq_refl a : NoDup (akeys a) -> key_eq a a = true.
Proof.
  intros Hnd. apply key_eq_spec. intros k v Hin. exists v. split.
  - apply in_aget; auto. apply str_eqb_spec.
  - destruct v as [|x v]; [right; auto|left; exists x; cbn; auto].
Qed.

Lemma in_canon_iff a k v : In (k, v) (canon a) <-> exists v0, In (k, v0) a /\ v = isort str_ltb v0.
Proof.
  unfold canon. rewrite in_map_iff. split.
  - intros [[k0 v0] [[= <- <-] Hin]]. cbn [snd]. exists v0. split; [|reflexivity].
    unfold props_sorted in Hin. apply in_isort in Hin. exact Hin.
  - intros (v0 & Hin & ->). exists (k, v0). split; [reflexivity|]. unfold props_sorted. apply in_isort. exact Hin.
Qed.

Lemma canon_eq_key_eq a b :
  NoDup (akeys a) -> NoDup (akeys b) -> canon a = canon b -> key_eq a b = true.
Proof.
  intros Ha Hb H. apply key_eq_spec. intros k v Hin.
  assert (Hc : In (k, isort str_ltb v) (canon b)).
  { rewrite <- H. apply in_canon_iff. eauto. }
  apply in_canon_iff in Hc as (v0 & Hin0 & Hv). exists v0. split.
  - apply in_aget; auto. apply str_eqb_spec.
  - destruct v as [|x v].
    + right. split; [reflexivity|]. destruct v0 as [|y v0]; [reflexivity|].
      apply (f_equal (@length _)) in Hv. rewrite !isort_length in Hv. discriminate.
    + left. exists x. split; [left; reflexivity|].
      apply (in_isort str_ltb). rewrite <- Hv. apply in_isort. left. reflexivity.
Qed.
