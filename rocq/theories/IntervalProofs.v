(** The gaps-and-islands query computes the maximal runs. *)
From Verif Require Import Base IntervalModel SpecInterval.
Open Scope Z_scope.

Lemma filter_all_true {A} (f : A -> bool) l : (forall x, In x l -> f x = true) -> filter f l = l.
Proof. intros H. induction l as [|x l IH]; [reflexivity|]. cbn. rewrite H by (left; reflexivity). f_equal. apply IH. intros y Hy. apply H. right. exact Hy. Qed.
Section Dedup.
  Context {A : Type} (eqb : A -> A -> bool) (eqb_spec : forall a b, eqb a b = true <-> a = b).
  Lemma in_dedup x l : In x (dedup eqb l) <-> In x l.
  Proof.
    induction l as [|y l IH]; [reflexivity|]. cbn [dedup In]. rewrite filter_In, IH. split; [tauto|]. intros [->|H]; [left; reflexivity|].
    destruct (eqb y x) eqn:E; [left; apply eqb_spec, E|right; auto].
  Qed.
  Lemma NoDup_dedup l : NoDup (dedup eqb l).
  Proof.
    induction l as [|y l IH]; [constructor|]. cbn [dedup]. constructor; [|apply NoDup_filter, IH]. rewrite filter_In. intros [_ H].
    rewrite (proj2 (eqb_spec y y) eq_refl) in H. discriminate.
  Qed.
  Lemma dedup_id l : NoDup l -> dedup eqb l = l.
  Proof.
    induction 1 as [|y l Hy Hl IH]; [reflexivity|]. cbn. rewrite IH. f_equal. apply filter_all_true. intros x Hx.
    destruct (eqb y x) eqn:E; [|reflexivity]. apply eqb_spec in E. subst. contradiction.
  Qed.
End Dedup.
Lemma pair_eqb_spec a b : pair_eqb a b = true <-> a = b.
Proof. destruct a, b. unfold pair_eqb. cbn. rewrite andb_true_iff, !Z.eqb_eq. split; [intros [-> ->]; reflexivity|intros [= -> ->]; auto]. Qed.

Lemma with_diff_snd l : forall p, map snd (with_diff p l) = l.
Proof. induction l as [|s l IH]; intros p; [reflexivity|]. cbn. rewrite IH. reflexivity. Qed.
Lemma with_diff_some l : forall p, StronglySorted Z.lt (p :: l) -> forall d s, In (d, s) (with_diff (Some p) l) -> In s l /\ (d = 1 <-> In (s - 1) (p :: l)).
Proof.
  induction l as [|x l IH]; intros p H d s Hin; [destruct Hin|]. cbn [with_diff In] in Hin. inversion H as [|? ? Hs Hf]; subst. inversion Hf as [|? ? Hpx Hpl]; subst.
  destruct Hin as [E|Hin].
  - injection E as <- <-. split; [left; reflexivity|]. split.
    + intros E. left. lia.
    + intros [E|[E|Hi]]; [lia|lia|]. inversion Hs as [|? ? _ Hxl]; subst. rewrite Forall_forall in Hxl. specialize (Hxl _ Hi). lia.
  - destruct (IH x Hs d s Hin) as [Hsl Hd]. split; [right; exact Hsl|]. rewrite Hd. split; [intros Hi; right; exact Hi|].
    intros [E|Hi]; [|exact Hi]. exfalso. inversion Hs as [|? ? _ Hxl]; subst. rewrite Forall_forall in Hxl. specialize (Hxl _ Hsl). lia.
Qed.
Lemma with_diff_none l : StronglySorted Z.lt l -> forall d s, In (d, s) (with_diff None l) -> In s l /\ (d = 1 <-> In (s - 1) l).
Proof.
  destruct l as [|x l]; intros H d s Hin; [destruct Hin|]. cbn [with_diff In] in Hin. destruct Hin as [E|Hin].
  - injection E as <- <-. split; [left; reflexivity|]. split; [lia|]. intros [E|Hi]; [lia|]. inversion H as [|? ? _ Hf]; subst. rewrite Forall_forall in Hf. specialize (Hf _ Hi). lia.
  - destruct (with_diff_some l x H d s Hin) as [H1 H2]. split; [right; exact H1|exact H2].
Qed.

Section Gid.
  Variable l : list (Z * Z).
  Lemma group_id_mono x y : x <= y -> group_id l x <= group_id l y.
  Proof.
    intros H. unfold group_id. induction l as [|r l' IH]; cbn [map fold_right]; [lia|].
    destruct (Z.leb_spec (snd r) x), (Z.leb_spec (snd r) y), (fst r =? 1); cbn [andb negb]; lia.
  Qed.
  Lemma group_id_eq x y : x <= y -> (group_id l x = group_id l y <-> forall d z, In (d, z) l -> x < z <= y -> d = 1).
  Proof.
    intros H. unfold group_id. induction l as [|r l' IH]; cbn [map fold_right In]; [split; [intros _ d z []|reflexivity]|].
    assert (M : fold_right Z.add 0 (map (fun r => if (snd r <=? x) && negb (fst r =? 1) then 1 else 0) l')
             <= fold_right Z.add 0 (map (fun r => if (snd r <=? y) && negb (fst r =? 1) then 1 else 0) l')).
    { clear IH r. induction l' as [|r l'' IH]; cbn [map fold_right]; [lia|]. destruct (Z.leb_spec (snd r) x), (Z.leb_spec (snd r) y), (fst r =? 1); cbn [andb negb]; lia. }
    destruct r as [d0 z0]. cbn [fst snd]. split.
    - intros E d z [Er|Hi] Hz.
      + injection Er as -> ->. destruct (Z.leb_spec z x); [lia|]. destruct (Z.leb_spec z y); [|lia]. destruct (Z.eqb_spec d 1); [assumption|]. cbn [andb negb] in E. lia.
      + apply (proj1 IH) with (z := z); [|exact Hi|exact Hz].
        destruct (Z.leb_spec z0 x), (Z.leb_spec z0 y), (d0 =? 1); cbn [andb negb] in E; lia.
    - intros Hall. assert (E : fold_right Z.add 0 (map (fun r => if (snd r <=? x) && negb (fst r =? 1) then 1 else 0) l')
             = fold_right Z.add 0 (map (fun r => if (snd r <=? y) && negb (fst r =? 1) then 1 else 0) l')) by (apply IH; intros d z Hi Hz; apply (Hall d z); auto).
      rewrite E. f_equal. destruct (Z.leb_spec z0 x), (Z.leb_spec z0 y); cbn [andb]; try reflexivity; try lia.
      specialize (Hall d0 z0 (or_introl eq_refl) ltac:(lia)). subst d0. reflexivity.
  Qed.
End Gid.

Lemma list_min_spec d l : In (list_min d l) (d :: l) /\ Forall (fun x => list_min d l <= x) (d :: l).
Proof.
  unfold list_min. induction l as [|x l [H1 H2]]; cbn [fold_right]; [split; [left; reflexivity|constructor; [lia|constructor]]|].
  split.
  - destruct (Z.min_spec x (fold_right Z.min d l)) as [[_ ->]|[_ ->]]; [right; left; reflexivity|]. destruct H1 as [H1|H1]; [left; exact H1|right; right; exact H1].
  - inversion H2; subst. constructor; [lia|]. constructor; [lia|]. eapply Forall_impl; [|eassumption]. cbv beta. lia.
Qed.
Lemma list_max_spec d l : In (list_max d l) (d :: l) /\ Forall (fun x => x <= list_max d l) (d :: l).
Proof.
  unfold list_max. induction l as [|x l [H1 H2]]; cbn [fold_right]; [split; [left; reflexivity|constructor; [lia|constructor]]|].
  split.
  - destruct (Z.max_spec x (fold_right Z.max d l)) as [[_ ->]|[_ ->]]; [|right; left; reflexivity]. destruct H1 as [H1|H1]; [left; exact H1|right; right; exact H1].
  - inversion H2; subst. constructor; [lia|]. constructor; [lia|]. eapply Forall_impl; [|eassumption]. cbv beta. lia.
Qed.

Lemma runs_same P a b a' b' x : maximal_run P a b -> maximal_run P a' b' -> a <= x < b -> a' <= x < b' -> a = a' /\ b = b'.
Proof.
  intros (H1 & H2 & H3 & H4) (H1' & H2' & H3' & H4') Hx Hx'. split.
  - destruct (Z.lt_trichotomy a a') as [L|[E|L]]; [|exact E|].
    + exfalso. apply H3'. apply H2. lia.
    + exfalso. apply H3. apply H2'. lia.
  - destruct (Z.lt_trichotomy b b') as [L|[E|L]]; [|exact E|].
    + exfalso. apply H4. apply H2'. lia.
    + exfalso. apply H4'. apply H2. lia.
Qed.

Section Final.
  Context {G : Type} (geqb : G -> G -> bool) (glt : G -> G -> bool).
  Hypothesis geqb_spec : forall a b, geqb a b = true <-> a = b.
  Variable rows : list (G * Z).
  Hypothesis Hnd : NoDup rows.

  Lemma in_part g x : In x (part geqb g rows) <-> In (g, x) rows.
  Proof.
    unfold part. rewrite in_isort, in_map_iff. split.
    - intros ([g' y] & <- & H). apply filter_In in H as [H E]. apply geqb_spec in E. cbn in *. subst. exact H.
    - intros H. exists (g, x). split; [reflexivity|]. apply filter_In. split; [exact H|]. apply geqb_spec. reflexivity.
  Qed.
  Lemma part_sorted g : StronglySorted Z.lt (part geqb g rows).
  Proof.
    assert (N : NoDup (part geqb g rows)).
    { unfold part. apply isort_NoDup. assert (F : NoDup (filter (fun r => geqb g (fst r)) rows)) by (apply NoDup_filter, Hnd).
      assert (A : forall r, In r (filter (fun r => geqb g (fst r)) rows) -> fst r = g) by (intros r Hr; apply filter_In in Hr as [_ E]; apply geqb_spec in E; symmetry; exact E).
      induction F as [|[g1 x] l Hx F IH]; [constructor|]. cbn. constructor.
      - intros Hi. apply in_map_iff in Hi as ([g2 y] & E & Hi). cbn in E. subst y. apply Hx. assert (E1 := A (g1, x) (or_introl eq_refl)). assert (E2 := A (g2, x) (or_intror Hi)). cbn in *. subst. exact Hi.
      - apply IH. intros r Hr. apply A. right. exact Hr. }
    assert (S : StronglySorted (fun a b => b <? a = false) (part geqb g rows)).
    { unfold part. apply isort_sorted; intros; destruct (Z.ltb_spec a b); destruct (Z.ltb_spec b a); try (destruct (Z.ltb_spec c b)); try (destruct (Z.ltb_spec c a)); try reflexivity; try discriminate; lia. }
    revert N S. generalize (part geqb g rows). intros l N S. induction S as [|x l Sl IH Hf]; [constructor|]. inversion N; subst. constructor; [auto|].
    rewrite Forall_forall in *. intros y Hy. specialize (Hf y Hy). destruct (Z.ltb_spec y x); [discriminate|]. assert (y <> x) by (intros ->; contradiction). lia.
  Qed.
  Lemma grouped_eq g : grouped geqb g rows = with_diff None (part geqb g rows).
  Proof.
    unfold grouped. apply dedup_id; [apply pair_eqb_spec|]. apply (NoDup_map_inv snd). rewrite with_diff_snd.
    assert (S := part_sorted g). induction S as [|x l Sl IH Hf]; constructor; [|exact IH]. intros Hi. rewrite Forall_forall in Hf. specialize (Hf x Hi). lia.
  Qed.

  Section OneGroup.
    Variable g : G.
    Let P x := In (g, x) rows.
    Let L := with_diff None (part geqb g rows).
    Lemma in_L d z : In (d, z) L -> P z /\ (d = 1 <-> P (z - 1)).
    Proof. intros H. destruct (with_diff_none _ (part_sorted g) d z H) as [H1 H2]. rewrite in_part in H1, H2. auto. Qed.
    Lemma L_in z : P z -> exists d, In (d, z) L.
    Proof.
      intros H. apply in_part in H. unfold L. rewrite <- (with_diff_snd (part geqb g rows) None) in H. apply in_map_iff in H as ([d z'] & E & H). cbn in E. subst. exists d. exact H.
    Qed.
    Lemma gid_same x y : P y -> x <= y -> (group_id L x = group_id L y <-> forall z, x < z <= y -> P (z - 1) /\ P z).
    Proof.
      intros Hy Hxy. rewrite group_id_eq by exact Hxy. split.
      - intros H z Hz. assert (Q : forall n : nat, y - Z.of_nat n > x -> P (y - Z.of_nat n) /\ P (y - Z.of_nat n - 1)).
        { induction n as [|n IH]; intros Hn.
          - replace (y - Z.of_nat 0) with y in * by lia. split; [exact Hy|]. destruct (L_in y Hy) as (d & Hd). apply (in_L d y Hd). apply (H d y Hd). lia.
          - destruct IH as [_ IH]; [lia|]. replace (y - Z.of_nat (S n)) with (y - Z.of_nat n - 1) in * by lia. split; [exact IH|].
            destruct (L_in _ IH) as (d & Hd). apply (in_L d _ Hd). apply (H d _ Hd). lia. }
        destruct (Q (Z.to_nat (y - z))) as [Q1 Q2]; [lia|]. replace (y - Z.of_nat (Z.to_nat (y - z))) with z in * by lia. auto.
      - intros H d z Hd Hz. apply (in_L d z Hd). apply (H z Hz).
    Qed.

    Definition one (l : list (Z * (Z * Z))) (id : Z) : Z * Z :=
      match filter (fun r => fst r =? id) l with
      | [] => (0, 0)
      | r :: rs => (list_min (fst (snd r)) (map (fun r => fst (snd r)) rs), list_max (snd (snd r)) (map (fun r => snd (snd r)) rs))
      end.
    Let IV := intervals geqb g rows.
    Lemma in_IV id a b : In (id, (a, b)) IV <-> P a /\ b = a + 1 /\ id = group_id L a.
    Proof.
      unfold IV, intervals. rewrite grouped_eq. fold L. rewrite in_map_iff. split.
      - intros ([d s] & E & H). cbn in E. injection E as <- <- <-. split; [apply (in_L d s H)|auto].
      - intros (H & -> & ->). destruct (L_in a H) as (d & Hd). exists (d, a). split; [reflexivity|exact Hd].
    Qed.
    Lemma one_spec id : In id (map fst IV) -> maximal_run P (fst (one IV id)) (snd (one IV id)) /\ group_id L (fst (one IV id)) = id.
    Proof.
      intros Hid. unfold one.
      assert (F : forall r, In r (filter (fun r => fst r =? id) IV) -> P (fst (snd r)) /\ snd (snd r) = fst (snd r) + 1 /\ group_id L (fst (snd r)) = id).
      { intros [i [a b]] Hr. apply filter_In in Hr as [Hr E]. cbn in *. apply Z.eqb_eq in E. subst i. apply in_IV in Hr as (H1 & H2 & H3). auto. }
      assert (F' : forall x, P x -> group_id L x = id -> In (id, (x, x + 1)) (filter (fun r => fst r =? id) IV)).
      { intros x Hx Ex. apply filter_In. split; [apply in_IV; auto|cbn; apply Z.eqb_refl]. }
      assert (Ne : filter (fun r => fst r =? id) IV <> []).
      { apply in_map_iff in Hid as ([i [a b]] & E & H). cbn in E. subst i. assert (H' := H). apply in_IV in H' as (H1 & -> & H3). intros E. specialize (F' a H1 (eq_sym H3)). rewrite E in F'. destruct F'. }
      destruct (filter (fun r => fst r =? id) IV) as [|r rs] eqn:Ef; [contradiction|].
      destruct (list_min_spec (fst (snd r)) (map (fun r => fst (snd r)) rs)) as [Mi Ml]. destruct (list_max_spec (snd (snd r)) (map (fun r => snd (snd r)) rs)) as [Xi Xl].
      set (a := list_min _ _) in *. set (b := list_max _ _) in *. cbn [fst snd].
      change (fst (snd r) :: map (fun r => fst (snd r)) rs) with (map (fun r => fst (snd r)) (r :: rs)) in Mi, Ml.
      change (snd (snd r) :: map (fun r => snd (snd r)) rs) with (map (fun r => snd (snd r)) (r :: rs)) in Xi, Xl.
      apply in_map_iff in Mi as (ra & Ea & Hra). apply in_map_iff in Xi as (rb & Eb & Hrb).
      destruct (F ra Hra) as (Pa & _ & Ga). destruct (F rb Hrb) as (Pb & Eb' & Gb). rewrite Ea in Pa, Ga. rewrite Eb in Eb'.
      set (b1 := fst (snd rb)) in *. rewrite Forall_forall in Ml, Xl.
      assert (Hab : a <= b1) by (apply Ml; apply in_map_iff; exists rb; auto).
      assert (Eq : group_id L a = group_id L b1) by congruence. rewrite (gid_same a b1 Pb Hab) in Eq.
      split; [|exact Ga]. repeat split.
      - lia.
      - intros x Hx. destruct (Z.eq_dec x a) as [->|]; [exact Pa|]. apply Eq. lia.
      - intros Hp. assert (E : group_id L (a - 1) = group_id L a). { apply gid_same; [exact Pa|lia|]. intros z Hz. replace z with a by lia. auto. }
        assert (X := F' (a - 1) Hp ltac:(congruence)). assert (a <= a - 1) by (apply Ml; apply in_map_iff; exists (id, (a - 1, a - 1 + 1)); auto). lia.
      - intros Hp. assert (E : group_id L b1 = group_id L b). { apply gid_same; [exact Hp|lia|]. intros z Hz. replace z with b by lia. replace (b - 1) with b1 by lia. auto. }
        assert (X := F' b Hp ltac:(congruence)). assert (b + 1 <= b) by (apply Xl; apply in_map_iff; exists (id, (b, b + 1)); auto). lia.
    Qed.
    Lemma final_group_eq : final_group geqb g rows = isort (fun a b => fst a <? fst b) (map (one IV) (dedup Z.eqb (map fst IV))).
    Proof. reflexivity. Qed.
    Lemma final_group_in a b : In (a, b) (final_group geqb g rows) <-> maximal_run P a b.
    Proof.
      rewrite final_group_eq, in_isort, in_map_iff. split.
      - intros (id & E & Hid). rewrite in_dedup in Hid by apply Z.eqb_eq. destruct (one_spec id Hid) as [H _]. rewrite E in H. exact H.
      - intros H. assert (Hr := H). destruct Hr as (H1 & H2 & H3 & H4).
        assert (Hi : In (group_id L a) (map fst IV)). { apply in_map_iff. exists (group_id L a, (a, a + 1)). split; [reflexivity|]. apply in_IV. split; [apply H2; lia|auto]. }
        exists (group_id L a). split; [|rewrite in_dedup by apply Z.eqb_eq; exact Hi].
        destruct (one_spec _ Hi) as [Hm Hg]. set (o := one IV (group_id L a)) in *. destruct o as [a' b']. cbn [fst snd] in *.
        assert (Hx : a' <= a < b').
        { assert (Pa : P a) by (apply H2; lia). assert (Pa' : P a') by (destruct Hm as (M1 & M2 & _); apply M2; lia).
          destruct (Z.le_gt_cases a' a) as [Ha|Ha].
          - split; [exact Ha|]. destruct Hm as (M1 & M2 & M3 & M4). destruct (Z.lt_ge_cases a b'); [assumption|]. exfalso. apply M4.
            rewrite (gid_same a' a Pa Ha) in Hg. destruct (Z.eq_dec b' a) as [->|]; [exact Pa|]. apply (Hg b'). lia.
          - exfalso. apply H3. symmetry in Hg. rewrite (gid_same a a' Pa' ltac:(lia)) in Hg.
            destruct Hm as (M1 & M2 & M3 & M4). exfalso. apply M3. apply (Hg a'). lia. }
        destruct (runs_same _ _ _ _ _ a Hm H Hx ltac:(lia)) as [-> ->]. reflexivity.
    Qed.
    Lemma final_group_sorted : StronglySorted (fun i j => snd i < fst j) (final_group geqb g rows).
    Proof.
      assert (N : NoDup (final_group geqb g rows)).
      { rewrite final_group_eq. apply isort_NoDup. assert (D : NoDup (dedup Z.eqb (map fst IV))) by (apply NoDup_dedup, Z.eqb_eq).
        assert (A : forall id, In id (dedup Z.eqb (map fst IV)) -> In id (map fst IV)) by (intros id H; rewrite in_dedup in H by apply Z.eqb_eq; exact H).
        induction D as [|id l Hi D IH]; [constructor|]. cbn. constructor.
        - intros H. apply in_map_iff in H as (id' & E & H). apply Hi. destruct (one_spec id (A id (or_introl eq_refl))) as [_ E1]. destruct (one_spec id' (A id' (or_intror H))) as [_ E2].
          rewrite <- E1, <- E, E2. exact H.
        - apply IH. intros x Hx. apply A. right. exact Hx. }
      assert (S : StronglySorted (fun i j => fst j <? fst i = false) (final_group geqb g rows)).
      { rewrite final_group_eq. apply isort_sorted; intros a b; [|intros c]; destruct (Z.ltb_spec (fst a) (fst b)); destruct (Z.ltb_spec (fst b) (fst a)); try (destruct (Z.ltb_spec (fst c) (fst b))); try (destruct (Z.ltb_spec (fst c) (fst a))); try reflexivity; try discriminate; lia. }
      assert (M : forall i, In i (final_group geqb g rows) -> maximal_run P (fst i) (snd i)) by (intros [a b] H; apply final_group_in, H).
      revert N S M. generalize (final_group geqb g rows). intros l N S M. induction S as [|i l Sl IH Hf]; [constructor|]. inversion N; subst. constructor; [apply IH; [assumption|intros j Hj; apply M; right; exact Hj]|].
      rewrite Forall_forall in *. intros j Hj. specialize (Hf j Hj). destruct (Z.ltb_spec (fst j) (fst i)); [discriminate|].
      assert (Mi := M i (or_introl eq_refl)). assert (Mj := M j (or_intror Hj)).
      destruct (Z.le_gt_cases (fst j) (snd i)) as [Hle|]; [|lia]. exfalso.
      destruct (Z.eq_dec (fst j) (snd i)) as [E|].
      - destruct Mi as (_ & _ & _ & M4). apply M4. rewrite <- E. destruct Mj as (J1 & J2 & _). apply J2. lia.
      - assert (Hj1 : fst j < snd j) by (destruct Mj; assumption). destruct (runs_same _ _ _ _ _ (fst j) Mi Mj) as [E1 E2]; [lia|lia|]. destruct i, j. cbn in *. subst. contradiction.
    Qed.
  End OneGroup.
End Final.
