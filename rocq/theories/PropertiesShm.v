(** C79: the shared memory of the datasets on one machine. *)
From Coq Require Import String.
From Verif Require Import Base MixtureKeyModel MixtureKeyProofs ChunkerModel IntervalModel SerialModel SerialProofs ParserModel ShmModel.
Open Scope Z_scope.

(** ** Specification *)
(** No two datasets ever constructed on the machine have the same job, group and node. *)
Definition different (sets : nat -> ds) : Prop :=
  forall a b, d_group (sets a) = d_group (sets b) -> d_node (sets a) = d_node (sets b) -> d_job (sets a) = d_job (sets b) -> a = b.
(** Each is constructed once. *)
Definition created (d : nat) (e : mev) : bool := match e with MCreate d' => Nat.eqb d' d | _ => false end.
Definition once (evs : list mev) : Prop := forall d a b c, evs = a ++ MCreate d :: b ++ MCreate d :: c -> False.

Lemma cut_at (x y s t : str) : (forall c, In c x -> c <> underscore) -> (forall c, In c y -> c <> underscore) -> x ++ underscore :: s = y ++ underscore :: t -> x = y /\ s = t.
Proof.
  revert y. induction x as [|a x IH]; intros [|b y] Hx Hy E; cbn [app] in E.
  - injection E as ->. auto.
  - injection E as E _. exfalso. apply (Hy b); [left; reflexivity|congruence].
  - injection E as E _. exfalso. apply (Hx a); [left; reflexivity|exact E].
  - injection E as -> E. destruct (IH y) as [-> ->]; [intros c Hc; apply Hx; right; exact Hc|intros c Hc; apply Hy; right; exact Hc|exact E|]. auto.
Qed.
(** Except on macOS, the name tells which segment of which dataset it is. *)
Theorem C79_names k k' d d' : seg_name false k d = seg_name false k' d' ->
  k = k' /\ d_rand d = d_rand d' /\ d_group d = d_group d' /\ d_node d = d_node d' /\ d_job d = d_job d'.
Proof.
  unfold seg_name. intros E.
  assert (K : k = k') by (destruct k, k'; try reflexivity; exfalso; vm_compute in E; discriminate). subst k'. split; [reflexivity|].
  apply app_inv_head in E. cbn [app] in E.
  apply cut_at in E as [E1 E]; [|apply int_str_chars|apply int_str_chars]. apply int_str_inj in E1.
  apply cut_at in E as [E2 E]; [|apply int_str_chars|apply int_str_chars]. apply int_str_inj in E2.
  apply cut_at in E as [E3 E]; [|apply int_str_chars|apply int_str_chars]. apply int_str_inj in E3. auto.
Qed.

Section Machine.
  Variable sets : nat -> ds.
  Hypothesis Hd : different sets.
  Notation name := (seg_name false).
  Notation mstep := (mstep false sets).
  Notation mrun := (mrun false sets).
  Lemma name_inj k k' a b : name k (sets a) = name k' (sets b) -> k = k' /\ a = b.
  Proof using Hd. intros E. apply C79_names in E as (A & _ & B & C & D). split; [exact A|]. apply Hd; assumption. Qed.
  (** every segment and every registered name belongs to a dataset that was constructed *)
  Definition owned (made : list nat) (m : machine) : Prop :=
    (forall x o, In (x, o) (m_segs m) -> In o made /\ exists k, x = name k (sets o))
    /\ (forall p x, In (p, x) (m_names m) -> exists o k, In o made /\ p = d_pid (sets o) /\ x = name k (sets o)).
  Lemma owned_more made d m : owned made m -> owned (d :: made) m.
  Proof. intros [A B]. split; [intros x o H; destruct (A x o H); split; [right|]; assumption|]. intros p x H. destruct (B p x H) as (o & k & H1 & H2). exists o, k. split; [right|]; assumption. Qed.
  Lemma seg_none made m k d : owned made m -> ~ In d made -> seg m (name k (sets d)) = None.
  Proof using Hd.
    intros [A _] N. unfold seg. destruct (aget str_eqb (name k (sets d)) (m_segs m)) as [o|] eqn:E; [exfalso|reflexivity].
    apply (aget_in str_eqb str_eqb_spec) in E. destruct (A _ _ E) as (I & k' & E'). apply name_inj in E' as [_ ->]. contradiction.
  Qed.
  Lemma unlink_in x m y o : In (y, o) (m_segs (unlink x m)) -> In (y, o) (m_segs m).
  Proof. unfold unlink. cbn [m_segs]. intros H. apply filter_In in H. tauto. Qed.
  Lemma unlink_seg x m y : y <> x -> seg (unlink x m) y = seg m y.
  Proof.
    intros N. unfold seg, unlink. cbn [m_segs]. induction (m_segs m) as [|[z o] l IH]; [reflexivity|]. cbn [filter fst aget].
    destruct (str_eqb z x) eqn:E; cbn [negb].
    - apply str_eqb_spec in E. subst z. destruct (str_eqb y x) eqn:E; [apply str_eqb_spec in E; congruence|exact IH].
    - cbn [aget]. rewrite IH. reflexivity.
  Qed.
  Lemma unlink_all l : forall m y, ~ In y (map snd l) -> seg (fold_left (fun m (e : Z * str) => unlink (snd e) m) l m) y = seg m y.
  Proof.
    induction l as [|e l IH]; intros m y N; [reflexivity|]. cbn [fold_left]. cbn [map In] in N. rewrite IH by tauto. apply unlink_seg. intros E. apply N. left. auto.
  Qed.
  Lemma unlink_all_in l : forall m y o, In (y, o) (m_segs (fold_left (fun m (e : Z * str) => unlink (snd e) m) l m)) -> In (y, o) (m_segs m).
  Proof. induction l as [|e l IH]; intros m y o H; [exact H|]. cbn [fold_left] in H. apply IH in H. eapply unlink_in, H. Qed.
  Definition makes (e : mev) : list nat := match e with MCreate d => [d] | _ => [] end.
  Lemma create_ok made m d : owned made m -> ~ In d made ->
    snd (create false sets d m) = true /\ (forall k, seg (fst (create false sets d m)) (name k (sets d)) = Some d)
    /\ (forall k d', d' <> d -> seg (fst (create false sets d m)) (name k (sets d')) = seg m (name k (sets d'))) /\ owned (d :: made) (fst (create false sets d m)).
  Proof using Hd.
    intros O N. unfold create. rewrite (seg_none made m KStatus d O N). cbn [m_segs m_names].
    assert (SC : str_eqb (name KComp (sets d)) (name KStatus (sets d)) = false).
    { destruct (str_eqb (name KComp (sets d)) (name KStatus (sets d))) eqn:E; [|reflexivity]. apply str_eqb_spec in E. apply name_inj in E as [E _]. discriminate. }
    assert (C1 : seg (mkMachine ((name KStatus (sets d), d) :: m_segs m) (m_names m)) (name KComp (sets d)) = None).
    { unfold seg. cbn [m_segs aget]. rewrite SC. apply (seg_none made m KComp d O N). }
    rewrite C1. cbn [fst snd]. split; [reflexivity|]. split; [|split].
    - intros k. unfold seg. cbn [m_segs aget]. destruct k.
      + destruct (str_eqb (name KStatus (sets d)) (name KComp (sets d))); [reflexivity|]. rewrite (proj2 (str_eqb_spec _ _) eq_refl). reflexivity.
      + rewrite (proj2 (str_eqb_spec _ _) eq_refl). reflexivity.
    - intros k d' ND. unfold seg. cbn [m_segs aget].
      destruct (str_eqb (name k (sets d')) (name KComp (sets d))) eqn:E; [apply str_eqb_spec in E; apply name_inj in E as [_ E]; congruence|].
      destruct (str_eqb (name k (sets d')) (name KStatus (sets d))) eqn:E'; [apply str_eqb_spec in E'; apply name_inj in E' as [_ E']; congruence|reflexivity].
    - apply owned_more with (d := d) in O. destruct O as [A B]. split.
      + intros x o [H|[H|H]]; [injection H as <- <-; split; [left; reflexivity|exists KComp; reflexivity]|injection H as <- <-; split; [left; reflexivity|exists KStatus; reflexivity]|exact (A x o H)].
      + intros p x [H|[H|H]]; [injection H as <- <-; exists d, KStatus; split; [left; reflexivity|auto]|injection H as <- <-; exists d, KComp; split; [left; reflexivity|auto]|exact (B p x H)].
  Qed.
  Lemma step_owned made m e : owned made m -> (forall d, e = MCreate d -> ~ In d made) -> owned (makes e ++ made) (mstep m e).
  Proof using Hd.
    intros O N. destruct e as [d|d|p]; cbn [ShmModel.mstep makes app].
    - apply (create_ok made m d O (N d eq_refl)).
    - destruct O as [A B]. split; [intros x o H; apply unlink_in, unlink_in in H; exact (A x o H)|exact B].
    - destruct O as [A B]. split; cbn [m_segs m_names]; [intros x o H; apply unlink_all_in in H; exact (A x o H)|]. intros q x H. apply filter_In in H as [H _]. exact (B q x H).
  Qed.
  Definition made_by (evs : list mev) : list nat := flat_map makes evs.
  Lemma once_not evs e d : once (evs ++ [e]) -> e = MCreate d -> ~ In d (made_by evs).
  Proof.
    intros H -> I. unfold made_by in I. apply in_flat_map in I as (x & Ix & I). destruct x as [d'| |]; cbn in I; try contradiction. destruct I as [->|[]].
    apply in_split in Ix as (a & b & ->). apply (H d a b []). rewrite <- app_assoc. reflexivity.
  Qed.
  Lemma once_app a b : once (a ++ b) -> once a.
  Proof. intros H d x y z E. apply (H d x y (z ++ b)). rewrite E, <- app_assoc. cbn [app]. rewrite <- app_assoc. reflexivity. Qed.
  Lemma run_owned evs : once evs -> owned (made_by evs) (mrun evs no_segs).
  Proof using Hd.
    induction evs as [|e evs IH] using rev_ind; intros H; [split; intros ? ? []|]. unfold ShmModel.mrun. rewrite fold_left_app. cbn [fold_left].
    assert (O := step_owned _ _ e (IH (once_app _ _ H)) (fun d E => once_not evs e d H E)). fold (mrun evs no_segs).
    assert (X : forall x, In x (makes e ++ made_by evs) <-> In x (made_by (evs ++ [e]))).
    { intros x. unfold made_by. rewrite flat_map_app. cbn [flat_map]. rewrite app_nil_r, !in_app_iff. tauto. }
    destruct O as [A B]. split; [intros y o I; destruct (A y o I); split; [apply X|]; assumption|]. intros p y I. destruct (B p y I) as (o & k & O1 & O2). exists o, k. split; [apply X|]; assumption.
  Qed.

  (** On a machine on which no two datasets have the same job, group and node (not macOS), in any history of constructions,
      clean-ups and exits: constructing a further dataset does not fail because of a segment that exists ... *)
  Theorem C79_creation_partial evs d : once (evs ++ [MCreate d]) -> snd (create false sets d (mrun evs no_segs)) = true.
  Proof using Hd. intros H. apply (create_ok _ _ d (run_owned evs (once_app _ _ H)) (once_not evs _ d H eq_refl)). Qed.
  (** ... and until one of its own processes cleans up, or the process that constructed it exits, both of a dataset's names
      refer to its own segments. *)
  Theorem C79_own_segments_partial evs1 d evs2 : once (evs1 ++ MCreate d :: evs2) -> ~ In (MUnlink d) evs2 -> ~ In (MExit (d_pid (sets d))) evs2 ->
    forall k, seg (mrun (evs1 ++ MCreate d :: evs2) no_segs) (name k (sets d)) = Some d.
  Proof using Hd.
    induction evs2 as [|e evs2 IH] using rev_ind; intros H NU NE k.
    - unfold ShmModel.mrun. rewrite fold_left_app. cbn [fold_left ShmModel.mstep]. fold (mrun evs1 no_segs).
      apply (create_ok _ _ d (run_owned evs1 (once_app _ _ H)) (once_not evs1 _ d H eq_refl)).
    - assert (E : evs1 ++ MCreate d :: evs2 ++ [e] = (evs1 ++ MCreate d :: evs2) ++ [e]) by (rewrite <- app_assoc; reflexivity). rewrite E in *.
      assert (H' := once_app _ _ H). rewrite in_app_iff in NU, NE. cbn [In] in NU, NE. specialize (IH H' ltac:(tauto) ltac:(tauto) k).
      unfold ShmModel.mrun. rewrite fold_left_app. cbn [fold_left]. fold (mrun (evs1 ++ MCreate d :: evs2) no_segs). assert (O := run_owned _ H').
      set (m := mrun (evs1 ++ MCreate d :: evs2) no_segs) in *. clearbody m. destruct e as [d'|d'|p]; cbn [ShmModel.mstep].
      + assert (N := once_not _ _ d' H eq_refl).
        assert (d <> d').
        { intros ->. apply N. unfold made_by. rewrite flat_map_app. cbn [flat_map makes app]. apply in_or_app. right. left. reflexivity. }
        destruct (create_ok _ m d' O N) as (_ & _ & K & _). rewrite (K k d); assumption.
      + assert (d <> d') by (intros ->; tauto). rewrite !unlink_seg; [exact IH| |]; (intros X; apply name_inj in X as [_ X]; contradiction).
      + unfold seg. cbn [m_segs]. fold (seg (fold_left (fun m (e : Z * str) => unlink (snd e) m) (filter (fun e => fst e =? p) (m_names m)) m) (name k (sets d))).
        rewrite unlink_all; [exact IH|]. intros I. apply in_map_iff in I as ([q x] & E1 & I). cbn [snd] in E1. subst x. apply filter_In in I as [I Ep]. cbn [fst] in Ep. apply Z.eqb_eq in Ep. subst q.
        destruct (proj2 O _ _ I) as (o & k' & _ & P & X). apply name_inj in X as [_ <-]. subst p. tauto.
  Qed.
End Machine.

(** False of the code without the assumption: a second dataset of the same job, group and node on a machine (a training that is
    started again, or two datasets in one process) fails to start if it draws the same number below 100 ... *)
Definition two (i : nat) : ds := mkDs 7 0 0 (lit "train") (Z.of_nat i).
Theorem C79_same_number_refuted : snd (create false two 1 (mrun false two [MCreate 0] no_segs)) = false.
Proof. vm_compute. reflexivity. Qed.
(** ... and if the first one has cleaned up before that, its process unlinks the second one's segments when it exits. *)
Theorem C79_unlinks_other_refuted : exists evs, once evs /\ evs = [MCreate 0; MUnlink 0; MCreate 1; MExit 0] /\ d_pid (two 1) <> 0
  /\ seg (mrun false two (firstn 3 evs) no_segs) (seg_name false KStatus (two 1)) = Some 1%nat /\ seg (mrun false two evs no_segs) (seg_name false KStatus (two 1)) = None.
Proof.
  eexists. split; [|split; [reflexivity|]].
  - intros d a b c E. destruct a as [|a0 [|a1 [|a2 [|a3 a]]]]; try discriminate; injection E; clear E.
    + intros E <-. destruct b as [|b0 [|b1 [|b2 b]]]; try discriminate. destruct b; discriminate.
    + intros E1 E2 <-. destruct b as [|b0 [|b1 b]]; try discriminate.
    + destruct a; discriminate.
  - split; [discriminate|]. split; vm_compute; reflexivity.
Qed.
(** On macOS the names of different jobs' segments may be the same. *)
Theorem C79_macos_refuted : exists d d', d_job d <> d_job d' /\ d_group d = 0 /\ d_group d' = 0 /\ d_node d = 0 /\ d_node d' = 0 /\ seg_name true KStatus d = seg_name true KStatus d'.
Proof.
  exists (mkDs 7 0 0 (lit "pretraining-llama-300m-run1") 1), (mkDs 7 0 0 (lit "pretraining-llama-300m-run2") 2). split; [vm_compute; discriminate|]. repeat split.
Qed.

(** Non-vacuity: four datasets of one job, two of them in one process; all draw the same number. *)
Definition four (i : nat) : ds := mkDs 7 (Z.of_nat i) 0 (lit "train_1") (Z.of_nat (i / 2)).
Example C79_ex : different four /\ seg_name false KStatus (four 3) = lit "mts_7_3_0_train_1"
  /\ seg (mrun false four [MCreate 0; MCreate 1; MCreate 2; MUnlink 1; MCreate 3; MExit 1] no_segs) (seg_name false KComp (four 0)) = Some 0%nat
  /\ seg (mrun false four [MCreate 0; MCreate 1; MCreate 2; MUnlink 1; MCreate 3; MExit 1] no_segs) (seg_name false KComp (four 3)) = None.
Proof. split; [intros a b H _ _; cbn in H; lia|]. repeat split; vm_compute; reflexivity. Qed.

Print Assumptions C79_names.
Print Assumptions C79_creation_partial.
Print Assumptions C79_own_segments_partial.
Print Assumptions C79_same_number_refuted.
Print Assumptions C79_unlinks_other_refuted.
Print Assumptions C79_macos_refuted.
