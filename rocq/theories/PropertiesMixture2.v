(** More about mixtures: rejected weights and float arithmetic (C13), schedules that learn the index (C15, C52). *)
From Verif Require Import Base MixtureKeyModel MixtureKeyProofs UtilsModel UtilsProofs ChunkGenModel SpecChunk ChunkGenProofs1
  MixtureModel SpecMixture MixtureProofs MixtureProofs2 PropertiesChunk PropertiesMixture FloatModel.
From Coq Require Import QArith Qround Qabs Qminmax Lqa ZifyBool ZifyNat.
Open Scope Z_scope.

(** ** C13 *)
(** Weights whose sum is away from one by more than 0.2% are rejected, and so are weights close to one of which some
    are negative; nothing else is returned. *)
Theorem C13_rejects : forall c mix,
  let S := qsum (map snd mix) in
  ((2 # 1000) < Qabs (S - 1))%Q -> static_mixture exactly c mix = Err ValueError.
Proof.
  intros c mix S H. unfold static_mixture. assert (HtS : (fsum exactly (map snd mix) == S)%Q) by apply fsum_exact.
  set (t := fsum exactly (map snd mix)) in *. replace (isclose1 t) with false; [reflexivity|]. symmetry. apply not_true_is_false. intros Hi.
  unfold isclose1 in Hi. apply Qle_bool_iff in Hi. rewrite HtS in Hi.
  assert (Hm : (Qmax (Qabs S) 1 <= 1 + Qabs (S - 1))%Q).
  { apply Q.max_lub.
    - setoid_replace S with (1 + (S - 1))%Q at 1 by ring. eapply Qle_trans; [apply Qabs_triangle|]. change (Qabs 1) with 1%Q. apply Qle_refl.
    - pose proof (Qabs_nonneg (S - 1)). lra. }
  lra.
Qed.
Theorem C13_rejects_negative : forall c mix,
  ~ Forall (fun kv => (0 <= snd kv)%Q) mix -> exists e, static_mixture exactly c mix = Err e.
Proof.
  intros c mix H. unfold static_mixture. set (t := fsum exactly (map snd mix)). destruct (isclose1 t) eqn:Hi; [|exists ValueError; reflexivity]. cbn [negb].
  pose proof (isclose1_pos t Hi) as Ht. exists AssertionError. unfold parse_user_mixture.
  replace (forallb _ _) with false; [reflexivity|]. symmetry. apply not_true_is_false. intros Ha. apply H.
  rewrite forallb_forall in Ha. apply Forall_forall. intros [k w] Hin. cbn [snd].
  specialize (Ha (k, exactly (w / t)%Q)). cbn [snd] in Ha. assert (Hx : Qle_bool 0 (exactly (w / t)) = true).
  { apply Ha. apply in_map_iff. exists (k, w). auto. }
  apply Qle_bool_iff in Hx. unfold exactly in Hx. assert (E : (w == w / t * t)%Q) by (field; lra). rewrite E. apply Qmult_le_0_compat; lra.
Qed.
Example C13_rejects_ex : static_mixture exactly 10 [(ka, 1 # 2); (kb, 1 # 3)] = Err ValueError
  /\ static_mixture exactly 10 [(ka, 3 # 2); (kb, - 1 # 2)] = Err AssertionError.
Proof. split; vm_compute; reflexivity. Qed.

(** The rounding of doubles satisfies C13_static_float's hypothesis: 0.1, 0.2 and 0.7 of 10 rows. *)
Definition d64 (x : Q) : Q := fl64 x.
Example C13_static_float_ex :
  (forall x, (0 <= x)%Q -> (Qabs (fl64 x - x) <= eps53 * x)%Q)
  /\ static_mixture fl64 10 [(ka, d64 (1 # 10)); (kb, d64 (2 # 10)); (kab, d64 (7 # 10))] = Ok [(ka, 1); (kb, 2); (kab, 7)].
Proof.
  split; [|vm_compute; reflexivity]. intros x Hx. pose proof (fl64_close x Hx) as H. unfold eps53.
  change (1 # 2 ^ 53)%Q with (1 # 9007199254740992)%Q in H. lra.
Qed.

(** ** C15: the schedule is told the query's index while it runs *)
Section Pos.
  Notation entry := (Z * mixture)%type.
  Let srt := isort (fun a b : entry => fst a <? fst b).

  Lemma go_bounds s : forall l i best, exists p,
    (fix go (i : nat) (l : list entry) (best : nat) : nat :=
       match l with [] => best | e :: l' => go (S i) l' (if fst e <=? s then i else best) end) i l best = p
    /\ match find (fun e => fst e <=? s) (rev l) with
       | Some e => (i <= p)%nat /\ nth_error l (p - i) = Some e
       | None => p = best end.
  Proof.
    induction l as [|e l IH]; intros i best; [cbn; eauto|]. cbn [rev].
    assert (Hf : forall (a b : list entry) f, find f (a ++ b) = match find f a with Some x => Some x | None => find f b end).
    { clear. induction a as [|x a IH]; intros b f; cbn; [reflexivity|]. destruct (f x); auto. }
    rewrite Hf. destruct (IH (S i) (if fst e <=? s then i else best)) as (p & E & H). exists p. split; [exact E|].
    destruct (find (fun e => fst e <=? s) (rev l)) as [x|].
    - destruct H as [H1 H2]. split; [lia|]. replace (p - i)%nat with (S (p - S i)) by lia. exact H2.
    - cbn [find]. destruct (fst e <=? s); [|exact H]. split; [lia|]. replace (p - i)%nat with 0%nat by lia. reflexivity.
  Qed.
  Lemma pick_nth s l : pick s l = nth_error l (pick_pos s l).
  Proof.
    unfold pick, pick_pos. destruct (go_bounds s l 0 0) as (p & E & H). cbn zeta. rewrite E. clear E.
    destruct (find (fun e => fst e <=? s) (rev l)) as [x|]; [|rewrite H; reflexivity]. destruct H as [_ H]. rewrite Nat.sub_0_r in H. auto.
  Qed.
  Lemma pick_pos_fst s : forall l l', map fst l = map fst l' -> pick_pos s l = pick_pos s l'.
  Proof.
    intros l l'. unfold pick_pos. generalize 0%nat at 1 3. generalize 0%nat. revert l'.
    induction l as [|e l IH]; intros [|e' l'] b i H; cbn in H; try discriminate; [reflexivity|]. injection H as H1 H2. rewrite H1. apply IH, H2.
  Qed.
  Lemma replace_fst st e' p l : match nth_error l p with Some e => fst e = st | None => True end -> map fst (replace_nth (st, e') p l) = map fst l.
  Proof. revert p. induction l as [|x l IH]; intros [|p] H; cbn in *; auto; [congruence|f_equal; apply IH, H]. Qed.
  Lemma replace_nth_spec (x : entry) p l q : nth_error (replace_nth x p l) q = if Nat.eqb q p then match nth_error l p with Some _ => Some x | None => None end else nth_error l q.
  Proof.
    revert p q. induction l as [|y l IH]; intros [|p] [|q]; cbn; auto.
    destruct (Nat.eqb q p); reflexivity.
  Qed.

  (** Sorting and picking look at the start steps only. *)
  Variable F : entry -> entry.
  Hypothesis HF : forall e, fst (F e) = fst e.
  Lemma ins_map x l : insert_sorted (fun a b : entry => fst a <? fst b) (F x) (map F l) = map F (insert_sorted (fun a b : entry => fst a <? fst b) x l).
  Proof. induction l as [|y l IH]; cbn; [reflexivity|]. rewrite !HF. destruct (fst y <? fst x); cbn; [rewrite IH; reflexivity|reflexivity]. Qed.
  Lemma srt_map l : isort (fun a b : entry => fst a <? fst b) (map F l) = map F (isort (fun a b : entry => fst a <? fst b) l).
  Proof. induction l as [|x l IH]; cbn; [reflexivity|]. rewrite IH. apply ins_map. Qed.
  Lemma pick_map s l : pick s (map F l) = option_map F (pick s l).
  Proof.
    rewrite !pick_nth. rewrite (pick_pos_fst s (map F l) l) by (rewrite map_map; apply map_ext, HF). apply nth_error_map.
  Qed.
End Pos.

Lemma ins_perm (x : Z * mixture) l : Permutation (insert_sorted (fun a b => fst a <? fst b) x l) (x :: l).
Proof. induction l as [|y l IH]; cbn; [reflexivity|]. destruct (fst y <? fst x); [|reflexivity]. rewrite IH. apply perm_swap. Qed.
Lemma srt_perm (l : list (Z * mixture)) : Permutation (isort (fun a b => fst a <? fst b) l) l.
Proof. induction l as [|x l IH]; cbn; [constructor|]. rewrite ins_perm. constructor. exact IH. Qed.

Lemma max_app a b z : fold_left Z.max (a ++ b) z = fold_left Z.max b (fold_left Z.max a z).
Proof. apply fold_left_app. Qed.

(** After feedback [fbs0] the schedule is told the index of the query result, then gets more feedback [fbs].  It behaves
    like the entry prescribed for the largest step reported so far; if this is the entry that was current when the
    index was announced, like this entry after it was told the index. *)
Theorem C15_schedule_index : forall fuel fl idx c sched fbs0 fbs m0 m1,
  schedule_init c sched = Ok m0 ->
  process_index (S fuel) fl idx (fold_left feedback fbs0 m0) = Ok m1 ->
  exists s0 i0 e0 s i e,
    largest (0 :: fbs0) s0 /\ prescribed sched s0 i0 e0
    /\ largest (0 :: fbs0 ++ fbs) s /\ prescribed sched s i e
    /\ let now := fold_left feedback fbs m1 in
       (i <> i0 -> mixture_in_rows now = mixture_in_rows (snd e))
       /\ (i = i0 -> exists e1, process_index fuel fl idx (set_csize c (snd e)) = Ok e1 /\ mixture_in_rows now = mixture_in_rows e1).
Proof.
  intros fuel fl idx c sched fbs0 fbs m0 m1 H0 H1. unfold schedule_init in H0. destruct sched as [|x0 sched']; [discriminate|]. set (sched := x0 :: sched') in *.
  set (adj := map (fun e : Z * mixture => (fst e, if mx_csize (snd e) =? c then snd e else set_csize c (snd e))) sched) in H0.
  assert (Em : m0 = Mixture c 0 true (KSchedule (isort (fun a b : Z * mixture => fst a <? fst b) adj))) by congruence.
  clear H0. subst m0. rewrite fold_feedback in H1. set (s0 := fold_left Z.max fbs0 0) in *.
  (* entries with their positions *)
  set (d := (0, Mixture 0 0 true KArbitrary) : Z * mixture).
  set (T := map (fun i => (fst (nth i adj d), Mixture (Z.of_nat i) 0 true KArbitrary)) (seq 0 (length adj))).
  set (F := fun e : Z * mixture => (fst e, snd (nth (Z.to_nat (mx_csize (snd e))) adj d))).
  assert (HF : forall e, fst (F e) = fst e) by reflexivity.
  assert (HT : map F T = adj).
  { unfold T, F. rewrite map_map. cbn [fst snd mx_csize]. clear. induction adj as [|e l IH]; [reflexivity|]. cbn [length seq map]. f_equal; [destruct e; reflexivity|].
    rewrite <- seq_shift, map_map. transitivity (map (fun x : nat => (fst (nth x l d), snd (nth (Z.to_nat (Z.of_nat x)) l d))) (seq 0 (length l))); [|exact IH].
    apply map_ext. intros x. rewrite !Nat2Z.id. reflexivity. }
  assert (HTn : forall i e, nth_error T i = Some e -> mx_csize (snd e) = Z.of_nat i).
  { intros i e He. unfold T in He. rewrite nth_error_map in He. destruct (nth_error (seq 0 (length adj)) i) as [j|] eqn:Ej; [|discriminate].
    cbn in He. injection He as <-. cbn. pose proof (nth_error_nth _ _ 0%nat Ej) as Hn. assert ((i < length adj)%nat). { assert (Hs : (i < length (seq 0 (length adj)))%nat) by (apply nth_error_Some; congruence). rewrite seq_length in Hs. exact Hs. }
    rewrite seq_nth in Hn by assumption. lia. }
  assert (HTd : NoDup T).
  { apply NoDup_nth_error. intros i j Hi E. destruct (nth_error T i) as [e|] eqn:Ei; [|apply nth_error_None in Ei; lia].
    pose proof (HTn i e Ei). pose proof (HTn j e (eq_sym E)). lia. }
  set (L := isort (fun a b : Z * mixture => fst a <? fst b) T).
  assert (HL : isort (fun a b : Z * mixture => fst a <? fst b) adj = map F L) by (rewrite <- HT; apply (srt_map F HF)).
  assert (HLd : NoDup L) by (eapply Permutation_NoDup; [symmetry; apply srt_perm|exact HTd]).
  assert (HTne : T <> []) by (unfold T, adj, sched; discriminate).
  assert (Hadj : forall i, nth_error adj i = match nth_error sched i with Some e => Some (fst e, set_csize c (snd e)) | None => None end).
  { intros i. unfold adj. rewrite nth_error_map. destruct (nth_error sched i) as [[st m]|]; [|reflexivity]. cbn. f_equal. f_equal.
    destruct (mx_csize m =? c) eqn:E; [|reflexivity]. destruct m as [c' ? ? ?]. cbn in *. f_equal. lia. }
  assert (Hpres : forall s, exists i e t, pick s L = Some t /\ nth_error T i = Some t /\ prescribed sched s i e
            /\ F t = (fst e, set_csize c (snd e))).
  { intros s. destruct (pick_spec s T HTne) as (i & t & Hp & Hi & Hor). fold L in Hp.
    assert (Ha : nth_error adj i = Some (F t)) by (rewrite <- HT, nth_error_map, Hi; reflexivity).
    rewrite Hadj in Ha. destruct (nth_error sched i) as [e|] eqn:Ee; [|discriminate]. assert (Ha' : (fst e, set_csize c (snd e)) = F t) by congruence. clear Ha. rename Ha' into Ha.
    exists i, e, t. split; [exact Hp|]. split; [exact Hi|]. split; [|symmetry; exact Ha].
    assert (Hft : fst t = fst e) by (rewrite <- (HF t), <- Ha; reflexivity).
    assert (Hj : forall j e', nth_error sched j = Some e' -> exists t', nth_error T j = Some t' /\ fst t' = fst e').
    { intros j e' Hj. assert (Hx : nth_error adj j = Some (fst e', set_csize c (snd e'))) by (rewrite Hadj, Hj; reflexivity).
      rewrite <- HT, nth_error_map in Hx. destruct (nth_error T j) as [t'|]; [|discriminate]. exists t'. split; [reflexivity|].
      assert (Hx' : F t' = (fst e', set_csize c (snd e'))) by (cbn [option_map] in Hx; congruence). rewrite <- (HF t'), Hx'. reflexivity. }
    split; [exact Ee|]. rewrite Hft in Hor. destruct Hor as [[A B]|[A B]]; [left|right]; (split; [try exact A|]).
    - intros j e' Hje. destruct (Hj j e' Hje) as (t' & Ht' & <-). apply B, Ht'.
    - intros j e' Hje. destruct (Hj j e' Hje) as (t' & Ht' & <-). eapply A, Ht'.
    - intros j e' Hje. destruct (Hj j e' Hje) as (t' & Ht' & <-). apply B, Ht'. }
  rewrite HL in H1. cbn [process_index] in H1. set (p0 := pick_pos s0 (map F L)) in H1.
  destruct (nth_error (map F L) p0) as [[st0 en0]|] eqn:En0; [|discriminate].
  destruct (process_index fuel fl idx en0) as [e1|] eqn:Ep1; [|discriminate]. injection H1 as <-.
  destruct (Hpres s0) as (i0 & e0 & t0 & Hp0 & Hi0 & Hpr0 & Ft0).
  set (s := fold_left Z.max (fbs0 ++ fbs) 0). destruct (Hpres s) as (i & e & t & Hp & Hi & Hpr & Ft).
  exists s0, i0, e0, s, i, e. split; [apply fold_max_largest|]. split; [exact Hpr0|]. split; [apply fold_max_largest|]. split; [exact Hpr|].
  cbv zeta. rewrite fold_feedback. set (sx := fold_left Z.max fbs s0). assert (Esx : sx = s) by (unfold sx, s, s0; symmetry; apply max_app).
  rewrite Esx. clear sx Esx. set (M := replace_nth (st0, e1) p0 (map F L)).
  assert (HMp : pick_pos s M = pick_pos s L).
  { transitivity (pick_pos s (map F L)); apply pick_pos_fst; [apply replace_fst; rewrite En0; reflexivity|rewrite map_map; apply map_ext, HF]. }
  assert (Hp0' : p0 = pick_pos s0 L) by (unfold p0; apply pick_pos_fst; rewrite map_map; apply map_ext, HF).
  rewrite pick_nth in Hp, Hp0.
  assert (Hpos : i = i0 <-> pick_pos s L = p0).
  { rewrite Hp0'. split; intros E.
    - subst i0. rewrite Hi in Hi0. injection Hi0 as <-. eapply NoDup_nth_error; [exact HLd| |congruence]. apply nth_error_Some. congruence.
    - rewrite E in Hp. rewrite Hp in Hp0. injection Hp0 as <-. pose proof (HTn _ _ Hi). pose proof (HTn _ _ Hi0). lia. }
  assert (HpM : pick s M = if Nat.eqb (pick_pos s L) p0 then Some (st0, e1) else Some (F t)).
  { rewrite pick_nth, HMp. unfold M. rewrite replace_nth_spec, En0. destruct (Nat.eqb (pick_pos s L) p0); [reflexivity|]. rewrite nth_error_map, Hp. reflexivity. }
  assert (Hrows : forall st m, pick s M = Some (st, m) -> mixture_in_rows (Mixture c s true (KSchedule M)) = mixture_in_rows m).
  { intros st m Hpm. unfold mixture_in_rows at 1. cbn [depth]. set (dd := fold_right _ _ _). cbn [mixture_in_rows_fuel]. rewrite Hpm.
    apply rows_fuel_enough. apply (depth_entry (st, m)). eapply pick_in. exact Hpm. }
  split; intros Hii.
  - destruct (Nat.eqb_spec (pick_pos s L) p0) as [E|E]; [apply Hpos in E; contradiction|]. rewrite Ft in HpM.
    rewrite (Hrows _ _ HpM). apply rows_set_csize.
  - assert (E : pick_pos s L = p0) by (apply Hpos, Hii). rewrite (proj2 (Nat.eqb_eq _ _) E) in HpM. exists e1.
    split; [|apply (Hrows _ _ HpM)]. rewrite <- Ep1. f_equal.
    rewrite nth_error_map, <- E, Hp in En0. cbn [option_map] in En0. rewrite Ft in En0. congruence.
Qed.
Example C15_index_ex : exists m0 m1,
  schedule_init 4 [(10, Mixture 4 0 true (KInferring [])); (0, Mixture 4 0 true (KRows [(ka, 3); (kb, 1)]))] = Ok m0
  /\ process_index 2 exactly idx_ex (fold_left feedback [12] m0) = Ok m1
  /\ mixture_in_rows (fold_left feedback [5; 13] m1) = [(ka, 3); (kb, 1)].
Proof. eexists. eexists. split; [vm_compute; reflexivity|]. split; [vm_compute; reflexivity|]. vm_compute. reflexivity. Qed.
Print Assumptions C13_rejects.
Print Assumptions C13_rejects_negative.
Print Assumptions C15_schedule_index.
