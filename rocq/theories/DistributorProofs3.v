(** Consequences of the distributor invariant: same data within a group, disjoint data otherwise, bounded memory. *)
From Verif Require Import Base MixtureKeyModel UtilsModel ChunkGenModel DistributorModel SpecDistributor DistributorProofs
  DistributorProofs2.
From Coq Require Import ZifyBool ZifyNat.
Open Scope Z_scope.

Lemma in_all_slots dp nodes nw g n w : In (g, n, w) (all_slots dp nodes nw) <-> valid_slot dp nodes nw g n w.
Proof.
  unfold all_slots, valid_slot. rewrite in_flat_map. split.
  - intros (g' & Hg & H). apply in_flat_map in H as (n' & Hn & H). apply in_map_iff in H as (w' & [= -> -> ->] & Hw).
    apply in_zrange in Hg, Hn, Hw. auto.
  - intros (Hg & Hn & Hw). exists g. split; [apply in_zrange, Hg|]. apply in_flat_map. exists n.
    split; [apply in_zrange, Hn|]. apply in_map_iff. exists w. split; [reflexivity|apply in_zrange, Hw].
Qed.

Lemma NoDup_flat_map {A B} (f : A -> list B) l :
  NoDup l -> (forall x, In x l -> NoDup (f x)) -> (forall x y b, In x l -> In y l -> In b (f x) -> In b (f y) -> x = y) ->
  NoDup (flat_map f l).
Proof.
  induction l as [|x l IH]; cbn; intros Hnd Hf Hi; [constructor|]. inversion Hnd as [|? ? Hni Hnd']; subst.
  apply NoDup_app_iff. split; [apply Hf; auto|]. split.
  - apply IH; auto. intros a b c Ha Hb Hac Hbc. apply (Hi a b c); auto.
  - intros b Hb Hc. apply in_flat_map in Hc as (y & Hy & Hc). assert (x = y) by (apply (Hi x y b); auto). subst. contradiction.
Qed.

Lemma NoDup_all_slots dp nodes nw : NoDup (all_slots dp nodes nw).
Proof.
  unfold all_slots. apply NoDup_flat_map; [apply NoDup_zrange| |].
  - intros g _. apply NoDup_flat_map; [apply NoDup_zrange| |].
    + intros n _. apply FinFun.Injective_map_NoDup; [|apply NoDup_zrange]. intros a b [= ->]. reflexivity.
    + intros a b t _ _ Ha Hb. apply in_map_iff in Ha as (? & <- & _), Hb as (? & E & _). congruence.
  - intros a b t _ _ Ha Hb. apply in_flat_map in Ha as (? & _ & Ha), Hb as (? & _ & Hb).
    apply in_map_iff in Ha as (? & <- & _), Hb as (? & E & _). congruence.
Qed.

Lemma aget_self (f : p3 -> Z) l t : aget p3_eqb t (map (fun t => (t, f t)) l) = if existsb (p3_eqb t) l then Some (f t) else None.
Proof.
  induction l as [|x l IH]; cbn; [reflexivity|]. destruct (p3_eqb t x) eqn:E; cbn; [|exact IH].
  apply p3_eqb_spec in E. subst. reflexivity.
Qed.

Lemma existsb_p3 t l : existsb (p3_eqb t) l = true <-> In t l.
Proof.
  rewrite existsb_exists. split.
  - intros (x & Hx & E). apply p3_eqb_spec in E. subst. exact Hx.
  - intros H. exists t. split; [exact H|]. apply p3_eqb_spec. reflexivity.
Qed.

  Lemma nth_firstn_some {A} (l : list A) k i x : nth_error (firstn k l) i = Some x -> nth_error l i = Some x.
  Proof.
    revert l i. induction k as [|k IH]; intros [|y l] [|i] H; cbn in *; try discriminate; auto.
  Qed.
  Lemma nth_firstn_lt {A} (l : list A) k i : (i < k)%nat -> nth_error (firstn k l) i = nth_error l i.
  Proof.
    revert l i. induction k as [|k IH]; intros l i H; [lia|]. destruct l as [|y l], i as [|i]; cbn; try reflexivity.
    apply IH. lia.
  Qed.

Section Cons.
  Context {C : Type}.
  Variable src : nat -> qout C.

  Lemma init_inv dp nodes nw cached (s0 : dist C) :
    dist_init dp nodes nw cached 0 = Ok s0 ->
    1 <= dp /\ 1 <= eff_workers nw /\ inv src dp nodes (eff_workers nw) (fun _ _ => 0%nat) s0 (fun _ _ _ => 0%nat) (fun _ _ => [])
    /\ reach dp nodes (eff_workers nw) (fun _ _ _ => 0%nat) (fun _ _ => @nil (C * Z)) /\ d_forked s0 = false.
  Proof.
    unfold dist_init. destruct (dp <? 1) eqn:Ed; [discriminate|]. fold (eff_workers nw). intros H. injection H as <-.
    assert (Hnw : 1 <= eff_workers nw) by (unfold eff_workers; destruct (0 <? nw) eqn:E; lia).
    split; [lia|]. split; [exact Hnw|]. split; [|split; [intros g w i H; cbn in H; lia|reflexivity]].
    constructor; cbn [d_dp d_nodes d_nw d_cache d_usage d_next d_calls]; auto.
    - constructor; [exact Hnw| | | | | | | | | | |].
      + intros g n w Hv. rewrite (aget_self snd). rewrite (proj2 (existsb_p3 _ _)).
        * cbn. f_equal. lia.
        * apply in_all_slots, Hv.
      + intros g n w v. rewrite (aget_self snd). destruct (existsb _ _) eqn:E; [|discriminate]. intros _.
        apply existsb_p3, in_all_slots in E. exact E.
      + intros. cbn. lia.
      + rewrite map_map. cbn. rewrite map_id. apply NoDup_all_slots.
      + constructor.
      + constructor.
      + intros g id ck H. discriminate.
      + intros. lia.
      + intros g n w i Hv _ Hl. cbn in Hl. lia.
      + intros k. cbn. tauto.
      + intros g w i u _ _ H. discriminate.
    - unfold all_chunks, taken. cbn. assert (H : forall l : list Z, flat_map (fun _ : Z => @nil C) l = []).
      { induction l as [|x l IH]; cbn; auto. }
      assert (H2 : forall l l' : list Z, flat_map (fun _ : Z => flat_map (fun _ : Z => @nil C) l') l = []).
      { intros l l'. rewrite (H l'). apply H. }
      rewrite H2. constructor.
  Qed.

  (** Everything the later proofs need about a history from the start. *)
  Lemma history dp nodes nw cached s0 ops s es :
    dist_init dp nodes nw cached 0 = Ok s0 -> drun src s0 ops = (s, es) ->
    exists P F, inv src dp nodes (eff_workers nw) (fun _ _ => 0%nat) s P F /\ reach dp nodes (eff_workers nw) P F
      /\ (forall g n w, got_skip g n w ops es = firstn (P g n w) (F g w) /\ P g n w = length (got g n w ops es)
          /\ (P g n w <= length (F g w))%nat /\ (P g n w <> O -> valid_slot dp nodes (eff_workers nw) g n w)).
  Proof.
    intros H0 Hr. destruct (init_inv _ _ _ _ _ H0) as (Hdp & Hnw & Hi & Hre & _).
    destruct (run_inv _ _ _ _ _ _ _ _ _ _ _ Hi Hr) as (P & F & H1 & H2 & H3 & H4 & H5).
    exists P, F. split; [exact H1|]. split; [intros g w i Hgi; apply (H4 (fun _ _ => O)); [intros g' w' i' Hgi'; apply Hre; lia|lia]|]. intros g n w. destruct (H5 g n w) as (Ha & Hb & Hc).
    rewrite Nat.sub_0_r in Ha, Hc. cbn [skipn] in Ha. split; [exact Ha|]. unfold got. rewrite map_length. split; [lia|].
    split.
    - rewrite Ha, firstn_length in Hc. lia.
    - intros Hp. destruct (valid_dec dp nodes (eff_workers nw) g n w) as [Hv|Hv]; [exact Hv|]. rewrite (Hb Hv) in Hp. lia.
  Qed.

  Lemma same_data dp nodes nw cached s0 ops s es g a b w i x y :
    dist_init dp nodes nw cached 0 = Ok s0 -> drun src s0 ops = (s, es) ->
    nth_error (got g a w ops es) i = Some x -> nth_error (got g b w ops es) i = Some y -> x = y.
  Proof.
    intros H0 Hr Hx Hy. destruct (history _ _ _ _ _ _ _ _ H0 Hr) as (P & F & _ & _ & Hg).
    unfold got in Hx, Hy. rewrite (proj1 (Hg g a w)) in Hx. rewrite (proj1 (Hg g b w)) in Hy.
    rewrite <- firstn_map in Hx, Hy. apply nth_firstn_some in Hx, Hy. congruence.
  Qed.

  Lemma taken_NoDup k : distinct_source src -> NoDup (taken src k).
  Proof.
    intros Hd. induction k as [|k IH]; [constructor|]. rewrite taken_S. apply NoDup_app_iff.
    split; [exact IH|]. split; [destruct (src k); cbn; repeat constructor; auto|].
    intros c Hc Hc2. destruct (src k) as [c'| | |] eqn:E; cbn in Hc2; try contradiction. destruct Hc2 as [->|[]].
    unfold taken in Hc. apply in_flat_map in Hc as (j & Hj & Hc). apply in_seq in Hj.
    destruct (src j) as [c'| | |] eqn:Ej; cbn in Hc; try contradiction. destruct Hc as [->|[]].
    assert (j = k) by (eapply Hd; eauto). lia.
  Qed.

  Lemma flat_map_NoDup_inj {A B} (f : A -> list B) l x y b :
    NoDup (flat_map f l) -> In x l -> In y l -> In b (f x) -> In b (f y) -> NoDup l -> x = y.
  Proof.
    induction l as [|z l IH]; cbn; [tauto|]. intros Hn Hx Hy Hbx Hby Hnd. inversion Hnd as [|? ? Hni Hnd']; subst.
    apply NoDup_app_iff in Hn as (H1 & H2 & H3). destruct Hx as [->|Hx], Hy as [->|Hy]; auto.
    - exfalso. apply (H3 b Hbx). apply in_flat_map. eauto.
    - exfalso. apply (H3 b Hby). apply in_flat_map. eauto.
  Qed.
  Lemma flat_map_NoDup_sub {A B} (f : A -> list B) l x : NoDup (flat_map f l) -> In x l -> NoDup (f x).
  Proof.
    induction l as [|z l IH]; cbn; [tauto|]. intros Hn [->|Hx]; apply NoDup_app_iff in Hn as (H1 & H2 & _); auto.
  Qed.

  Lemma disjoint_data dp nodes nw cached s0 ops s es g n w g' n' w' i j c :
    dist_init dp nodes nw cached 0 = Ok s0 -> drun src s0 ops = (s, es) -> distinct_source src ->
    nth_error (got g n w ops es) i = Some c -> nth_error (got g' n' w' ops es) j = Some c ->
    g = g' /\ w = w' /\ i = j.
  Proof.
    intros H0 Hr Hd Hx Hy. destruct (history _ _ _ _ _ _ _ _ H0 Hr) as (P & F & Hi & _ & Hg).
    assert (Hx' : nth_error (map fst (F g w)) i = Some c).
    { unfold got in Hx. rewrite (proj1 (Hg g n w)), <- firstn_map in Hx. apply nth_firstn_some in Hx. exact Hx. }
    assert (Hy' : nth_error (map fst (F g' w')) j = Some c).
    { unfold got in Hy. rewrite (proj1 (Hg g' n' w')), <- firstn_map in Hy. apply nth_firstn_some in Hy. exact Hy. }
    assert (Hv : valid_slot dp nodes (eff_workers nw) g n w).
    { apply (Hg g n w). destruct (Hg g n w) as (_ & -> & _). intros E. apply length_zero_iff_nil in E. rewrite E in Hx.
      destruct i; discriminate. }
    assert (Hv' : valid_slot dp nodes (eff_workers nw) g' n' w').
    { apply (Hg g' n' w'). destruct (Hg g' n' w') as (_ & -> & _). intros E. apply length_zero_iff_nil in E. rewrite E in Hy.
      destruct j; discriminate. }
    assert (Hnd : NoDup (all_chunks dp (eff_workers nw) F)).
    { eapply Permutation_NoDup; [symmetry; apply (i_taken _ _ _ _ _ _ _ _ Hi)|apply taken_NoDup, Hd]. }
    unfold all_chunks in Hnd. destruct Hv as (Hg1 & _ & Hw1), Hv' as (Hg2 & _ & Hw2).
    assert (Ig : In g (zrange 0 dp)) by (apply in_zrange, Hg1). assert (Ig' : In g' (zrange 0 dp)) by (apply in_zrange, Hg2).
    assert (Iw : In w (zrange 0 (eff_workers nw))) by (apply in_zrange, Hw1).
    assert (Iw' : In w' (zrange 0 (eff_workers nw))) by (apply in_zrange, Hw2).
    assert (Hc : In c (map fst (F g w))) by (eapply nth_error_In; eauto).
    assert (Hc' : In c (map fst (F g' w'))) by (eapply nth_error_In; eauto).
    assert (g = g').
    { eapply flat_map_NoDup_inj with (b := c); [exact Hnd|exact Ig|exact Ig'| | |apply NoDup_zrange];
        apply in_flat_map; eauto. }
    subst g'. pose proof (flat_map_NoDup_sub _ _ _ Hnd Ig) as Hnd1. cbn beta in Hnd1.
    assert (w = w').
    { eapply flat_map_NoDup_inj with (b := c) (f := fun w => map fst (F g w)); [exact Hnd1|exact Iw|exact Iw'| | |apply NoDup_zrange]; auto. }
    subst w'. split; [reflexivity|]. split; [reflexivity|].
    pose proof (flat_map_NoDup_sub _ _ _ Hnd1 Iw) as Hnd2. cbn beta in Hnd2.
    rewrite NoDup_nth_error in Hnd2. apply Hnd2; [|congruence]. apply nth_error_Some. congruence.
  Qed.

  Lemma all_delivered dp nodes nw cached s0 ops s es c :
    dist_init dp nodes nw cached 0 = Ok s0 -> drun src s0 ops = (s, es) ->
    In c (taken src (d_calls s)) -> exists g n w, valid_slot dp nodes (eff_workers nw) g n w /\ In c (got g n w ops es).
  Proof.
    intros H0 Hr Hc. destruct (history _ _ _ _ _ _ _ _ H0 Hr) as (P & F & Hi & Hre & Hg).
    apply (Permutation_in _ (Permutation_sym (i_taken _ _ _ _ _ _ _ _ Hi))) in Hc.
    unfold all_chunks in Hc. apply in_flat_map in Hc as (g & _ & Hc). apply in_flat_map in Hc as (w & _ & Hc).
    apply In_nth_error in Hc as (i & Hc). assert (Hl : (i < length (F g w))%nat).
    { rewrite <- (map_length fst). apply nth_error_Some. congruence. }
    destruct (Hre g w i Hl) as (n & Hv & Hp). exists g, n, w. split; [exact Hv|].
    unfold got. rewrite (proj1 (Hg g n w)), <- firstn_map. apply nth_error_In with i. rewrite nth_firstn_lt by exact Hp. exact Hc.
  Qed.

  Lemma forked_run ops : forall (s s' : dist C) es, drun src s ops = (s', es) -> ~ In Fork ops -> d_forked s' = d_forked s.
  Proof.
    induction ops as [|o ops IH]; intros s s' es Hr Hni; cbn [drun] in Hr.
    - injection Hr as <- _. reflexivity.
    - destruct (dstep src s o) as [s1 e] eqn:Es. destruct (drun src s1 ops) as [s2 es'] eqn:Er. injection Hr as <- _.
      rewrite (IH _ _ _ Er) by (intros H; apply Hni; right; exact H).
      destruct o as [g n w d|g n st srv qd|]; cbn [dstep] in Es.
      + destruct (next_chunk_for src g n w d s) as [s1' r] eqn:En. injection Es as -> _.
        unfold next_chunk_for, hand_out in En.
        repeat match type of En with
        | (if ?b then _ else _) = _ => destruct b
        | match ?x with Some _ => _ | None => _ end = _ => destruct x
        | match ?x with QChunk _ => _ | QNone => _ | QStop => _ | QErr _ => _ end = _ => destruct x
        end; injection En as <- _; reflexivity.
      + destruct (checkpoint g n st srv qd s) as [[s1' r] j] eqn:Ec. injection Es as -> _.
        apply checkpoint_frame in Ec. tauto.
      + exfalso. apply Hni. left. reflexivity.
  Qed.

  (** A node that lags behind another node of its group gets the same chunk, and it gets it from memory. *)
  Lemma lagging_served dp nodes nw cached s0 ops s es g a b w deser c :
    dist_init dp nodes nw cached 0 = Ok s0 -> drun src s0 ops = (s, es) ->
    (dp <= 1 /\ nodes <= 1) \/ ~ In Fork ops ->
    0 <= a < nodes -> nth_error (got g b w ops es) (length (got g a w ops es)) = Some c ->
    exists s' k, next_chunk_for src g a w deser s = (s', DChunk (negb deser) c k) /\ d_calls s' = d_calls s.
  Proof.
    intros H0 Hr Hf Ha Hb. destruct (history _ _ _ _ _ _ _ _ H0 Hr) as (P & F & Hi & _ & Hg).
    destruct (Hg g a w) as (Ga1 & Ga2 & Ga3 & _). destruct (Hg g b w) as (Gb1 & Gb2 & Gb3 & Gb4).
    assert (Hlt : (length (got g a w ops es) < length (got g b w ops es))%nat) by (apply nth_error_Some; congruence).
    rewrite <- Ga2, <- Gb2 in Hlt.
    assert (Hvb : valid_slot dp nodes (eff_workers nw) g b w) by (apply Gb4; lia).
    assert (Hva : valid_slot dp nodes (eff_workers nw) g a w) by (destruct Hvb as (? & ? & ?); repeat split; lia).
    destruct (next_chunk_for src g a w deser s) as [s' o] eqn:En.
    destruct (req_step _ _ _ _ _ _ _ _ _ _ _ _ _ _ Hi En) as (P' & F' & _ & Hres & _).
    assert (Hnot : P g a w = length (F g w) -> False) by lia.
    destruct Hres as [e s1 -> Hw He|s1 o Hv HP Hcalls -> Ho|s1 c' k cache usage next Hv -> Hn|s1 c' cache usage next Hv HP -> Hsrc].
    - exfalso. destruct Hw as [Hw|[Hw1 Hw2]]; [contradiction|]. destruct Hf as [Hf|Hf].
      + unfold guaranteed_server in Hw2. rewrite (i_dp _ _ _ _ _ _ _ _ Hi), (i_nodes _ _ _ _ _ _ _ _ Hi) in Hw2. lia.
      + rewrite (forked_run _ _ _ _ Hr Hf) in Hw1. destruct (init_inv _ _ _ _ _ H0) as (_ & _ & _ & _ & E). congruence.
    - contradiction.
    - assert (c' = c); [|subst c'; do 2 eexists; split; reflexivity].
      unfold got in Hb. rewrite Gb1, <- firstn_map in Hb. apply nth_firstn_some in Hb.
      fold (got g a w ops es) in Hb. rewrite <- Ga2, nth_error_map, Hn in Hb. cbn in Hb. congruence.
    - contradiction.
  Qed.

  Lemma kept dp nodes nw cached s0 ops s es g a b w i c :
    dist_init dp nodes nw cached 0 = Ok s0 -> drun src s0 ops = (s, es) -> 0 <= a < nodes ->
    nth_error (got g b w ops es) i = Some c -> (length (got g a w ops es) <= i)%nat ->
    exists k z, In (k, (c, z)) (in_memory s g w).
  Proof.
    intros H0 Hr Ha Hb Hl. destruct (history _ _ _ _ _ _ _ _ H0 Hr) as (P & F & Hi & _ & Hg).
    destruct (Hg g a w) as (Ga1 & Ga2 & Ga3 & _). destruct (Hg g b w) as (Gb1 & Gb2 & Gb3 & Gb4).
    assert (Hlt : (i < length (got g b w ops es))%nat) by (apply nth_error_Some; congruence).
    assert (Hvb : valid_slot dp nodes (eff_workers nw) g b w) by (apply Gb4; lia).
    assert (Hva : valid_slot dp nodes (eff_workers nw) g a w) by (destruct Hvb as (? & ? & ?); repeat split; lia).
    assert (Hl1 : (P g a w <= i + 1)%nat) by lia. assert (Hl2 : (i < length (F g w))%nat) by lia.
    pose proof (c_avail _ _ _ _ _ _ _ _ _ (i_core _ _ _ _ _ _ _ _ Hi) g a w i Hva Hl1 (conj (Nat.le_0_l _) Hl2)) as Hm.
    destruct (aget p2_eqb _ (d_cache s)) as [ck|] eqn:E; [|contradiction].
    pose proof (aget_in _ p2_eqb_spec _ _ _ E) as Hin.
    destruct (c_some _ _ _ _ _ _ _ _ _ (i_core _ _ _ _ _ _ _ _ Hi) _ _ _ E) as (w1 & i1 & Hg1 & Hw1 & Hid & Hnth & _).
    destruct (slot_inj _ _ _ _ _ (proj2 (proj2 Hva)) Hw1 Hid) as [<- <-].
    exists (g, w + eff_workers nw * Z.of_nat i), (snd ck).
    assert (fst ck = c).
    { unfold got in Hb. rewrite Gb1, <- firstn_map in Hb. apply nth_firstn_some in Hb.
      rewrite nth_error_map, Hnth in Hb. cbn in Hb. congruence. }
    destruct ck as [c0 z]. cbn in *. subst c0. unfold in_memory. apply filter_In. split; [exact Hin|]. cbn.
    rewrite Z.eqb_refl, (i_nw _ _ _ _ _ _ _ _ Hi). cbn. apply Z.eqb_eq.
    replace (w + eff_workers nw * Z.of_nat i - w) with (Z.of_nat i * eff_workers nw) by lia. apply Z_mod_mult.
  Qed.

  Lemma memory_bound dp nodes nw cached s0 ops s es g w k :
    dist_init dp nodes nw cached 0 = Ok s0 -> drun src s0 ops = (s, es) -> 0 <= w < eff_workers nw ->
    (forall a b, 0 <= a < nodes -> 0 <= b < nodes -> (length (got g a w ops es) <= length (got g b w ops es) + k)%nat) ->
    (length (in_memory s g w) <= k + 1)%nat.
  Proof.
    intros H0 Hr Hw Hk. destruct (history _ _ _ _ _ _ _ _ H0 Hr) as (P & F & Hi & Hre & Hg).
    pose proof (i_core _ _ _ _ _ _ _ _ Hi) as Hcore.
    set (m := length (F g w)).
    assert (Hmin : forall n, 0 <= n < nodes -> (m <= P g n w + k)%nat).
    { intros n Hn. destruct (Nat.eq_dec m 0) as [E|E]; [lia|].
      destruct (Hre g w (m - 1)%nat ltac:(unfold m in *; lia)) as (n' & Hv & Hp).
      destruct Hv as (_ & Hn' & _). specialize (Hk n' n Hn' Hn).
      destruct (Hg g n w) as (_ & -> & _). destruct (Hg g n' w) as (_ & Hpn' & _ & _). unfold m in *. lia. }
    rewrite <- (map_length (fun kv : p2 * (C * Z) => snd (fst kv)) (in_memory s g w)).
    transitivity (length (map (fun i => w + eff_workers nw * Z.of_nat i) (seq (m - (k + 1)) (k + 1)))).
    2:{ rewrite map_length, seq_length. lia. }
    apply NoDup_incl_length.
    - (* ids are different *)
      unfold in_memory. pose proof (c_ndc _ _ _ _ _ _ _ _ _ Hcore) as Hnd. clear - Hnd. revert Hnd.
      induction (d_cache s) as [|[[g' id] ck] l IH]; cbn; [constructor|]. intros Hnd.
      inversion Hnd as [|? ? Hni Hnd']; subst.
      destruct ((g' =? g) && ((id - w) mod d_nw s =? 0)) eqn:E; cbn; [|auto]. constructor; [|auto].
      intros Hin. apply in_map_iff in Hin as ([[g2 id2] ck2] & E2 & Hin). cbn in E2. subst id2.
      apply filter_In in Hin as [Hin E3]. cbn in E3. rewrite andb_true_iff, Z.eqb_eq in E, E3.
      destruct E as [-> _], E3 as [-> _]. apply Hni. apply (in_map fst) in Hin. exact Hin.
    - intros id Hid. apply in_map_iff in Hid as ([[g' id'] ck] & E & Hid). cbn in E. subst id'.
      apply filter_In in Hid as [Hin E]. cbn in E. rewrite andb_true_iff, !Z.eqb_eq in E. destruct E as [-> Em].
      rewrite (i_nw _ _ _ _ _ _ _ _ Hi) in Em.
      pose proof (in_aget _ p2_eqb_spec _ _ _ (c_ndc _ _ _ _ _ _ _ _ _ Hcore) Hin) as Hget.
      destruct (c_some _ _ _ _ _ _ _ _ _ Hcore _ _ _ Hget) as (w1 & i1 & Hg1 & Hw1 & Hid1 & Hnth & Hnall).
      assert (w1 = w).
      { rewrite Hid1 in Em. replace (w1 + eff_workers nw * Z.of_nat i1 - w) with (w1 - w + Z.of_nat i1 * eff_workers nw) in Em by lia.
        rewrite Z_mod_plus_full in Em. apply Z.mod_divide in Em; [|lia]. destruct Em as [q Eq]. assert (q = 0); [|subst; lia]. destruct (Z.eq_dec q 0) as [E0|E0]; [exact E0|]. exfalso.
        assert (q <= -1 \/ 1 <= q) as [Hq|Hq] by lia; nia. }
      subst w1. apply in_map_iff. exists i1. split; [auto|]. apply in_seq.
      assert (Hlt : (i1 < m)%nat) by (apply nth_error_Some; congruence).
      split; [|lia]. destruct (Nat.le_gt_cases (m - (k + 1)) i1) as [Hle|Hgt]; [exact Hle|]. exfalso. apply Hnall.
      intros n Hn. specialize (Hmin n Hn). lia.
  Qed.

  Lemma memory_all dp nodes nw cached s0 ops s es kv :
    dist_init dp nodes nw cached 0 = Ok s0 -> drun src s0 ops = (s, es) -> In kv (d_cache s) ->
    exists g w, 0 <= g < dp /\ 0 <= w < eff_workers nw /\ In kv (in_memory s g w).
  Proof.
    intros H0 Hr Hin. destruct (history _ _ _ _ _ _ _ _ H0 Hr) as (P & F & Hi & Hre & Hg). destruct kv as [[g id] ck].
    pose proof (i_core _ _ _ _ _ _ _ _ Hi) as Hcore.
    pose proof (in_aget _ p2_eqb_spec _ _ _ (c_ndc _ _ _ _ _ _ _ _ _ Hcore) Hin) as Hget.
    destruct (c_some _ _ _ _ _ _ _ _ _ Hcore _ _ _ Hget) as (w1 & i1 & Hg1 & Hw1 & Hid1 & Hnth & Hnall).
    exists g, w1. split; [exact Hg1|]. split; [exact Hw1|]. apply filter_In. split; [exact Hin|]. cbn.
    rewrite Z.eqb_refl, (i_nw _ _ _ _ _ _ _ _ Hi), Hid1. cbn. apply Z.eqb_eq.
    replace (w1 + eff_workers nw * Z.of_nat i1 - w1) with (Z.of_nat i1 * eff_workers nw) by lia. apply Z_mod_mult.
  Qed.
End Cons.
