(** Restoring: the restored state, and the simulation with the uninterrupted run. *)
From Verif Require Import Base MixtureKeyModel UtilsModel ChunkGenModel DistributorModel SpecDistributor DistributorProofs
  DistributorProofs2 DistributorProofs3 DistributorProofs4 DistributorProofs5 DistributorProofs6 DistributorProofs7 DistributorProofs8.
From Coq Require Import ZifyBool ZifyNat.
Open Scope Z_scope.

Lemma fold_max_ge l : forall x, x <= fold_right Z.max x l.
Proof. induction l as [|y l IH]; intros x; cbn; [lia|]. specialize (IH x). lia. Qed.

Section Restore.
  Context {C : Type}.
  Variable src : nat -> qout C.

  Lemma restore_gen dp nodes nw m0 B s rep0 D P F m g n st srv qd s1 id j :
    linv src dp nodes nw m0 B s [] rep0 D P F m ->
    0 <= g < dp -> 0 <= n < nodes -> checkpoint g n st srv qd s = (s1, CkId id, Some j) ->
    (forall k st', In (k, st') (rep0 ++ [((g, n), st)]) -> nw <= Z.of_nat (length st')) ->
    exists v, adjusted j = Ok v /\ j_id j = id /\ v_calls v = v_calls (j_state j) /\ v_ctr v = id /\ v_calls (j_state j) = d_calls s1 /\
      forall k, aget Z.eqb id (k_ck k) = Some (Full v, Full (v_calls (j_state j))) -> k_qr k = Full tt ->
      exists s2 B2 P2 F2 m2 lastc, from_checkpoint k id = Ok s2 /\ d_calls s2 = d_calls s1 /\
        linv src dp nodes nw m2 B2 s2 (had_chunk dp nodes nw D) [] D P2 F2 m2 /\
        sim src dp nodes nw B B2 (fun g w => P g 0 w) lastc (had_chunk dp nodes nw D) s1 s2 /\
        forall g' n' w', valid_slot dp nodes nw g' n' w' -> exists x, largest_reported (rep0 ++ [((g, n), st)]) g' w' x /\
           (D g' n' w' <> [] -> lastc g' w' = map (fun c => (c, x)) (last_of (D g' n' w'))
              /\ exists c, nth_error (F2 g' w') (P2 g' n' w') = Some (c, x))
           /\ P2 g' n' w' = pred (P g' n' w') /\ map fst (F2 g' w') = map fst (F g' w') /\ length (F g' w') = P g' n' w'.
  Proof.
    intros HL Hg Hn Hck Hcov. destruct HL as [Hdp Hnw Hm0 Hinv Hk Hf _ HD Hout Hre0].
    destruct (ck_step dp nodes m0 Hdp _ _ _ _ _ _ _ _ _ _ _ Hk Hg Hn Hck) as (acc' & m' & Hk' & Hres).
    destruct (checkpoint_frame _ _ _ _ _ _ _ _ _ Hck) as (E1 & E2 & E3 & E4 & E5 & E6 & E7 & E8 & E9 & _).
    set (rep := rep0 ++ [((g, n), st)]) in *.
    inversion Hres as [| | | | |s1' Hni Hlen Hsame Hok Es Eid Ej Ea Em]; subst s1' acc' m'.
    destruct Hinv as [I1 I2 I3 I4 I5]. cbn [existsb] in HD.
    pose proof (proj1 (same_chunk_spec _ _ _ _ _ _ _ _ _ I4) Hsame) as HPsame.
    set (p := fun g w : Z => P g 0 w).
    assert (Hp : forall g n w, valid_slot dp nodes nw g n w -> P g n w = p g w).
    { intros g' n' w' Hv. apply HPsame; [exact Hv|]. destruct Hv as (? & ? & ?). repeat split; lia. }
    assert (Hlen' : forall g n w, valid_slot dp nodes nw g n w -> length (D g n w) = p g w).
    { intros g' n' w' Hv. destruct (HD _ _ _ Hv) as [-> _]. rewrite map_length, firstn_length, <- (Hp _ _ _ Hv).
      pose proof (c_le _ _ _ _ _ _ _ _ _ I4 _ _ _ Hv). lia. }
    assert (Hre : reach dp nodes nw P F).
    { intros g' w' i Hi. destruct (Hre0 g' w' i Hi) as (n' & Hv & Hl). exists n'. split; [exact Hv|].
      rewrite (Hlen' _ _ _ Hv) in Hl. rewrite (Hp _ _ _ Hv). exact Hl. }
    assert (Hcovers : forall g' n', 0 <= g' < dp -> 0 <= n' < nodes -> In (g', n') (map fst rep)).
    { apply (proj2 (covers dp nodes (map fst rep) ltac:(lia) ltac:(lia)
               ltac:(unfold rep; rewrite map_app; cbn; apply NoDup_app_iff; split; [apply (k_nd _ _ _ _ _ _ Hk)|]; split;
                     [constructor; [intros []|constructor]|intros x Hx [<-|[]]; contradiction])
               ltac:(unfold rep; rewrite map_app; intros g' n' H; apply in_app_or in H as [H|[H|[]]];
                     [apply (k_valid _ _ _ _ _ _ Hk), H|injection H as <- <-; auto]))).
      rewrite map_length. unfold rep. rewrite app_length. cbn. lia. }
    assert (Hlr : forall g' w', 0 <= g' < dp -> 0 <= w' < nw -> exists x, aget p2_eqb (g', w') (max_status rep) = Some x).
    { intros g' w' Hg' Hw'. specialize (Hcovers g' 0 Hg' ltac:(lia)). apply in_map_iff in Hcovers as ([k st'] & Ek & Hin).
      cbn in Ek. subst k. apply (max_status_total rep g' w' 0 st'); [lia|exact Hin|].
      specialize (Hcov _ _ Hin). lia. }
    set (v0 := mkSaved (d_cache s) (d_usage s) (d_next s) (d_dp s) (d_nw s) (d_nodes s) (m + 1) (d_calls s)) in *.
    set (ids := max_status rep) in *.
    assert (Hv0 : v_nw v0 = nw /\ v_dp v0 = dp /\ v_nodes v0 = nodes) by (cbn; auto).
    assert (HB : forall g w, valid_slot dp nodes nw g 0 w -> (p g w <> 0)%nat -> (B g w < p g w)%nat).
    { intros g' w' Hv. unfold p. apply HD. exact Hv. }
    assert (Hids : forall g w, 0 <= g < dp -> 0 <= w < nw -> p g w <> O -> aget p2_eqb (g, w) ids <> None).
    { intros g' w' Hg' Hw' _. destruct (Hlr g' w' Hg' Hw') as [x Hx]. rewrite Hx. discriminate. }
    destruct (adj_run dp nodes nw B v0 P F p ids I4 Hre Hp HB Hids ltac:(lia) (all_slots dp nodes nw) [] v0
                (adj_init dp nodes nw v0 p ids Hv0) (NoDup_all_slots _ _ _)) as (v & Hadj & Ha).
    { intros [[g' n'] w'] H. apply in_all_slots, H. }
    cbn [app] in Ha. pose proof (a_par _ _ _ _ _ _ _ _ Ha) as (A1 & A2 & A3 & A4 & A5). subst j. subst id.
    exists v. split; [|split; [reflexivity|split; [exact A5|split; [exact A4|split; [cbn; congruence|]]]]].
    { unfold adjusted. cbn [j_ids j_state v_dp v_nodes v_nw v0]. rewrite I1, I2, I3. exact Hadj. }
    intros k Hkd Hqr. unfold from_checkpoint. rewrite Hkd, Hqr.
    unfold dist_init. rewrite A1, A2, A3. replace (dp <? 1) with false by lia.
    cbn [d_dp d_nodes d_nw d_og j_state v_calls v0].
    replace (0 <? nw) with true by lia.
    set (s2 := mkDist _ _ _ _ _ _ _ _ _ _ _ _ _ _ _).
    pose proof (adjusted_core dp nodes nw B v0 P F p ids I4 Hre Hp HB Hids ltac:(lia) v Ha) as Hcore2.
    set (lastc := fun g w => match nth_error (restreams F p ids g w) (pred (p g w)) with Some x => [x] | None => [] end).
    exists s2, (fun g w => pred (p g w)), (fun g n w => pred (P g n w)), (restreams F p ids), (d_ctr s2), lastc.
    split; [reflexivity|]. split; [cbn; congruence|].
    assert (Hinv2 : inv src dp nodes nw (fun g w => pred (p g w)) s2 (fun g n w => pred (P g n w)) (restreams F p ids)).
    { constructor; try reflexivity; [exact Hcore2|]. cbn [s2 d_calls]. etransitivity; [|exact I5]. unfold all_chunks.
      erewrite flat_map_ext'; [reflexivity|]. intros g' _. apply flat_map_ext'. intros w' _. apply restreams_fst. }
    assert (HlF : forall g w, 0 <= g < dp -> 0 <= w < nw -> length (F g w) = p g w).
    { apply (flen dp nodes nw B v0 P F p ids I4 Hre Hp HB Hids ltac:(lia)). }
    assert (Hpe : forall g n w, valid_slot dp nodes nw g n w -> existsb (p3_eqb (g, n, w)) (had_chunk dp nodes nw D) = negb (Nat.eqb (p g w) 0)).
    { intros g' n' w' Hv. apply Bool.eq_iff_eq_true. rewrite in_had_chunk, negb_true_iff, Nat.eqb_neq, <- (Hlen' _ _ _ Hv).
      destruct (D g' n' w'); cbn; intuition congruence. }
    split; [|split].
    - assert (Hctr : 0 <= d_ctr s2).
      { cbn [s2 d_ctr]. assert (Hge : v_ctr v <= fold_right Z.max (v_ctr v) (map fst (k_ck k))) by apply fold_max_ge.
        assert (Hvm : v_ctr v = m + 1) by (rewrite A4; reflexivity). pose proof (k_m _ _ _ _ _ _ Hk). lia. }
      constructor; auto.
      + constructor; cbn; try reflexivity; try (constructor); try (intros ? ? []); try lia.
        intros i. replace ((fold_right Z.max (v_ctr v) (map fst (k_ck k)) + 1 <=? i) && (i <=? fold_right Z.max (v_ctr v) (map fst (k_ck k)))) with false by lia. reflexivity.
      + split; [unfold had_chunk; apply NoDup_filter, NoDup_all_slots|]. intros g' n' w' Hin.
        apply existsb_p3, in_had_chunk in Hin. apply Hin.
      + intros g' n' w' Hv. rewrite (Hpe _ _ _ Hv). pose proof Hv as (Hg' & Hn' & Hw'). destruct (HD _ _ _ Hv) as [ED _].
        rewrite (Hp _ _ _ Hv) in ED |- *. rewrite restreams_len, (HlF _ _ Hg' Hw').
        destruct (Nat.eqb_spec (p g' w') 0) as [E|E]; cbn [negb].
        * rewrite E in ED |- *. cbn in ED |- *. split; [exact ED|lia].
        * split; [reflexivity|]. split; [lia|]. replace (S (pred (p g' w'))) with (p g' w') by lia.
          rewrite ED, <- !firstn_map, restreams_fst. reflexivity.
      + intros g' w' i Hi. rewrite restreams_len in Hi. apply Hre0, Hi.
    - constructor; auto.
      + congruence.
      + unfold had_chunk. apply NoDup_filter, NoDup_all_slots.
      + exists P, F, (fun g n w => pred (P g n w)), (restreams F p ids).
        split; [constructor; congruence|]. split; [exact Hinv2|]. split.
        * intros g' n' w' Hv. rewrite (Hpe _ _ _ Hv), (Hp _ _ _ Hv). fold (p g' w'). split; [lia|].
          destruct (Nat.eqb_spec (p g' w') 0); cbn [negb]; lia.
        * intros g' w' Hg' Hw'. fold (p g' w'). rewrite restreams_len. split; [reflexivity|].
          pose proof (HlF _ _ Hg' Hw') as Hl. split.
          -- intros Hne. unfold lastc. destruct (nth_error (restreams F p ids g' w') (pred (p g' w'))) as [x|] eqn:Ex; [eauto|].
             apply nth_error_None in Ex. rewrite restreams_len in Ex. lia.
          -- intros i Hi'. rewrite (proj2 (nth_error_None _ _)) by lia. symmetry. apply nth_error_None. rewrite restreams_len. lia.
    - intros g' n' w' Hv. pose proof Hv as (Hg' & Hn' & Hw'). destruct (Hlr g' w' Hg' Hw') as [x Hx]. exists x.
      split; [apply max_status_spec; [lia|exact Hx]|]. split; [|split; [reflexivity|split; [apply restreams_fst|rewrite (Hp _ _ _ Hv); apply HlF; assumption]]]. intros Hne.
      destruct (HD _ _ _ Hv) as [ED _]. rewrite (Hp _ _ _ Hv), <- (HlF _ _ Hg' Hw'), firstn_all in ED.
      destruct (rev_case (F g' w')) as [EF|(l & [c kk] & EF)].
      + exfalso. apply Hne. rewrite ED, EF. reflexivity.
      + assert (Epp : pred (p g' w') = length l) by (rewrite <- (HlF _ _ Hg' Hw'), EF, app_length; cbn; lia).
        unfold lastc. rewrite (restreams_last dp nodes nw B P F p ids Hp HB Hids g' w' c kk Hg' Hw').
        * rewrite (Hp _ _ _ Hv). erewrite (restreams_last dp nodes nw B P F p ids Hp HB Hids g' w' c kk Hg' Hw').
          2:{ rewrite Epp, EF, nth_error_app2 by lia. rewrite Nat.sub_diag. reflexivity. }
          unfold kf. rewrite Hx. split; [|eexists; reflexivity].
          rewrite ED, EF, map_app. unfold last_of. rewrite rev_app_distr. reflexivity.
        * rewrite Epp, EF, nth_error_app2 by lia. rewrite Nat.sub_diag. reflexivity.
  Qed.

  Lemma life_inv dp nodes nw cached s pend rep D : life src dp nodes nw cached s pend rep D ->
    exists m0 B P F m, linv src dp nodes (eff_workers nw) m0 B s pend rep D P F m.
  Proof.
    induction 1 as [s Hi|s pend rep D ops s' es _ IH Hr Hval Hnf|s rep D g n st srv qd s1 id j v k s2 _ IH Hg Hn Hck Hcov Hadj Hkd Hqr Hfc].
    - exists 0. do 4 eexists. eapply linv_start. exact Hi.
    - destruct IH as (m0 & B & P & F & m & IH). destruct (linv_run src _ _ _ _ _ _ _ _ _ _ _ _ _ _ _ IH Hr Hval Hnf) as (P' & F' & m' & H).
      exists m0, B, P', F', m'. exact H.
    - destruct IH as (m0 & B & P & F & m & IH).
      destruct (restore_gen _ _ _ _ _ _ _ _ _ _ _ _ _ _ _ _ _ _ _ IH Hg Hn Hck Hcov) as (v' & Hadj' & _ & _ & _ & _ & Hrest).
      assert (v' = v) by congruence. subst v'. destruct (Hrest k Hkd Hqr) as (s2' & B2 & P2 & F2 & m2 & lastc & Hfc' & _ & HL & _).
      assert (s2' = s2) by congruence. subst s2'. exists m2, B2, P2, F2, m2. exact HL.
  Qed.

  Lemma resume dp nodes nw cached s rep D g n st srv qd s1 id j :
    life src dp nodes nw cached s [] rep D -> 0 <= g < dp -> 0 <= n < nodes ->
    checkpoint g n st srv qd s = (s1, CkId id, Some j) ->
    (forall k st', In (k, st') (rep ++ [((g, n), st)]) -> eff_workers nw <= Z.of_nat (length st')) ->
    exists v, adjusted j = Ok v /\ j_id j = id /\
      forall k, aget Z.eqb id (k_ck k) = Some (Full v, Full (v_calls (j_state j))) -> k_qr k = Full tt ->
      exists s2, from_checkpoint k id = Ok s2 /\
        forall more s2' es2, only_requests dp nodes (eff_workers nw) more -> drun src s2 more = (s2', es2) ->
          let rest := without_first (had_chunk dp nodes (eff_workers nw) D) more es2 in
          (exists s1', drun src s1 (fst rest) = (s1', snd rest))
          /\ forall g' n' w', valid_slot dp nodes (eff_workers nw) g' n' w' ->
             exists x, largest_reported (rep ++ [((g, n), st)]) g' w' x /\
               got_skip g' n' w' more es2
               = (if asked_for (g', n', w') more then map (fun c => (c, x)) (last_of (D g' n' w')) else [])
                 ++ got_skip g' n' w' (fst rest) (snd rest).
  Proof.
    intros Hl Hg Hn Hck Hcov. destruct (life_inv _ _ _ _ _ _ _ _ Hl) as (m0 & B & P & F & m & HL).
    destruct (restore_gen _ _ _ _ _ _ _ _ _ _ _ _ _ _ _ _ _ _ _ HL Hg Hn Hck Hcov) as (v & Hadj & Hid & _ & _ & _ & Hrest).
    exists v. split; [exact Hadj|]. split; [exact Hid|]. intros k Hkd Hqr.
    destruct (Hrest k Hkd Hqr) as (s2 & B2 & P2 & F2 & m2 & lastc & Hfc & _ & _ & Hsim & Hlast).
    exists s2. split; [exact Hfc|]. intros more s2' es2 Hmore Hrun rest.
    destruct (sim_run _ _ _ _ _ _ _ _ _ _ _ _ _ _ Hsim Hmore Hrun) as [Hr1 Hseq]. split; [exact Hr1|].
    intros g' n' w' Hv. destruct (Hlast _ _ _ Hv) as (x & Hx & Hlc & _). exists x. split; [exact Hx|].
    rewrite (Hseq _ _ _ Hv). f_equal. destruct (asked_for _ _); rewrite ?andb_false_r, ?andb_true_r; [|reflexivity].
    destruct (existsb _ _) eqn:Ee.
    - apply in_had_chunk in Ee as [_ Hne]. apply Hlc, Hne.
    - destruct (D g' n' w') eqn:Eg; [reflexivity|].
      exfalso. enough (false = true) by discriminate. rewrite <- Ee. apply in_had_chunk. split; [exact Hv|]. congruence.
  Qed.

  (** What the workers were handed over the life of the job. *)
  Lemma life_same dp nodes nw cached s pend rep D g a b w i x y :
    life src dp nodes nw cached s pend rep D ->
    nth_error (D g a w) i = Some x -> nth_error (D g b w) i = Some y -> x = y.
  Proof.
    intros Hl Ha Hb. destruct (life_inv _ _ _ _ _ _ _ _ Hl) as (m0 & B & P & F & m & HL).
    assert (H : forall n z, nth_error (D g n w) i = Some z -> nth_error (map fst (F g w)) i = Some z).
    { intros n z Hz. destruct (valid_dec dp nodes (eff_workers nw) g n w) as [Hv|Hv].
      2:{ rewrite (l_out _ _ _ _ _ _ _ _ _ _ _ _ _ HL _ _ _ Hv) in Hz. destruct i; discriminate. }
      pose proof (l_D _ _ _ _ _ _ _ _ _ _ _ _ _ HL _ _ _ Hv) as HD.
      assert (exists k, D g n w = firstn k (map fst (F g w))) as [k Ek].
      { destruct (existsb _ _); [destruct HD as (_ & _ & ->)|destruct HD as (-> & _)]; rewrite <- firstn_map; eauto. }
      rewrite Ek in Hz. eapply nth_firstn_some. exact Hz. }
    apply H in Ha, Hb. congruence.
  Qed.

  Lemma life_stream dp nodes nw cached s pend rep D :
    life src dp nodes nw cached s pend rep D -> exists F : Z -> Z -> list C,
      Permutation (flat_map (fun g => flat_map (fun w => F g w) (zrange 0 (eff_workers nw))) (zrange 0 dp)) (taken src (d_calls s))
      /\ (forall g n w, exists k, D g n w = firstn k (F g w))
      /\ (forall g n w, D g n w <> [] -> valid_slot dp nodes (eff_workers nw) g n w)
      /\ forall g w i, (i < length (F g w))%nat -> exists n, valid_slot dp nodes (eff_workers nw) g n w /\ (i < length (D g n w))%nat.
  Proof.
    intros Hl. destruct (life_inv _ _ _ _ _ _ _ _ Hl) as (m0 & B & P & F & m & HL).
    exists (fun g w => map fst (F g w)). split; [|split; [|split]].
    - exact (i_taken _ _ _ _ _ _ _ _ (l_inv _ _ _ _ _ _ _ _ _ _ _ _ _ HL)).
    - intros g n w. destruct (valid_dec dp nodes (eff_workers nw) g n w) as [Hv|Hv].
      + pose proof (l_D _ _ _ _ _ _ _ _ _ _ _ _ _ HL _ _ _ Hv) as HD.
        destruct (existsb _ _); [destruct HD as (_ & _ & ->)|destruct HD as (-> & _)]; rewrite <- firstn_map; eauto.
      + exists O. apply (l_out _ _ _ _ _ _ _ _ _ _ _ _ _ HL _ _ _ Hv).
    - intros g n w Hne. destruct (valid_dec dp nodes (eff_workers nw) g n w) as [Hv|Hv]; [exact Hv|].
      exfalso. apply Hne. apply (l_out _ _ _ _ _ _ _ _ _ _ _ _ _ HL _ _ _ Hv).
    - intros g w i. rewrite map_length. apply (l_reach _ _ _ _ _ _ _ _ _ _ _ _ _ HL).
  Qed.

  Lemma life_disjoint dp nodes nw cached s pend rep D g n w g' n' w' i j c :
    life src dp nodes nw cached s pend rep D -> distinct_source src ->
    nth_error (D g n w) i = Some c -> nth_error (D g' n' w') j = Some c -> g = g' /\ w = w' /\ i = j.
  Proof.
    intros Hl Hd Hi Hj. destruct (life_stream _ _ _ _ _ _ _ _ Hl) as (F & HF & HD & Hv & _).
    destruct (Hv g n w) as (Hg & _ & Hw). { intros E. rewrite E in Hi. destruct i; discriminate. }
    destruct (Hv g' n' w') as (Hg' & _ & Hw'). { intros E. rewrite E in Hj. destruct j; discriminate. }
    assert (Hnd : NoDup (flat_map (fun g => flat_map (fun w => F g w) (zrange 0 (eff_workers nw))) (zrange 0 dp))).
    { eapply Permutation_NoDup; [symmetry; exact HF|]. apply taken_NoDup, Hd. }
    destruct (HD g n w) as [k1 E1]. rewrite E1 in Hi. apply nth_firstn_some in Hi.
    destruct (HD g' n' w') as [k2 E2]. rewrite E2 in Hj. apply nth_firstn_some in Hj.
    assert (Hz : forall a b, NoDup (zrange a b)) by (intros; apply NoDup_zrange).
    assert (Hin : forall g w i, 0 <= w < eff_workers nw -> nth_error (F g w) i = Some c -> In c (flat_map (fun w => F g w) (zrange 0 (eff_workers nw)))).
    { intros g0 w0 i0 Hw0 H. apply in_flat_map. exists w0. split; [apply in_zrange; lia|]. eapply nth_error_In, H. }
    assert (g = g').
    { eapply (flat_map_NoDup_inj _ _ g g' c Hnd); eauto; apply in_zrange; lia. }
    subst g'. split; [reflexivity|].
    pose proof (flat_map_NoDup_sub _ _ g Hnd ltac:(apply in_zrange; lia)) as Hnd2. cbn in Hnd2.
    assert (w = w').
    { eapply (flat_map_NoDup_inj _ _ w w' c Hnd2); eauto; try (apply in_zrange; lia); eapply nth_error_In; eauto. }
    subst w'. split; [reflexivity|].
    pose proof (flat_map_NoDup_sub _ _ w Hnd2 ltac:(apply in_zrange; lia)) as Hnd3. cbn in Hnd3.
    eapply NoDup_nth_error; [exact Hnd3|apply nth_error_Some; congruence|congruence].
  Qed.

  Lemma life_delivered dp nodes nw cached s pend rep D c :
    life src dp nodes nw cached s pend rep D -> In c (taken src (d_calls s)) ->
    exists g n w, valid_slot dp nodes (eff_workers nw) g n w /\ In c (D g n w).
  Proof.
    intros Hl Hc. destruct (life_stream _ _ _ _ _ _ _ _ Hl) as (F & HF & HD & _ & Hre).
    apply (Permutation_in _ (Permutation_sym HF)) in Hc. apply in_flat_map in Hc as (g & _ & Hc). apply in_flat_map in Hc as (w & _ & Hc).
    apply In_nth_error in Hc as [i Hi]. destruct (Hre g w i) as (n & Hv & Hl'). { apply nth_error_Some. congruence. }
    exists g, n, w. split; [exact Hv|]. destruct (HD g n w) as [k Ek]. rewrite Ek in Hl' |- *.
    apply nth_error_In with (n := i). rewrite nth_firstn_lt; [exact Hi|]. rewrite firstn_length in Hl'. lia.
  Qed.
End Restore.
