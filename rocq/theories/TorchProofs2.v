(** The invariant of training jobs. *)
From Verif Require Import Base MixtureKeyModel UtilsModel ChunkGenModel DistributorModel SpecDistributor DistributorProofs
  DistributorProofs2 DistributorProofs3 DistributorProofs4 DistributorProofs5 DistributorProofs6 DistributorProofs7
  DistributorProofs8 DistributorProofs9 TorchModel SpecTorch TorchProofs.
From Coq Require Import ZifyBool ZifyNat.
Open Scope Z_scope.

Section Proofs.
  Context {C X : Type}.
  Variable src : nat -> qout C.
  Variable items : C -> list X.
  Variables dp nodes nw0 : Z.
  Variable cached : bool.
  Let nw := eff_workers nw0.

  Definition tinv (s : dist C) (W : p3 -> worker X) (lives : p3 -> list (list X)) (reports : list (p2 * list Z)) : Prop :=
    exists m0 B pend D P F m, linv src dp nodes nw m0 B s pend reports D P F m
      /\ forall g n w, valid_slot dp nodes nw g n w ->
           wslot items (existsb (p3_eqb (g, n, w)) pend) (P g n w) (F g w) (W (g, n, w)) (joined (lives (g, n, w)))
           /\ chained [] (lives (g, n, w)).

  Lemma chained_snoc (l : list (list X)) b : forall a, chained a (l ++ [b]) <-> chained a l /\ starts_with_last (fold_left continue_with l a) b.
  Proof. induction l as [|x l IH]; intros a; cbn [app chained fold_left]; [tauto|]. rewrite IH. tauto. Qed.

  Lemma took_follows pend P F (x : worker X) a : wslot items pend P F x a -> starts_with_last a (took x).
  Proof.
    intros H. unfold starts_with_last. destruct (rev a) as [|y r] eqn:E; [exact I|].
    destruct (took x) as [|z l] eqn:Et; [exact I|]. unfold took in Et.
    assert (Ea : a = rev r ++ [y]). { rewrite <- (rev_involutive a), E. reflexivity. }
    destruct pend.
    - destruct (w_pend _ _ _ _ _ _ H eq_refl) as (_ & _ & _ & Ho & _). rewrite Ho, firstn_nil in Et. discriminate.
    - destruct (w_run _ _ _ _ _ _ H eq_refl) as (_ & H2 & _). destruct (H2 _ _ Ea) as [q Eq].
      destruct (t_out x); [rewrite firstn_nil in Et; discriminate|]. destruct (t_seen x); [discriminate|].
      cbn in Et, Eq. congruence.
  Qed.

  (** A request to the distributor that hands worker [t] the chunks [gs] (at most one), nobody else anything. *)
  Lemma tinv_request s W lives reports o e s' W' t gs :
    tinv s W lives reports -> drun src s [o] = (s', [e]) -> ck_valid dp nodes o -> o <> Fork ->
    (forall g n w, got_skip g n w [o] [e] = if p3_eqb t (g, n, w) then gs else []) ->
    (forall t', t' <> t -> W' t' = W t') ->
    match gs with
    | [] => W' t = W t
    | [(c, k)] => t_rest (W t) = [] /\ W' t = mkWorker (t_status (W t)) (S (t_chunks (W t))) 0 (chunk_samples items c k) (t_out (W t)) (t_seen (W t))
    | _ => False
    end ->
    tinv s' W' lives (round reports [o] [e]).
  Proof.
    intros (m0 & B & pend & D & P & F & m & HL & HW) Hr Hval Hnf Hgs Hoth Ht.
    destruct (linv_run_strong src _ _ _ _ _ _ _ _ _ _ _ _ _ _ _ HL Hr) as (P' & F' & m' & HL' & Hpre & Hle & Hgot);
      [constructor; [exact Hval|constructor]|intros [H|[]]; congruence|].
    do 4 eexists. exists P', F', m'. split; [exact HL'|]. intros g n w Hv.
    destruct (HW g n w Hv) as [HW0 Hch]. clear HW. rename HW0 into HW. split; [|exact Hch]. destruct (Hgot g n w) as [Hg1 Hg2]. rewrite Hgs in Hg1, Hg2. specialize (Hle g n w).
    assert (Hex : existsb (p3_eqb (g, n, w)) (filter (fun t => match t with (g, n, w) => Nat.eqb (length (got g n w [o] [e])) 0 end) pend)
              = existsb (p3_eqb (g, n, w)) pend && Nat.eqb (length (got g n w [o] [e])) 0).
    { apply Bool.eq_iff_eq_true. rewrite andb_true_iff, !existsb_p3, filter_In. tauto. }
    rewrite Hex. unfold got. rewrite Hgs, map_length.
    destruct (Hpre g w) as [l El].
    pose proof (c_le _ _ _ _ _ _ _ _ _ (i_core _ _ _ _ _ _ _ _ (l_inv _ _ _ _ _ _ _ _ _ _ _ _ _ HL)) _ _ _ Hv) as HleF.
    pose proof (wslot_ext items _ _ _ _ _ l HleF HW) as HW1. rewrite <- El in HW1.
    assert (Hsame : W' (g, n, w) = W (g, n, w) -> P' g n w = P g n w -> length (if p3_eqb t (g, n, w) then gs else []) = O ->
      wslot items (existsb (p3_eqb (g, n, w)) pend && Nat.eqb (length (if p3_eqb t (g, n, w) then gs else [])) 0)
            (P' g n w) (F' g w) (W' (g, n, w)) (joined (lives (g, n, w)))).
    { intros -> -> ->. cbn [Nat.eqb]. rewrite andb_true_r. exact HW1. }
    destruct (p3_eqb t (g, n, w)) eqn:Et.
    - apply p3_eqb_spec in Et. subst t. destruct gs as [|[c k] [|]]; [|clear Hsame|contradiction].
      + cbn [length] in Hg2. apply Hsame; [exact Ht|lia|reflexivity].
      + cbn [length] in *. destruct Ht as [Hrest ->]. cbn [Nat.eqb]. rewrite andb_false_r.
        assert (E : P' g n w = S (P g n w)) by lia. rewrite E in *.
        replace (S (P g n w) - P g n w)%nat with 1%nat in Hg1 by lia.
        assert (Hn : nth_error (F' g w) (P g n w) = Some (c, k)).
        { destruct (skipn (P g n w) (F' g w)) as [|y r] eqn:Es; [discriminate|]. cbn in Hg1. injection Hg1 as ->.
          rewrite <- (firstn_skipn (P g n w) (F' g w)), Es, nth_error_app2, firstn_length_le.
          - rewrite Nat.sub_diag. reflexivity.
          - rewrite El, app_length. lia.
          - rewrite firstn_length. lia. }
        eapply wslot_fetch; eauto.
    - cbn [length] in Hg2. apply Hsame; [|lia|reflexivity]. apply Hoth. intros <-. rewrite (proj2 (p3_eqb_spec _ _) eq_refl) in Et. discriminate.
  Qed.

  (** A step of one worker that does not involve the distributor. *)
  Lemma tinv_local s W lives reports t x :
    tinv s W lives reports ->
    (forall pend P F a, wslot items pend P F (W t) a -> wslot items pend P F x a) ->
    tinv s (wupd W t x) lives reports.
  Proof.
    intros (m0 & B & pend & D & P & F & m & HL & HW) Hx. exists m0, B, pend, D, P, F, m. split; [exact HL|].
    intros g n w Hv. destruct (HW g n w Hv) as [HW0 Hch]. split; [|exact Hch].
    unfold wupd. destruct (p3_eqb t (g, n, w)) eqn:Et; [|auto].
    apply p3_eqb_spec in Et. subst t. auto.
  Qed.

  Lemma statuses_length W g n : Z.of_nat (length (statuses (X := X) W nw g n)) = Z.max 0 nw.
  Proof. unfold statuses. rewrite map_length. unfold zrange. rewrite map_length, seq_length. lia. Qed.
  Lemma statuses_nth (W : p3 -> worker X) g n w x : 0 <= w -> nth_error (statuses W nw g n) (Z.to_nat w) = Some x ->
    x = t_status (W (g, n, w)).
  Proof.
    intros Hw H. unfold statuses in H. rewrite nth_error_map in H. unfold zrange in H. rewrite nth_error_map in H.
    destruct (nth_error (seq 0 (Z.to_nat (nw - 0))) (Z.to_nat w)) as [i|] eqn:E; [|discriminate].
    assert (i = Z.to_nat w).
    { assert (Hl : (Z.to_nat w < Z.to_nat (nw - 0))%nat) by (rewrite <- (seq_length (Z.to_nat (nw - 0)) 0); apply nth_error_Some; congruence).
      apply nth_error_nth with (d := O) in E. rewrite seq_nth in E by exact Hl. lia. }
    subst i. cbn [option_map] in H. injection H as <-. do 3 f_equal. lia.
  Qed.

  Lemma training_inv s W lives reports :
    training src items dp nodes nw0 cached s W lives reports -> tinv s W lives reports.
  Proof.
    induction 1 as [s Hi|s W lives reports o s' W' es _ IH Hs Hval
                   |s W lives reports g n srv qd s1 id j v k s2 _ IH Hset Hg Hn Hck Hadj Hkd Hqr Hfc].
    - exists 0. do 6 eexists. split; [eapply linv_start; exact Hi|]. intros g n w Hv. cbn. split; [|exact I].
      constructor; cbn; try discriminate; try lia.
      + intros _. split; [reflexivity|]. split; [intros [|] ?; discriminate|]. split; [auto|lia].
      + intros [|i]; discriminate.
    - destruct o as [g n w|g n w|g n w|g n srv qd]; cbn [tstep] in Hs.
      + destruct (t_rest (W (g, n, w))) as [|y r] eqn:Er.
        2:{ injection Hs as <- <- <-. exact IH. }
        destruct (next_chunk_for src g n w true s) as [s1 o] eqn:En. injection Hs as <- <- <-. cbn [map fst snd].
        assert (Hd : drun src s [Req g n w true] = (s1, [EReq o])) by (cbn; rewrite En; reflexivity).
        assert (Hsym : forall g' n' w', p3_eqb (g, n, w) (g', n', w') = (g' =? g) && (n' =? n) && (w' =? w)).
        { intros. unfold p3_eqb, p2_eqb. cbn [fst snd]. rewrite (Z.eqb_sym g g'), (Z.eqb_sym n n'), (Z.eqb_sym w w'). reflexivity. }
        eapply tinv_request with (t := (g, n, w)) (gs := match o with DChunk _ c k => [(c, k)] | _ => [] end);
          [exact IH|exact Hd|exact I|discriminate| | |].
        * intros g' n' w'. cbn [got_skip]. rewrite Hsym. destruct o; [|destruct (_ && _); reflexivity..].
          destruct (_ && _); reflexivity.
        * intros t' Hne. destruct o; try reflexivity. unfold wupd. destruct (p3_eqb (g, n, w) t') eqn:E; [|reflexivity].
          apply p3_eqb_spec in E. congruence.
        * destruct o as [ser c k| |]; try reflexivity. split; [exact Er|]. unfold wupd.
          rewrite (proj2 (p3_eqb_spec _ _) eq_refl). reflexivity.
      + destruct (t_rest (W (g, n, w))) as [|[i y] r] eqn:Er.
        { injection Hs as <- <- <-. exact IH. }
        injection Hs as <- <- <-. cbn [map round]. apply tinv_local; [exact IH|]. intros pend P F a Hw. eapply wslot_yield; eauto.
      + injection Hs as <- <- <-. cbn [map round]. apply tinv_local; [exact IH|]. intros pend P F a Hw. apply wslot_take, Hw.
      + destruct (checkpoint g n _ srv qd s) as [[s1 r] j] eqn:Ec. injection Hs as <- <- <-. cbn [map fst snd].
        eapply tinv_request with (t := (0, 0, 0)) (gs := []); [exact IH| |exact (Hval _ _ _ _ eq_refl)|discriminate| | |].
        * cbn. rewrite Ec. reflexivity.
        * intros g' n' w'. cbn. destruct (p3_eqb _ _); reflexivity.
        * reflexivity.
        * reflexivity.
    - destruct IH as (m0 & B & pend & D & P & F & m & HL & HW). destruct Hset as [Hrep Hset]. fold nw in Hrep, Hset, Hck.
      assert (pend = []) as ->.
      { destruct pend as [|[[g' n'] w'] pend]; [reflexivity|]. exfalso.
        pose proof (proj2 (l_pend _ _ _ _ _ _ _ _ _ _ _ _ _ HL) _ _ _ (or_introl eq_refl)) as Hv.
        destruct (HW _ _ _ Hv) as [HW0 _]. clear HW. rename HW0 into HW. cbn [existsb] in HW. rewrite (proj2 (p3_eqb_spec _ _) eq_refl) in HW. cbn [orb] in HW.
        destruct (w_pend _ _ _ _ _ _ HW eq_refl) as (H1 & H2 & H3 & H4 & c & i & H5 & H6 & H7).
        destruct (Hset _ _ _ Hv) as (_ & [[_ Hj]|Hd] & _); [|lia]. rewrite Hj in H7. symmetry in H7.
        apply app_eq_nil in H7 as [_ H7]. destruct (items c); [cbn in H6; lia|discriminate]. }
      assert (Hcov : forall x st', In (x, st') (reports ++ [((g, n), statuses W nw g n)]) -> nw <= Z.of_nat (length st')).
      { intros [g' n'] st' Hin. apply in_app_or in Hin as [Hin|[Hin|[]]].
        - rewrite (Hrep _ _ _ Hin), statuses_length. lia.
        - injection Hin as <- <- <-. rewrite statuses_length. lia. }
      pose proof (l_ck _ _ _ _ _ _ _ _ _ _ _ _ _ HL) as Hk.
      destruct (restore_gen src _ _ _ _ _ _ _ _ _ _ _ _ _ _ _ _ _ _ _ HL Hg Hn Hck Hcov) as (v' & Hadj' & _ & _ & _ & _ & Hrest).
      assert (v' = v) by congruence. subst v'.
      destruct (Hrest k Hkd Hqr) as (s2' & B2 & P2 & F2 & m2 & lastc & Hfc' & _ & HL2 & _ & Hlast).
      assert (s2' = s2) by congruence. subst s2'.
      exists m2, B2, (had_chunk dp nodes nw D), D, P2, F2, m2. split; [exact HL2|]. intros g' n' w' Hv.
      destruct (Hlast _ _ _ Hv) as (x & Hx & Hlc & HP2 & HF2 & HlF). rewrite HP2, joined_snoc.
      destruct (HW _ _ _ Hv) as [HW0 Hch]. clear HW. rename HW0 into HW. cbn [existsb] in HW.
      split; [|apply chained_snoc; split; [exact Hch|eapply took_follows; exact HW]]. destruct (Hset _ _ _ Hv) as (Hseen & Hmode & Hstat).
      assert (ED : D g' n' w' = map fst (F g' w')).
      { pose proof (l_D _ _ _ _ _ _ _ _ _ _ _ _ _ HL _ _ _ Hv) as HD. cbn [existsb] in HD. destruct HD as [-> _].
        rewrite <- HlF, firstn_all. reflexivity. }
      assert (Epend : existsb (p3_eqb (g', n', w')) (had_chunk dp nodes nw D) = negb (Nat.eqb (P g' n' w') 0)).
      { apply Bool.eq_iff_eq_true. rewrite in_had_chunk, negb_true_iff, Nat.eqb_neq, ED, <- HlF.
        destruct (F g' w'); cbn; intuition congruence. }
      rewrite Epend.
      assert (Hxs : x = t_status (W (g', n', w'))).
      { destruct Hx as [(n0 & st0 & Hin & Hnth) _].
        assert (Hvn : 0 <= n0 < nodes /\ st0 = statuses W nw g' n0).
        { apply in_app_or in Hin as [Hin|[Hin|[]]].
          - split; [|apply (Hrep _ _ _ Hin)]. apply (k_valid _ _ _ _ _ _ Hk g' n0). apply (in_map fst) in Hin. exact Hin.
          - injection Hin as <- <- <-. split; [exact Hn|reflexivity]. }
        destruct Hvn as [Hn0 ->]. apply statuses_nth in Hnth; [|destruct Hv as (_ & _ & ?); lia]. rewrite Hnth. apply Hstat, Hn0. }
      destruct (Nat.eq_dec (P g' n' w') 0) as [E0|E0].
      { assert (Hx' : forall c2 k2, P g' n' w' <> O -> nth_error (F2 g' w') (pred (P g' n' w')) = Some (c2, k2) /\ k2 = t_status (W (g', n', w'))) by congruence.
        destruct (t_chunks (W (g', n', w'))) eqn:Ec.
        - destruct Hmode as [[_ Hj]|Hd].
          + pose proof (w_run _ _ _ _ _ _ HW eq_refl) as (_ & _ & H3 & _). destruct (H3 Ec) as (_ & H4 & H5 & H6).
            rewrite Hj. unfold took. rewrite H5, firstn_nil. cbn [continue_with]. rewrite E0. cbn [Nat.eqb negb pred].
            assert (EF : F2 g' w' = []). { destruct (F2 g' w'); [reflexivity|]. assert (length (map fst (F g' w')) = O) by (rewrite map_length; lia). rewrite <- HF2 in H. discriminate. }
            rewrite EF. constructor; cbn; try discriminate; try lia; [|intros [|]; discriminate].
            intros _. split; [reflexivity|]. split; [intros [|] ?; discriminate|]. split; [auto|lia].
          + pose proof (w_run _ _ _ _ _ _ HW eq_refl) as (_ & _ & H3 & _). destruct (H3 Ec) as (_ & H4 & _). lia.
        - pose proof (w_run _ _ _ _ _ _ HW eq_refl) as (_ & _ & _ & H4). destruct (H4 ltac:(lia)) as [H _]. lia. }
      assert (Hne : D g' n' w' <> []). { rewrite ED. intros E. rewrite <- HlF in E0. destruct (F g' w'); [cbn in E0; congruence|discriminate]. }
      destruct (Hlc Hne) as [_ [c2 Hc2]]. rewrite HP2 in Hc2.
      apply (wslot_restart items _ _ _ _ _ c2 x HW HlF HF2 Hseen Hmode). intros _. split; [exact Hc2|exact Hxs].
  Qed.
End Proofs.
