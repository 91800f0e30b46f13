(** What a checkpoint holds, and how a restored distributor behaves. *)
From Verif Require Import Base MixtureKeyModel UtilsModel ChunkGenModel DistributorModel SpecDistributor DistributorProofs
  DistributorProofs2 DistributorProofs3 DistributorProofs4 DistributorProofs5.
From Coq Require Import ZifyBool ZifyNat.
Open Scope Z_scope.

Lemma akeys_aset_old {K V} (eqb : K -> K -> bool) (k : K) (v : V) l : aget eqb k l <> None -> map fst (aset eqb k v l) = map fst l.
Proof. intros H. rewrite akeys_aset. unfold amem. destruct (aget eqb k l); [reflexivity|contradiction]. Qed.

Lemma aget_none_keys {K V W} (eqb : K -> K -> bool) (spec : forall a b, eqb a b = true <-> a = b) k (l : list (K * V)) (l' : list (K * W)) :
  map fst l = map fst l' -> (aget eqb k l = None <-> aget eqb k l' = None).
Proof. intros E. rewrite !(aget_none _ spec), E. tauto. Qed.

Section Adjust.
  Context {C : Type}.
  Variables (dp nodes nw : Z) (B : Z -> Z -> nat).
  Variables (v0 : saved C) (P : posf) (F : streams (C := C)) (p : Z -> Z -> nat) (ids : list (p2 * Z)).
  Hypothesis Hv0 : v_nw v0 = nw /\ v_dp v0 = dp /\ v_nodes v0 = nodes.
  Hypothesis Hcore : core dp nodes nw B (v_cache v0) (v_usage v0) (v_next v0) P F.
  Hypothesis Hreach : reach dp nodes nw P F.
  Hypothesis Hp : forall g n w, valid_slot dp nodes nw g n w -> P g n w = p g w.
  Hypothesis HB : forall g w, valid_slot dp nodes nw g 0 w -> (p g w <> 0)%nat -> (B g w < p g w)%nat.
  Hypothesis Hids : forall g w, 0 <= g < dp -> 0 <= w < nw -> p g w <> O -> aget p2_eqb (g, w) ids <> None.
  Hypothesis Hnodes : 1 <= nodes.

  Definition kf (g w : Z) : Z := match aget p2_eqb (g, w) ids with Some k => k | None => 0 end.
  Definition touched (ts : list p3) (g w : Z) : bool := existsb (fun t => (fst (fst t) =? g) && (snd t =? w)) ts.

  Record adj (ts : list p3) (v : saved C) : Prop := {
    a_par : v_dp v = dp /\ v_nw v = nw /\ v_nodes v = nodes /\ v_ctr v = v_ctr v0 /\ v_calls v = v_calls v0;
    a_kn : map fst (v_next v) = map fst (v_next v0); a_kc : map fst (v_cache v) = map fst (v_cache v0);
    a_ku : map fst (v_usage v) = map fst (v_usage v0);
    a_next : forall t x, aget p3_eqb t (v_next v0) = Some x ->
       aget p3_eqb t (v_next v) = Some (if existsb (p3_eqb t) ts && (0 <=? x - nw) then x - nw else x);
    a_cache : forall g w i c k, 0 <= g < dp -> 0 <= w < nw -> aget p2_eqb (g, w + nw * Z.of_nat i) (v_cache v0) = Some (c, k) ->
       aget p2_eqb (g, w + nw * Z.of_nat i) (v_cache v)
       = Some (c, if touched ts g w && Nat.eqb (p g w) (S i) then kf g w else k);
    a_usage : forall g w i u, 0 <= g < dp -> 0 <= w < nw -> aget p2_eqb (g, w + nw * Z.of_nat i) (v_usage v0) = Some u ->
       aget p2_eqb (g, w + nw * Z.of_nat i) (v_usage v) = Some (if touched ts g w && Nat.eqb (p g w) (S i) then 0 else u)
  }.

  Lemma adj_init : adj [] v0.
  Proof. destruct Hv0 as (E1 & E2 & E3). constructor; auto. Qed.

  Lemma flen g w : 0 <= g < dp -> 0 <= w < nw -> length (F g w) = p g w.
  Proof.
    intros Hg Hw. assert (Hv : valid_slot dp nodes nw g 0 w) by (repeat split; lia).
    pose proof (c_le _ _ _ _ _ _ _ _ _ Hcore _ _ _ Hv) as Hle. rewrite (Hp _ _ _ Hv) in Hle.
    destruct (Nat.eq_dec (length (F g w)) (p g w)) as [E|E]; [exact E|].
    destruct (Hreach g w (p g w) ltac:(lia)) as (n & Hv' & Hl). rewrite (Hp _ _ _ Hv') in Hl. lia.
  Qed.

  Lemma adj_step ts v g n w : adj ts v -> valid_slot dp nodes nw g n w -> ~ In (g, n, w) ts ->
    exists v', adjust_slot ids v (g, n, w) = Ok v' /\ adj (ts ++ [(g, n, w)]) v'.
  Proof.
    intros Ha Hv Hni. pose proof Ha as [Hpar Hkn Hkc Hku Hn Hc Hu].
    pose proof (c_next _ _ _ _ _ _ _ _ _ Hcore _ _ _ Hv) as E0. pose proof (Hn _ _ E0) as E1.
    pose proof Hv as (Hg & Hnn & Hw).
    assert (Hex : existsb (p3_eqb (g, n, w)) ts = false).
    { destruct (existsb _ _) eqn:E; [apply existsb_p3 in E; contradiction|reflexivity]. }
    rewrite Hex in E1. cbn [andb] in E1. rewrite (Hp _ _ _ Hv) in E0, E1.
    assert (Hexs : forall t, existsb (p3_eqb t) (ts ++ [(g, n, w)]) = existsb (p3_eqb t) ts || p3_eqb t (g, n, w)).
    { intros t. rewrite existsb_app. cbn. rewrite orb_false_r. reflexivity. }
    assert (Hts : forall g' w', touched (ts ++ [(g, n, w)]) g' w' = touched ts g' w' || ((g =? g') && (w =? w'))).
    { intros g' w'. unfold touched. rewrite existsb_app. cbn. rewrite orb_false_r. reflexivity. }
    unfold adjust_slot. rewrite E1. destruct Hpar as (P1 & P2 & P3 & P4 & P5). rewrite P2.
    pose proof (c_nw _ _ _ _ _ _ _ _ _ Hcore) as Hnw.
    destruct (p g w) as [|i0] eqn:Ep.
    - replace (w + nw * Z.of_nat 0 - nw <? 0) with true by lia. exists v. split; [reflexivity|].
      constructor; auto.
      + intros t x Ht. rewrite (Hn _ _ Ht), Hexs. destruct (p3_eqb t (g, n, w)) eqn:Et; [|rewrite orb_false_r; reflexivity].
        apply p3_eqb_spec in Et. subst t. rewrite E0 in Ht. injection Ht as <-. rewrite Hex. cbn [orb andb].
        replace (0 <=? w + nw * Z.of_nat 0 - nw) with false by lia. reflexivity.
      + intros g' w' i c k Hg' Hw' H. rewrite (Hc _ _ _ _ _ Hg' Hw' H), Hts.
        destruct (Z.eqb_spec g g') as [<-|]; [|rewrite orb_false_r; reflexivity].
        destruct (Z.eqb_spec w w') as [<-|]; [|rewrite orb_false_r; reflexivity]. rewrite Ep. cbn. rewrite !andb_false_r. reflexivity.
      + intros g' w' i u Hg' Hw' H. rewrite (Hu _ _ _ _ Hg' Hw' H), Hts.
        destruct (Z.eqb_spec g g') as [<-|]; [|rewrite orb_false_r; reflexivity].
        destruct (Z.eqb_spec w w') as [<-|]; [|rewrite orb_false_r; reflexivity]. rewrite Ep. cbn. rewrite !andb_false_r. reflexivity.
    - replace (w + nw * Z.of_nat (S i0) - nw) with (w + nw * Z.of_nat i0) by lia.
      replace (w + nw * Z.of_nat i0 <? 0) with false by nia.
      assert (Hcached : aget p2_eqb (g, w + nw * Z.of_nat i0) (v_cache v0) <> None).
      { assert (Hb : (p g w <> 0)%nat) by lia. pose proof (HB g w ltac:(repeat split; lia) Hb). pose proof (flen g w Hg Hw).
        apply (c_avail _ _ _ _ _ _ _ _ _ Hcore g n w i0 Hv); [rewrite (Hp _ _ _ Hv)|]; lia. }
      destruct (aget p2_eqb (g, w + nw * Z.of_nat i0) (v_cache v0)) as [[c k]|] eqn:Ec; [clear Hcached|contradiction].
      rewrite (Hc _ _ _ _ _ Hg Hw Ec).
      assert (Hk : aget p2_eqb (g, w) ids = Some (kf g w)).
      { unfold kf. specialize (Hids g w Hg Hw). destruct (aget p2_eqb (g, w) ids); [reflexivity|]. exfalso. apply Hids; lia || reflexivity. }
      rewrite Hk. eexists. split; [reflexivity|].
      assert (Huc : aget p2_eqb (g, w + nw * Z.of_nat i0) (v_usage v0) <> None).
      { intros H. apply (c_udom _ _ _ _ _ _ _ _ _ Hcore) in H. congruence. }
      constructor; cbn [v_next v_cache v_usage v_dp v_nw v_nodes v_ctr v_calls]; auto.
      + rewrite akeys_aset_old; [exact Hkn|]. rewrite E1. discriminate.
      + rewrite akeys_aset_old; [exact Hkc|]. rewrite (Hc _ _ _ _ _ Hg Hw Ec). discriminate.
      + rewrite akeys_aset_old; [exact Hku|]. rewrite (aget_none_keys _ p2_eqb_spec _ _ _ Hku). exact Huc.
      + intros t x Ht. rewrite (aget_aset _ p3_eqb_spec), Hexs. destruct (p3_eqb (g, n, w) t) eqn:Et.
        * apply p3_eqb_spec in Et. subst t. rewrite E0 in Ht. injection Ht as <-.
          rewrite (eqb_refl_ _ p3_eqb_spec), orb_true_r. cbn [andb].
          replace (0 <=? w + nw * Z.of_nat (S i0) - nw) with true by nia. f_equal. lia.
        * replace (p3_eqb t (g, n, w)) with false; [rewrite orb_false_r; apply Hn, Ht|].
          destruct (p3_eqb t (g, n, w)) eqn:E; [|reflexivity]. apply p3_eqb_spec in E. subst t.
          rewrite (eqb_refl_ _ p3_eqb_spec) in Et. discriminate.
      + intros g' w' i c' k' Hg' Hw' H. rewrite (aget_aset _ p2_eqb_spec). destruct (p2_eqb _ _) eqn:Eq.
        * apply p2_eqb_spec in Eq. injection Eq as <- Eq. destruct (slot_inj nw w w' i0 i Hw Hw' Eq) as [<- <-].
          rewrite Ec in H. injection H as <- <-. rewrite Hts, !Z.eqb_refl, orb_true_r, Ep, Nat.eqb_refl. reflexivity.
        * rewrite (Hc _ _ _ _ _ Hg' Hw' H), Hts. destruct (Z.eqb_spec g g') as [<-|]; [|rewrite orb_false_r; reflexivity].
          destruct (Z.eqb_spec w w') as [<-|]; [|rewrite orb_false_r; reflexivity]. rewrite Ep.
          destruct (Nat.eqb_spec (S i0) (S i)) as [[= ->]|]; [rewrite (eqb_refl_ _ p2_eqb_spec) in Eq; discriminate|].
          rewrite !andb_false_r. reflexivity.
      + intros g' w' i u Hg' Hw' H. rewrite (aget_aset _ p2_eqb_spec). destruct (p2_eqb _ _) eqn:Eq.
        * apply p2_eqb_spec in Eq. injection Eq as <- Eq. destruct (slot_inj nw w w' i0 i Hw Hw' Eq) as [<- <-].
          rewrite Hts, !Z.eqb_refl, orb_true_r, Ep, Nat.eqb_refl. reflexivity.
        * rewrite (Hu _ _ _ _ Hg' Hw' H), Hts. destruct (Z.eqb_spec g g') as [<-|]; [|rewrite orb_false_r; reflexivity].
          destruct (Z.eqb_spec w w') as [<-|]; [|rewrite orb_false_r; reflexivity]. rewrite Ep.
          destruct (Nat.eqb_spec (S i0) (S i)) as [[= ->]|]; [rewrite (eqb_refl_ _ p2_eqb_spec) in Eq; discriminate|].
          rewrite !andb_false_r. reflexivity.
  Qed.

  Lemma adj_run us : forall ts v, adj ts v -> NoDup (ts ++ us) -> (forall t, In t us -> match t with (g, n, w) => valid_slot dp nodes nw g n w end) ->
    exists v', adjust ids v us = Ok v' /\ adj (ts ++ us) v'.
  Proof.
    induction us as [|[[g n] w] us IH]; intros ts v Ha Hnd Hval.
    - exists v. rewrite app_nil_r. auto.
    - assert (Hni : ~ In (g, n, w) ts).
      { apply NoDup_app_iff in Hnd as (_ & _ & H). intros Hin. apply (H _ Hin). left. reflexivity. }
      destruct (adj_step ts v g n w Ha (Hval _ (or_introl eq_refl)) Hni) as (v1 & E & Ha1).
      cbn [adjust]. rewrite E. destruct (IH (ts ++ [(g, n, w)]) v1 Ha1) as (v2 & E2 & Ha2).
      + rewrite <- app_assoc. exact Hnd.
      + intros t Ht. apply Hval. right. exact Ht.
      + exists v2. split; [exact E2|]. rewrite <- app_assoc in Ha2. exact Ha2.
  Qed.

  (** The streams with the reported indices as samples to skip. *)
  Definition restreams : streams (C := C) := fun g w =>
    firstn (pred (p g w)) (F g w) ++ map (fun ck => (fst ck, kf g w)) (skipn (pred (p g w)) (F g w)).

  Lemma restreams_fst g w : map fst (restreams g w) = map fst (F g w).
  Proof.
    unfold restreams. rewrite map_app, map_map. cbn. rewrite <- (firstn_skipn (pred (p g w)) (F g w)) at 3. rewrite map_app. reflexivity.
  Qed.
  Lemma restreams_len g w : length (restreams g w) = length (F g w).
  Proof. rewrite <- (map_length fst), restreams_fst, map_length. reflexivity. Qed.
  Lemma restreams_last g w c k : 0 <= g < dp -> 0 <= w < nw -> nth_error (F g w) (pred (p g w)) = Some (c, k) ->
    nth_error (restreams g w) (pred (p g w)) = Some (c, kf g w).
  Proof.
    intros Hg Hw H. unfold restreams. assert (Hl : (pred (p g w) < length (F g w))%nat) by (apply nth_error_Some; congruence).
    rewrite nth_error_app2; rewrite firstn_length, Nat.min_l by lia; [|lia]. rewrite Nat.sub_diag, nth_error_map.
    rewrite (skipn_nth _ _ _ H). reflexivity.
  Qed.
  Lemma restreams_before g w i : 0 <= g < dp -> 0 <= w < nw -> (i < pred (p g w))%nat -> nth_error (restreams g w) i = nth_error (F g w) i.
  Proof.
    intros Hg Hw Hi. unfold restreams. pose proof (flen g w Hg Hw).
    rewrite nth_error_app1; [|rewrite firstn_length; lia]. apply nth_firstn_lt, Hi.
  Qed.

  Lemma adjusted_core v : adj (all_slots dp nodes nw) v ->
    core dp nodes nw (fun g w => pred (p g w)) (v_cache v) (v_usage v) (v_next v) (fun g n w => pred (P g n w)) restreams.
  Proof.
    intros [Hpar Hkn Hkc Hku Hn Hc Hu]. pose proof (c_nw _ _ _ _ _ _ _ _ _ Hcore) as Hnw.
    assert (Htouch : forall g w, 0 <= g < dp -> 0 <= w < nw -> touched (all_slots dp nodes nw) g w = true).
    { intros g w Hg Hw. unfold touched. apply existsb_exists. exists (g, 0, w). split; [apply in_all_slots; repeat split; lia|].
      cbn. rewrite !Z.eqb_refl. reflexivity. }
    assert (Hcell : forall g id ck, aget p2_eqb (g, id) (v_cache v0) = Some ck ->
              exists w, 0 <= g < dp /\ 0 <= w < nw /\ (p g w <> 0)%nat /\ id = w + nw * Z.of_nat (pred (p g w))
                        /\ nth_error (F g w) (pred (p g w)) = Some ck).
    { intros g id ck H. destruct (c_some _ _ _ _ _ _ _ _ _ Hcore _ _ _ H) as (w & i & Hg & Hw & Hid & Hnth & Hnall).
      assert (Hl : (i < length (F g w))%nat) by (apply nth_error_Some; congruence). rewrite (flen g w Hg Hw) in Hl.
      assert (Hi : i = pred (p g w)).
      { destruct (Nat.eq_dec i (pred (p g w))) as [E|E]; [exact E|]. exfalso. apply Hnall. intros n Hnn.
        rewrite (Hp g n w) by (repeat split; lia). lia. }
      exists w. rewrite <- Hi. split; [exact Hg|]. split; [exact Hw|]. split; [lia|]. auto. }
    constructor.
    - exact Hnw.
    - intros g n w Hv. pose proof (c_next _ _ _ _ _ _ _ _ _ Hcore _ _ _ Hv) as E. rewrite (Hn _ _ E).
      rewrite (proj2 (existsb_p3 _ _)) by (apply in_all_slots, Hv). cbn [andb]. destruct Hv as (Hg & Hnn & Hw). f_equal.
      destruct (P g n w) as [|i]; cbn [pred].
      + replace (0 <=? w + nw * Z.of_nat 0 - nw) with false by lia. lia.
      + replace (0 <=? w + nw * Z.of_nat (S i) - nw) with true by nia. lia.
    - intros g n w x H. destruct (aget p3_eqb (g, n, w) (v_next v0)) as [y|] eqn:E.
      + eapply (c_out _ _ _ _ _ _ _ _ _ Hcore); eauto.
      + apply (aget_none_keys _ p3_eqb_spec _ _ _ Hkn) in E. congruence.
    - intros g n w Hv. rewrite restreams_len. pose proof (c_le _ _ _ _ _ _ _ _ _ Hcore _ _ _ Hv). lia.
    - rewrite Hkn. apply (c_ndn _ _ _ _ _ _ _ _ _ Hcore).
    - rewrite Hkc. apply (c_ndc _ _ _ _ _ _ _ _ _ Hcore).
    - rewrite Hku. apply (c_ndu _ _ _ _ _ _ _ _ _ Hcore).
    - intros g id ck H. destruct (aget p2_eqb (g, id) (v_cache v0)) as [ck0|] eqn:E.
      2:{ apply (aget_none_keys _ p2_eqb_spec _ _ _ Hkc) in E. congruence. }
      destruct (Hcell _ _ _ E) as (w & Hg & Hw & Hpne & -> & Hnth). destruct ck0 as [c k].
      rewrite (Hc _ _ _ _ _ Hg Hw E), (Htouch _ _ Hg Hw) in H.
      replace (Nat.eqb (p g w) (S (pred (p g w)))) with true in H by (symmetry; apply Nat.eqb_eq; lia). cbn [andb] in H.
      injection H as <-. exists w, (pred (p g w)). split; [exact Hg|]. split; [exact Hw|]. split; [reflexivity|]. split.
      + eapply restreams_last; eauto.
      + intros H. specialize (H 0 ltac:(lia)). rewrite (Hp g 0 w) in H by (repeat split; lia). lia.
    - intros g n w Hv. rewrite (Hp _ _ _ Hv). lia.
    - intros g n w i Hv H1 H2. rewrite restreams_len in H2. destruct Hv as (Hg & Hnn & Hw). rewrite (flen g w Hg Hw) in H2.
      assert (Hi : i = pred (p g w)) by lia. subst i.
      rewrite (aget_none_keys _ p2_eqb_spec _ _ _ Hkc).
      assert (Hb : (p g w <> 0)%nat) by lia. pose proof (HB g w ltac:(repeat split; lia) Hb). pose proof (flen g w Hg Hw).
      assert (Hv0' : valid_slot dp nodes nw g n w) by (repeat split; lia).
      apply (c_avail _ _ _ _ _ _ _ _ _ Hcore g n w _ Hv0'); [rewrite (Hp _ _ _ Hv0')|]; lia.
    - intros k. rewrite (aget_none_keys _ p2_eqb_spec _ _ _ Hkc), (aget_none_keys _ p2_eqb_spec _ _ _ Hku).
      apply (c_udom _ _ _ _ _ _ _ _ _ Hcore).
    - intros g w i u Hg Hw H. destruct (aget p2_eqb (g, w + nw * Z.of_nat i) (v_usage v0)) as [u0|] eqn:E.
      2:{ apply (aget_none_keys _ p2_eqb_spec _ _ _ Hku) in E. congruence. }
      destruct (aget p2_eqb (g, w + nw * Z.of_nat i) (v_cache v0)) as [ck|] eqn:Eca.
      2:{ apply (c_udom _ _ _ _ _ _ _ _ _ Hcore) in Eca. congruence. }
      destruct (Hcell _ _ _ Eca) as (w' & _ & Hw' & Hpne & Hid & _). destruct (slot_inj _ _ _ _ _ Hw Hw' Hid) as [<- Hi].
      rewrite (Hu _ _ _ _ Hg Hw E), (Htouch _ _ Hg Hw) in H.
      replace (Nat.eqb (p g w) (S i)) with true in H by (symmetry; apply Nat.eqb_eq; lia). cbn in H. injection H as <-.
      unfold count. replace (filter _ _) with (@nil Z); [reflexivity|]. symmetry.
      apply (incl_l_nil (l := filter _ _)). intros y Hy. apply filter_In in Hy as [Hy Hlt].
      apply in_zrange in Hy. apply Nat.ltb_lt in Hlt. rewrite (Hp g y w) in Hlt by (repeat split; lia). lia.
  Qed.
End Adjust.
