(** Agreement, the directory, and what goes wrong. *)
From Verif Require Import Base MixtureKeyModel UtilsModel ChunkGenModel DistributorModel SpecDistributor DistributorProofs
  DistributorProofs2 DistributorProofs3 DistributorProofs4 DistributorProofs5 DistributorProofs6 DistributorProofs7 DistributorProofs8
  DistributorProofs9.
From Coq Require Import ZifyBool ZifyNat.
Open Scope Z_scope.

Section Disk.
  Context {C : Type}.

  Record dinv (j : job C) (k0 : disk C) (p : pc) (k : disk C) : Prop := {
    di_other : forall id, id <> j_id j -> aget Z.eqb id (k_ck k) = aget Z.eqb id (k_ck k0);
    di_keys : forall id, In id (map fst (k_ck k)) -> id = j_id j \/ In id (map fst (k_ck k0));
    di_qr : k_qr k0 = Full tt -> k_qr k = Full tt;
    di_qr2 : k_qr k = Full tt -> k_qr k0 = Full tt \/ (k_qr k0 = Absent /\ j_copy j = true);
    di_qr3 : match p with
             | PCopy | PCopying | PCheck | PFailed => True
             | _ => k_qr k0 <> Partial -> k_qr k = Full tt
             end;
    di_ent : match p with
             | PCopy => k = k0
             | PCopying => j_copy j = true /\ k_qr k0 = Absent /\ k_ck k = k_ck k0
             | PCheck | PMkdir => (j_copy j = true -> k_qr k = Full tt) /\ (j_copy j = false -> k_qr k = k_qr k0) /\ k_ck k = k_ck k0
             | PState => aget Z.eqb (j_id j) (k_ck k) = Some (Absent, Absent)
             | PStating => aget Z.eqb (j_id j) (k_ck k) = Some (Partial, Absent)
             | PQstate => exists v, adjusted j = Ok v /\ aget Z.eqb (j_id j) (k_ck k) = Some (Full v, Absent)
             | PQstating => exists v, adjusted j = Ok v /\ aget Z.eqb (j_id j) (k_ck k) = Some (Full v, Partial)
             | PDone => exists v, adjusted j = Ok v /\ aget Z.eqb (j_id j) (k_ck k) = Some (Full v, Full (v_calls (j_state j)))
             | PFailed => forall v c, aget Z.eqb (j_id j) (k_ck k) <> Some (Full v, Full c)
             end
  }.

  Lemma keys_aset {V} (x : Z) (v : V) l id : In id (map fst (aset Z.eqb x v l)) -> id = x \/ In id (map fst l).
  Proof.
    rewrite akeys_aset. unfold amem. destruct (aget Z.eqb x l); [auto|]. intros H. apply in_app_or in H as [H|[H|[]]]; auto.
  Qed.

  Lemma dinv_step j k0 p k : amem Z.eqb (j_id j) (k_ck k0) = false -> dinv j k0 p k ->
    dinv j k0 (fst (persist_step j p k)) (snd (persist_step j p k)).
  Proof.
    intros Hfr [H1 H2 H3 H4 H6 H5].
    assert (Hfr0 : aget Z.eqb (j_id j) (k_ck k0) = None).
    { unfold amem in Hfr. destruct (aget Z.eqb (j_id j) (k_ck k0)); [discriminate|reflexivity]. }
    assert (Hset : forall x p', (match p' with PState => x = (Absent, Absent) | PStating => x = (Partial, Absent)
                  | PQstate => exists v, adjusted j = Ok v /\ x = (Full v, Absent)
                  | PQstating => exists v, adjusted j = Ok v /\ x = (Full v, Partial)
                  | PDone => exists v, adjusted j = Ok v /\ x = (Full v, Full (v_calls (j_state j))) | _ => False end) ->
              (k_qr k0 <> Partial -> k_qr k = Full tt) ->
              dinv j k0 p' (mkDisk (k_qr k) (aset Z.eqb (j_id j) x (k_ck k)))).
    { intros x p' Hx Hq. constructor; cbn [k_qr k_ck]; [| |exact H3|exact H4|destruct p'; auto|].
      - intros id Hid. rewrite (aget_aset_other _ Z.eqb_eq) by congruence. auto.
      - intros id Hid. apply keys_aset in Hid as [->|Hid]; [auto|]. auto.
      - rewrite (aget_aset_same _ Z.eqb_eq). destruct p'; try contradiction; try (subst x; reflexivity);
          destruct Hx as (v & Ha & ->); eauto. }
    destruct p; cbn [persist_step].
    - subst k. destruct (j_copy j) eqn:Ec; [destruct (k_qr k0) eqn:Eq|]; cbn [fst snd]; constructor; cbn [k_qr k_ck]; auto;
        try congruence; try (intros v c; rewrite Hfr0; discriminate).
      split; [congruence|auto].
    - destruct H5 as (E1 & E2 & E3). constructor; cbn [k_qr k_ck fst snd]; auto. rewrite E1. split; [auto|]. split; [discriminate|exact E3].
    - destruct H5 as (E1 & E2 & E3). destruct (k_qr k) eqn:Eq; constructor; cbn [fst snd]; rewrite ?Eq; auto;
        try (intros v c; rewrite E3, Hfr0; discriminate).
      + intros Hne. destruct (j_copy j); [discriminate (E1 eq_refl)|]. exfalso. apply Hne. symmetry. auto.
      + intros _. destruct a. reflexivity.
    - destruct H5 as (E1 & E2 & E3). destruct (amem Z.eqb (j_id j) (k_ck k)) eqn:Em; cbn [fst snd].
      + constructor; auto. intros v c. rewrite E3, Hfr0. discriminate.
      + apply Hset; [reflexivity|exact H6].
    - destruct (adjusted j) as [v|e] eqn:Ea; cbn [fst snd].
      + apply Hset; [reflexivity|exact H6].
      + constructor; auto. intros v c. rewrite H5. discriminate.
    - destruct (adjusted j) as [v|e] eqn:Ea; cbn [fst snd].
      + apply Hset; [exists v; split; [exact Ea || reflexivity|reflexivity]|exact H6].
      + constructor; auto. intros v c. rewrite H5. discriminate.
    - destruct H5 as (v & Ha & Hv). rewrite Hv. apply Hset; [exists v; auto|exact H6].
    - destruct H5 as (v & Ha & Hv). rewrite Hv. apply Hset; [exists v; auto|exact H6].
    - constructor; auto.
    - constructor; auto.
  Qed.

  Lemma dinv_persist (j : job C) k0 i : amem Z.eqb (j_id j) (k_ck k0) = false ->
    dinv j k0 (fst (persist j i k0)) (snd (persist j i k0)).
  Proof.
    intros Hfr. induction i as [|i IH].
    - cbn. constructor; auto.
    - unfold persist in *. cbn [Nat.iter nat_rect]. apply (dinv_step _ _ _ _ Hfr IH).
  Qed.

  Lemma persist_complete (j : job C) k0 v : amem Z.eqb (j_id j) (k_ck k0) = false -> adjusted j = Ok v ->
    k_qr k0 = (if j_copy j then Absent else Full tt) ->
    fst (persist j 8 k0) = PDone /\ k_qr (snd (persist j 8 k0)) = Full tt
    /\ aget Z.eqb (j_id j) (k_ck (snd (persist j 8 k0))) = Some (Full v, Full (v_calls (j_state j))).
  Proof.
    intros Hfr Ha Hq.
    assert (H : fst (persist j 8 k0) = PDone /\ k_qr (snd (persist j 8 k0)) = Full tt).
    { unfold persist. cbn [Nat.iter nat_rect fst snd persist_step].
      destruct (j_copy j) eqn:Ec;
        do 8 (cbn [fst snd persist_step k_qr k_ck]; rewrite ?Hq, ?Hfr, ?Ha, ?(aget_aset_same _ Z.eqb_eq)); auto. }
    split; [apply H|]. split; [apply H|]. destruct (dinv_persist j k0 8 Hfr) as [_ _ _ _ _ He]. rewrite (proj1 H) in He.
    destruct He as (v' & Ha' & ->). congruence.
  Qed.

  (** A killed process leaves either a checkpoint that is refused or the complete one; the older ones stay as they are. *)
  Lemma crash_safe (j : job C) k0 i : amem Z.eqb (j_id j) (k_ck k0) = false ->
    (forall s2, from_checkpoint (snd (persist j i k0)) (j_id j) = Ok s2 ->
       exists v, adjusted j = Ok v /\ k_qr (snd (persist j i k0)) = Full tt
         /\ aget Z.eqb (j_id j) (k_ck (snd (persist j i k0))) = Some (Full v, Full (v_calls (j_state j)))) /\
    (forall id s2, id <> j_id j -> from_checkpoint k0 id = Ok s2 ->
       exists ctr, from_checkpoint (snd (persist j i k0)) id = Ok (with_ck s2 [] [] ctr None [])).
  Proof.
    intros Hfr. pose proof (dinv_persist j k0 i Hfr) as [H1 H2 H3 H4 _ H5].
    set (p := fst (persist j i k0)) in *. set (k := snd (persist j i k0)) in *. split.
    - intros s2 Hs. unfold from_checkpoint in Hs.
      assert (Hfr0 : aget Z.eqb (j_id j) (k_ck k0) = None).
      { unfold amem in Hfr. destruct (aget Z.eqb (j_id j) (k_ck k0)); [discriminate|reflexivity]. }
      destruct (aget Z.eqb (j_id j) (k_ck k)) as [[f q]|] eqn:Ee; [|discriminate].
      destruct f as [| |v]; try discriminate. destruct q as [| |calls]; try discriminate.
      destruct (k_qr k) as [| |[]] eqn:Eq; try discriminate.
      destruct p.
      + rewrite H5 in Ee. congruence.
      + destruct H5 as (_ & _ & E). rewrite E in Ee. congruence.
      + destruct H5 as (_ & _ & E). rewrite E in Ee. congruence.
      + destruct H5 as (_ & _ & E). rewrite E in Ee. congruence.
      + congruence.
      + congruence.
      + destruct H5 as (v' & _ & E). congruence.
      + destruct H5 as (v' & _ & E). congruence.
      + destruct H5 as (v' & Ha & E). assert (v' = v) by congruence. subst v'. exists v. split; [exact Ha|]. split; [reflexivity|].
        congruence.
      + exfalso. eapply H5. reflexivity.
    - intros id s2 Hid Hs. unfold from_checkpoint in *. rewrite (H1 id Hid).
      destruct (aget Z.eqb id (k_ck k0)) as [[f q]|]; [|discriminate].
      destruct f as [| |v]; try discriminate. destruct q as [| |calls]; try discriminate.
      destruct (k_qr k0) as [| |[]] eqn:Eq; try discriminate. rewrite (H3 eq_refl).
      destruct (dist_init _ _ _ _ _) as [s0|]; [|discriminate]. injection Hs as <-. eexists. reflexivity.
  Qed.

  Lemma fresh_ids (k : disk C) id s2 : from_checkpoint k id = Ok s2 ->
    forall id', In id' (map fst (k_ck k)) -> id' <= d_ctr s2.
  Proof.
    unfold from_checkpoint. destruct (aget Z.eqb id (k_ck k)) as [[f q]|]; [|discriminate].
    destruct f as [| |v]; try discriminate. destruct q as [| |calls]; try discriminate.
    destruct (k_qr k) as [| |[]]; try discriminate. destruct (dist_init _ _ _ _ _) as [s0|]; [|discriminate].
    intros [= <-] id'. cbn [d_ctr]. induction (map fst (k_ck k)) as [|x l IH]; [intros []|].
    cbn [fold_right]. intros [->|H]; [lia|]. specialize (IH H). lia.
  Qed.
End Disk.

Section Agreement.
  Context {C : Type}.
  Variable src : nat -> qout C.

  Lemma life_step dp nodes nw cached s pend rep D g n st srv qd s' r j :
    life src dp nodes nw cached s pend rep D -> 0 <= g < dp -> 0 <= n < nodes ->
    checkpoint g n st srv qd s = (s', r, j) ->
    exists m acc' m', ck_result dp nodes g n st srv qd s rep m s' r j acc' m'
      /\ d_forked s = false /\ NoDup (map fst rep) /\ (forall a b, In (a, b) (map fst rep) -> 0 <= a < dp /\ 0 <= b < nodes)
      /\ 0 <= m /\ d_ctr s = match rep with [] => m | _ => m + 1 end.
  Proof.
    intros Hl Hg Hn Hc. destruct (life_inv _ _ _ _ _ _ _ _ _ Hl) as (m0 & B & P & F & m & HL).
    destruct HL as [Hdp Hnw Hm0 Hinv Hk Hf _ _ _ _].
    destruct (ck_step dp nodes m0 Hdp _ _ _ _ _ _ _ _ _ _ _ Hk Hg Hn Hc) as (acc' & m' & _ & Hres).
    exists m, acc', m'. split; [exact Hres|]. split; [exact Hf|]. split; [apply (k_nd _ _ _ _ _ _ Hk)|].
    split; [apply (k_valid _ _ _ _ _ _ Hk)|]. pose proof (k_m _ _ _ _ _ _ Hk). split; [lia|]. apply (k_ctr _ _ _ _ _ _ Hk).
  Qed.

  Lemma life_positions dp nodes nw cached s pend rep D : life src dp nodes nw cached s pend rep D ->
    (same_chunk (d_next s) = true <-> forall g a b w, valid_slot dp nodes (eff_workers nw) g a w ->
       valid_slot dp nodes (eff_workers nw) g b w -> position pend D g a w = position pend D g b w).
  Proof.
    intros Hl. destruct (life_inv _ _ _ _ _ _ _ _ _ Hl) as (m0 & B & P & F & m & HL).
    destruct HL as [Hdp Hnw Hm0 Hinv Hk Hf _ HD _ _].
    pose proof (i_core _ _ _ _ _ _ _ _ Hinv) as Hcore. rewrite (same_chunk_spec _ _ _ _ _ _ _ _ _ Hcore).
    assert (HP : forall g n w, valid_slot dp nodes (eff_workers nw) g n w -> position pend D g n w = P g n w).
    { intros g n w Hv. specialize (HD g n w Hv). pose proof (c_le _ _ _ _ _ _ _ _ _ Hcore _ _ _ Hv). unfold position.
      destruct (existsb _ _).
      - destruct HD as (E1 & E2 & ->). rewrite map_length, firstn_length. lia.
      - destruct HD as (-> & _). rewrite map_length, firstn_length. lia. }
    split; intros H g a b w Ha Hb; [rewrite !HP by assumption|rewrite <- !HP by assumption]; apply H; assumption.
  Qed.

  Lemma wedged dp nodes m0 ops : 1 <= dp -> forall (s : dist C) acc m s' es,
    ck_inv dp nodes m0 s acc m -> (forall g n, 0 <= g < dp -> 0 <= n < nodes -> In (g, n) (map fst acc)) ->
    d_forked s = false -> Forall (ck_valid dp nodes) ops -> ~ In Fork ops -> drun src s ops = (s', es) ->
    forall r j, In (ECk r j) es -> j = None /\ exists e, r = CkErr e.
  Proof.
    intros Hdp. induction ops as [|o ops IH]; intros s acc m s' es Hi Hfull Hf Hv Hnf Hr; cbn [drun] in Hr.
    - injection Hr as <- <-. intros ? ? [].
    - destruct (dstep src s o) as [s1 e] eqn:Es. destruct (drun src s1 ops) as [s2 es'] eqn:Er. injection Hr as <- <-.
      inversion Hv as [|? ? Hv1 Hv2]; subst. assert (Hnf' : ~ In Fork ops) by (intros H; apply Hnf; right; exact H).
      destruct o as [g n w d|g n st srv qd|]; cbn [dstep] in Es.
      + destruct (next_chunk_for src g n w d s) as [s1' r] eqn:En. injection Es as -> <-.
        destruct (req_frame _ _ _ _ _ _ _ _ En) as (E1 & E2 & E3 & E4 & E5 & E6 & E7 & E8 & E9 & E10).
        assert (Hi1 : ck_inv dp nodes m0 s1 acc m).
        { destruct Hi. constructor; try congruence; auto. intros id. rewrite E7. auto. }
        intros r' j' [H|H]; [discriminate|]. refine (IH _ _ _ _ _ Hi1 Hfull _ Hv2 Hnf' Er r' j' H). congruence.
      + destruct (checkpoint g n st srv qd s) as [[s1' r] j] eqn:Ec. injection Es as -> <-.
        destruct (checkpoint_frame _ _ _ _ _ _ _ _ _ Ec) as (_ & _ & _ & _ & Efk & _ & _ & _ & _ & _).
        destruct Hv1 as [Hg Hn]. destruct (ck_step dp nodes m0 Hdp _ _ _ _ _ _ _ _ _ _ _ Hi Hg Hn Ec) as (acc' & m' & Hi' & Hres).
        pose proof (Hfull g n Hg Hn) as Hin.
        assert (acc' = acc /\ m' = m /\ j = None /\ exists e, r = CkErr e) as (-> & -> & -> & Hre).
        { destruct Hres; try contradiction; repeat split; eauto. }
        intros r' j' [H|H]; [injection H as <- <-; auto|]. refine (IH _ _ _ _ _ Hi' Hfull _ Hv2 Hnf' Er r' j' H). congruence.
      + exfalso. apply Hnf. left. reflexivity.
  Qed.

  Lemma life_wedged dp nodes nw cached s pend rep D ops s' es :
    life src dp nodes nw cached s pend rep D ->
    (forall g n, 0 <= g < dp -> 0 <= n < nodes -> In (g, n) (map fst rep)) ->
    Forall (ck_valid dp nodes) ops -> ~ In Fork ops -> drun src s ops = (s', es) ->
    forall r j, In (ECk r j) es -> j = None /\ exists e, r = CkErr e.
  Proof.
    intros Hl Hfull Hv Hnf Hr. destruct (life_inv _ _ _ _ _ _ _ _ _ Hl) as (m0 & B & P & F & m & HL).
    eapply wedged; [eapply l_dp|eapply l_ck| |eapply l_fork| | | ]; eauto.
  Qed.

  Lemma life_ids dp nodes nw cached s pend rep D ops s' es :
    life src dp nodes nw cached s pend rep D ->
    Forall (ck_valid dp nodes) ops -> ~ In Fork ops -> drun src s ops = (s', es) ->
    forall i j a b ja jb, nth_error es i = Some (ECk (CkId a) ja) -> nth_error es j = Some (ECk (CkId b) jb) ->
      b - a = started (firstn j es) - started (firstn i es) /\ a > 0.
  Proof.
    intros Hl Hv Hnf Hr i j a b ja jb Ha Hb. destruct (life_inv _ _ _ _ _ _ _ _ _ Hl) as (m0 & B & P & F & m & HL).
    destruct HL as [Hdp Hnw Hm0 Hinv Hk Hf _ HD _ _].
    destruct (ck_run src dp nodes m0 Hdp _ _ _ _ _ _ Hk Hf Hv Hnf Hr) as (_ & _ & _ & _ & Hid).
    rewrite (Hid _ _ _ Ha), (Hid _ _ _ Hb). pose proof (k_m _ _ _ _ _ _ Hk).
    assert (Hst : forall l : list (dev C), 0 <= started l) by (induction l as [|[| ? [|] |] l IH]; cbn [started]; lia).
    specialize (Hst (firstn i es)). lia.
  Qed.

  Lemma agreement dp nodes nw cached s pend rep D g n st srv qd s' r j :
    life src dp nodes nw cached s pend rep D -> 0 <= g < dp -> 0 <= n < nodes ->
    checkpoint g n st srv qd s = (s', r, j) ->
    (In (g, n) (map fst rep) -> s' = s /\ j = None /\ exists e, r = CkErr e) /\
    (~ In (g, n) (map fst rep) -> ~ (dp = 1 /\ nodes = 1 /\ 0 < d_og s /\ srv = false) ->
     let everyone := forall g' n', 0 <= g' < dp -> 0 <= n' < nodes -> (g', n') = (g, n) \/ In (g', n') (map fst rep) in
     let aligned := forall g' a b w, valid_slot dp nodes (eff_workers nw) g' a w -> valid_slot dp nodes (eff_workers nw) g' b w ->
                      position pend D g' a w = position pend D g' b w in
     let no_copy := d_ctr s' = 1 /\ d_cached s = false /\ qd = false in
     (everyone /\ aligned /\ ~ no_copy /\ (exists id jb, r = CkId id /\ j = Some jb /\ j_id jb = id
          /\ forall g' w x, 0 <= w -> aget p2_eqb (g', w) (j_ids jb) = Some x <-> largest_reported (rep ++ [((g, n), st)]) g' w x))
     \/ (everyone /\ (~ aligned \/ no_copy) /\ r = CkErr RuntimeError /\ j = None)
     \/ (~ everyone /\ (exists id, r = CkId id) /\ j = None)).
  Proof.
    intros Hl Hg Hn Hc. pose proof (life_positions _ _ _ _ _ _ _ _ Hl) as Hpos.
    destruct (life_inv _ _ _ _ _ _ _ _ _ Hl) as (m0 & B & P & F & m & HL).
    destruct HL as [Hdp Hnw Hm0 Hinv Hk Hf _ _ _ _].
    destruct (ck_step dp nodes m0 Hdp _ _ _ _ _ _ _ _ _ _ _ Hk Hg Hn Hc) as (acc' & m' & Hk' & Hres).
    pose proof (k_m _ _ _ _ _ _ Hk) as Hm.
    assert (Hev : ~ In (g, n) (map fst rep) -> ((forall g' n', 0 <= g' < dp -> 0 <= n' < nodes -> (g', n') = (g, n) \/ In (g', n') (map fst rep))
                  <-> Z.of_nat (length rep) + 1 = dp * nodes)).
    { intros Hni. destruct (covers dp nodes ((g, n) :: map fst rep)) as [_ H]; [lia|lia| | |].
      - constructor; [exact Hni|apply (k_nd _ _ _ _ _ _ Hk)].
      - intros a b [[= <- <-]|H]; [auto|apply (k_valid _ _ _ _ _ _ Hk), H].
      - cbn [length] in H. rewrite map_length in H. replace (Z.of_nat (S (length rep))) with (Z.of_nat (length rep) + 1) in H by lia.
        rewrite H. split; intros H' a b Ha Hb; destruct (H' a b Ha Hb) as [E|E]; cbn; auto. }
    split.
    - intros Hin. destruct Hres; try contradiction; repeat split; eauto.
    - intros Hni Hsup. cbv zeta. specialize (Hev Hni). destruct Hres as [| | |s' _ Hlt|s' _ Heq Hbad|s' _ Heq Hsame Hok].
      + exfalso. apply Hsup. auto.
      + congruence.
      + contradiction.
      + right. right. split; [rewrite Hev; lia|]. eauto.
      + right. left. split; [apply Hev, Heq|]. split; [|auto]. pose proof (k_ctr _ _ _ _ _ _ Hk') as Hctr.
        destruct Hbad as [Hb|(E & Hb)].
        * left. rewrite <- Hpos. congruence.
        * right. rewrite Hctr. split; [destruct rep; cbn; lia|exact Hb].
      + left. split; [apply Hev, Heq|]. split; [apply Hpos, Hsame|]. pose proof (k_ctr _ _ _ _ _ _ Hk') as Hctr. cbn in Hctr.
        split.
        * rewrite Hctr. intros (E & H). apply Hok. split; [lia|exact H].
        * do 2 eexists. split; [reflexivity|]. split; [reflexivity|]. split; [reflexivity|]. cbn [j_ids].
          intros g' w x Hw. apply max_status_spec, Hw.
  Qed.
End Agreement.
