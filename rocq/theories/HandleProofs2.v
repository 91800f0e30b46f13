(** The careful case: a call that has returned. *)
From Verif Require Import Base MixtureKeyModel UtilsModel ChunkGenModel DistributorModel SpecDistributor DistributorProofs
  DistributorProofs2 DistributorProofs3 DistributorProofs4 DistributorProofs5 DistributorProofs10 HandleModel SpecHandle HandleProofs.
From Coq Require Import ZifyBool ZifyNat.
Open Scope Z_scope.

Definition final (p : pc) : bool := match p with PDone | PFailed => true | _ => false end.

Section Careful.
  Context {C : Type}.
  Variable src : nat -> qout C.
  Variables dp nodes m0 : Z.
  Hypothesis Hdp : 1 <= dp.

  Definition pinv (j : job C) (p : pc) (k : disk C) : Prop :=
    match p with
    | PCopy | PCheck | PFailed => True
    | PCopying => k_qr k = Partial
    | PMkdir | PState | PStating => k_qr k = Full tt
    | PQstate => k_qr k = Full tt /\ exists v, adjusted j = Ok v /\ aget Z.eqb (j_id j) (k_ck k) = Some (Full v, Absent)
    | PQstating => k_qr k = Full tt /\ exists v, adjusted j = Ok v /\ aget Z.eqb (j_id j) (k_ck k) = Some (Full v, Partial)
    | PDone => k_qr k = Full tt /\ exists v, adjusted j = Ok v /\ aget Z.eqb (j_id j) (k_ck k) = Some (Full v, Full (v_calls (j_state j)))
    end.

  Lemma persist_step_inv j p (k : disk C) p' k' : pinv j p k -> (k_qr k = Partial -> p = PCopying) -> persist_step j p k = (p', k') ->
    pinv j p' k' /\ (k_qr k' = Partial -> p' = PCopying) /\ (forall id, id <> j_id j -> aget Z.eqb id (k_ck k') = aget Z.eqb id (k_ck k))
    /\ (k_qr k = Full tt -> k_qr k' = Full tt).
  Proof.
    intros Hi Hq Hs.
    destruct p; cbn [persist_step pinv] in *.
    - destruct (j_copy j); [destruct (k_qr k) eqn:Eq|]; injection Hs as <- <-; cbn; rewrite ?Eq; repeat split; auto; try congruence;
        try (specialize (Hq eq_refl); discriminate); try (intros E; specialize (Hq E); discriminate).
    - injection Hs as <- <-. cbn. repeat split; auto. discriminate.
    - destruct (k_qr k) as [| |[]] eqn:Eq; injection Hs as <- <-; cbn; rewrite ?Eq; repeat split; auto; try congruence.
      all: specialize (Hq eq_refl); discriminate.
    - destruct (amem Z.eqb (j_id j) (k_ck k)); injection Hs as <- <-; cbn; rewrite ?Hi; repeat split; auto; try congruence.
      all: try (intros id Hid; apply (aget_aset_other _ Z.eqb_eq); congruence).
    - destruct (adjusted j) eqn:Ea; injection Hs as <- <-; cbn; rewrite ?Hi; repeat split; auto; try congruence.
      intros id Hid. apply (aget_aset_other _ Z.eqb_eq). congruence.
    - destruct (adjusted j) eqn:Ea; injection Hs as <- <-; cbn; rewrite ?Hi; repeat split; auto; try congruence.
      + exists a. rewrite (aget_aset_same _ Z.eqb_eq). auto.
      + intros id Hid. apply (aget_aset_other _ Z.eqb_eq). congruence.
    - destruct Hi as (Hf & v & Ha & He). rewrite He in Hs. injection Hs as <- <-. cbn. rewrite Hf. repeat split; auto; try congruence.
      + exists v. rewrite (aget_aset_same _ Z.eqb_eq). auto.
      + intros id Hid. apply (aget_aset_other _ Z.eqb_eq). congruence.
    - destruct Hi as (Hf & v & Ha & He). rewrite He in Hs. injection Hs as <- <-. cbn. rewrite Hf. repeat split; auto; try congruence.
      + exists v. rewrite (aget_aset_same _ Z.eqb_eq). auto.
      + intros id Hid. apply (aget_aset_other _ Z.eqb_eq). congruence.
    - injection Hs as <- <-. cbn. destruct Hi as (Hf & Hr). repeat split; auto; congruence.
    - injection Hs as <- <-. cbn. repeat split; auto; intros E; specialize (Hq E); discriminate.
  Qed.

  Record cinv (h : hstate C) (acc : list (p2 * list Z)) (m : Z) : Prop := {
    c_g : ginv dp nodes m0 h acc m;
    c_wait : forall t id w, hold (h_phase h t) = Some (id, w) -> w = true;
    c_alive : forall id p, aget Z.eqb id (h_procs h) = Some p -> p_killed p = false;
    c_pinv : forall id p, aget Z.eqb id (h_procs h) = Some p -> pinv (p_job p) (p_pc p) (h_disk h);
    c_part : k_qr (h_disk h) = Partial -> exists id p, aget Z.eqb id (h_procs h) = Some p /\ p_pc p = PCopying;
    c_fly : forall id p g n, aget Z.eqb id (h_procs h) = Some p -> final (p_pc p) = false -> 0 <= g < dp -> 0 <= n < nodes ->
              hold (h_phase h (g, n)) = Some (id, true);
    c_acc : Z.of_nat (length acc) < dp * nodes -> forall t, In t (map fst acc) -> hold (h_phase h t) = Some (m + 1, true);
    c_ret : forall t id, h_phase h t = HReturned id -> exists p, aget Z.eqb id (h_procs h) = Some p /\ p_pc p = PDone;
    c_open : forall t, (exists id w, h_phase h t = HOpen id w) \/ (exists id w, h_phase h t = HWrite id w) -> t = (0, 0);
    c_file : forall id, (exists w, h_phase h (0, 0) = HWait id w) \/ h_phase h (0, 0) = HReturned id -> h_file h = Full id
  }.

  Lemma cinv_start s k f : ginv dp nodes m0 (hstart s k f) [] m0 -> k_qr k <> Partial -> cinv (hstart s k f) [] m0.
  Proof.
    intros Hg Hq. constructor; cbn; try discriminate; try assumption; try contradiction; try congruence.
    - intros t [(id & w & H)|(id & w & H)]; discriminate.
    - intros id [[w H]|H]; discriminate.
  Qed.

  Lemma cinv_step h acc m e : cinv h acc m -> from_job dp nodes e -> careful e -> exists acc' m', cinv (hstep src h e) acc' m'.
  Proof.
    intros [Hg Hw Ha Hp Hq Hf Hc Hr Hop Hfi] Hv Hcare. destruct e as [g n w d|g n st srv wait|g n|g n|id|id].
    - exists acc, m. constructor; try assumption. apply req_ginv, Hg.
    - destruct Hv as [Hgv Hnv]. destruct (is_busy (h_phase h (g, n))) eqn:Eb.
      { exists acc, m. cbn [hstep]. rewrite Eb. constructor; assumption. }
      cbn [careful] in Hcare. subst wait.
      destruct (report_ginv src dp nodes m0 Hdp h acc m g n st srv true Hg Hgv Hnv Eb) as (acc' & m' & r & j & Hg' & Hres & Eph & Epr & Edk & Efi).
      rewrite busy_hold in Eb. destruct (hold (h_phase h (g, n))) eqn:Eh; [discriminate|clear Eb].
      (* nothing is being written *)
      assert (Hfin : forall id p, aget Z.eqb id (h_procs h) = Some p -> final (p_pc p) = true).
      { intros id p Hx. destruct (final (p_pc p)) eqn:E; [reflexivity|]. specialize (Hf id p g n Hx E Hgv Hnv). congruence. }
      set (h' := hstep src h (HReport g n st srv true)) in *. clearbody h'. exists acc', m'.
      set (f := match r with CkErr _ => HRaised | CkId id => if (g =? 0) && (n =? 0) then HOpen id true else HWait id true end) in *.
      assert (Hfw : forall id w, hold f = Some (id, w) -> w = true).
      { intros id w. unfold f. destruct r; [|discriminate]. destruct (_ && _); cbn; congruence. }
      assert (Hfr : forall id, f <> HReturned id) by (intros id; unfold f; destruct r; [destruct (_ && _)|]; discriminate).
      assert (Hgood : forall id p, aget Z.eqb id (h_procs h') = Some p -> aget Z.eqb id (h_procs h) = Some p \/ (p = mkProc (p_job p) PCopy false /\ id = m + 1 /\ m' = m + 1)).
      { intros id p. rewrite Epr. destruct j as [j|]; [|auto]. rewrite (aget_aset _ Z.eqb_eq). destruct (Z.eqb_spec (j_id j) id) as [E|]; [|auto].
        intros [= <-]. right. split; [reflexivity|]. inversion Hres; subst; auto. }
      assert (Hkeep : forall id p, aget Z.eqb id (h_procs h) = Some p -> aget Z.eqb id (h_procs h') = Some p).
      { intros id p Hx. rewrite Epr. destruct j as [j|]; [|exact Hx]. rewrite (aget_aset _ Z.eqb_eq).
        destruct (Z.eqb_spec (j_id j) id) as [E|]; [|exact Hx]. exfalso. destruct (g_procs _ _ _ _ _ _ Hg _ _ Hx) as (Hb & _).
        inversion Hres; subst; cbn in Hb; lia. }
      constructor.
      + exact Hg'.
      + intros t id w. rewrite Eph. destruct (p2_dec (g, n) t) as [<-|Hne]; [rewrite pupd_same; apply Hfw|rewrite pupd_other by exact Hne; eauto].
      + intros id p Hx. destruct (Hgood _ _ Hx) as [Hy|(-> & _)]; [eauto|reflexivity].
      + intros id p Hx. rewrite Edk. destruct (Hgood _ _ Hx) as [Hy|(-> & _)]; [eauto|exact I].
      + rewrite Edk. intros Hpart. destruct (Hq Hpart) as (id & p & Hx & Hpc). specialize (Hfin _ _ Hx). rewrite Hpc in Hfin. discriminate.
      + intros id p a b Hx Hfl Hav Hbv. destruct (Hgood _ _ Hx) as [Hy|(_ & -> & Hm')]; [rewrite (Hfin _ _ Hy) in Hfl; discriminate|].
        rewrite Eph. destruct Hres as [| | |s' Hni Hlt|s' Hni Heq Hbad|s' Hni Heq Hsame Hok]; try lia.
        destruct (p2_dec (g, n) (a, b)) as [E|Hne].
        * rewrite E, pupd_same. unfold f. destruct (_ && _); reflexivity.
        * rewrite pupd_other by exact Hne. apply Hc; [lia|].
          pose proof (g_ck _ _ _ _ _ _ Hg) as Hk.
          destruct (covers dp nodes ((g, n) :: map fst acc)) as [_ Hcov]; [lia|lia| | |].
          -- constructor; [exact Hni|apply (k_nd _ _ _ _ _ _ Hk)].
          -- intros x y [[= <- <-]|H]; [auto|apply (k_valid _ _ _ _ _ _ Hk), H].
          -- cbn [length] in Hcov. rewrite map_length in Hcov. destruct (proj1 Hcov ltac:(lia) a b Hav Hbv) as [E|H]; [congruence|exact H].
      + assert (Hold : Z.of_nat (length acc) < dp * nodes -> forall t, In t (map fst acc) -> hold (h_phase h' t) = Some (m + 1, true)).
        { intros Hlt t Ht. specialize (Hc Hlt t Ht). rewrite Eph. rewrite pupd_other; [exact Hc|]. intros <-. congruence. }
        destruct Hres as [| | |s' Hni Hlt|s' Hni Heq Hbad|s' Hni Heq Hsame Hok]; try exact Hold.
        * intros _ t. rewrite map_app, in_app_iff. intros [Ht|[<-|[]]]; [apply Hold; [lia|exact Ht]|].
          cbn [fst]. rewrite Eph, pupd_same. unfold f. destruct (_ && _); reflexivity.
        * rewrite app_length. cbn [length]. lia.
        * intros _ t [].
      + intros t id. rewrite Eph. destruct (p2_dec (g, n) t) as [<-|Hne]; [rewrite pupd_same; intros E; destruct (Hfr _ E)|].
        rewrite pupd_other by exact Hne. intros E. destruct (Hr _ _ E) as (p & Hx & Hpc). exists p. auto.
      + intros t. rewrite Eph. destruct (p2_dec (g, n) t) as [<-|Hne]; [|rewrite pupd_other by exact Hne; apply Hop].
        rewrite pupd_same. unfold f. destruct r as [i|]; [|intros [(? & ? & H)|(? & ? & H)]; discriminate].
        destruct (Z.eqb_spec g 0) as [->|]; [destruct (Z.eqb_spec n 0) as [->|]|]; cbn; try reflexivity; intros [(? & ? & H)|(? & ? & H)]; discriminate.
      + intros id. rewrite Eph, Efi. destruct (p2_dec (g, n) (0, 0)) as [E|Hne].
        * rewrite E, pupd_same. injection E as -> ->. unfold f. cbn. intros [[w H]|H]; destruct r; discriminate.
        * rewrite pupd_other by exact Hne. apply Hfi.
    - exists acc, m.
      assert (Hfile : forall x f, hold x = hold (h_phase h (g, n)) -> hold x <> None -> (g, n) = (0, 0) ->
                (forall id w, x = HWait id w -> f = Full id) ->
                cinv (mkH (h_dist h) (pupd (h_phase h) (g, n) x) f (h_procs h) (h_disk h)) acc m).
      { intros x f Hx Hx' H0 Hxf.
        assert (Hh : forall t, hold (pupd (h_phase h) (g, n) x t) = hold (h_phase h t)).
        { intros t. destruct (p2_dec (g, n) t) as [<-|Hne]; [rewrite pupd_same; exact Hx|rewrite pupd_other by exact Hne; reflexivity]. }
        constructor; cbn [h_dist h_phase h_file h_procs h_disk]; try assumption.
        - eapply ginv_same; [exact Hg|reflexivity|apply same_jobs|left; apply Hh].
        - intros t i w. rewrite Hh. eauto.
        - intros i p a b. rewrite Hh. eauto.
        - intros Hlt t. rewrite Hh. auto.
        - intros t i. destruct (p2_dec (g, n) t) as [<-|Hne]; [|rewrite pupd_other by exact Hne; apply Hr].
          rewrite pupd_same. intros ->. contradiction Hx'. reflexivity.
        - intros t. destruct (p2_dec (g, n) t) as [<-|Hne]; [auto|rewrite pupd_other by exact Hne; apply Hop].
        - intros i. rewrite <- H0, pupd_same. intros [[w ->]|H]; [eauto|]. subst x. contradiction Hx'. reflexivity. }
      cbn [hstep]. destruct (h_phase h (g, n)) eqn:Ep; try (constructor; assumption).
      + apply Hfile; try discriminate; try reflexivity. apply (Hop (g, n)). rewrite Ep. left. eauto.
      + apply Hfile; try discriminate; try reflexivity. { apply (Hop (g, n)). rewrite Ep. right. eauto. } intros i w [= <- <-]. reflexivity.
    - exists acc, m. cbn [hstep]. destruct (h_phase h (g, n)) eqn:Ep; try (constructor; assumption).
      assert (wait = true) by (eapply Hw; rewrite Ep; reflexivity). subst wait.
      assert (Hgen : forall x, hold x = None -> (forall id0, x = HReturned id0 -> id0 = id /\ exists p, aget Z.eqb id (h_procs h) = Some p /\ p_pc p = PDone) ->
                (forall p, aget Z.eqb id (h_procs h) = Some p -> final (p_pc p) = true) -> (aget Z.eqb id (h_procs h) <> None) ->
                cinv (with_phase h (g, n) x) acc m).
      { intros x Hx Hret Hfin Hex. constructor; cbn; try assumption.
        - eapply ginv_same; [exact Hg|reflexivity|apply same_jobs|apply pupd_hold; right; exact Hx].
        - intros t i w. destruct (p2_dec (g, n) t) as [<-|Hne]; [rewrite pupd_same; congruence|rewrite pupd_other by exact Hne; eauto].
        - intros i p a b Hi Hfl Hav Hbv. destruct (p2_dec (g, n) (a, b)) as [E|Hne]; [|rewrite pupd_other by exact Hne; eauto].
          specialize (Hf i p a b Hi Hfl Hav Hbv). rewrite <- E, Ep in Hf. injection Hf as <-. rewrite (Hfin _ Hi) in Hfl. discriminate.
        - intros Hlt t Ht. specialize (Hc Hlt t Ht). destruct (p2_dec (g, n) t) as [<-|Hne]; [|rewrite pupd_other by exact Hne; exact Hc].
          exfalso. rewrite Ep in Hc. injection Hc as ->. destruct (aget Z.eqb (m + 1) (h_procs h)) as [p|] eqn:E; [|congruence].
          destruct (g_procs _ _ _ _ _ _ Hg _ _ E) as (Hb & _). lia.
        - intros t i. destruct (p2_dec (g, n) t) as [<-|Hne]; [|rewrite pupd_other by exact Hne; apply Hr].
          rewrite pupd_same. intros ->. destruct (Hret i eq_refl) as [-> H]. exact H.
        - intros t. destruct (p2_dec (g, n) t) as [<-|Hne]; [|rewrite pupd_other by exact Hne; apply Hop].
          rewrite pupd_same. intros [(i & w & ->)|(i & w & ->)]; discriminate.
        - intros i. destruct (p2_dec (g, n) (0, 0)) as [E|Hne]; [|rewrite pupd_other by exact Hne; apply Hfi].
          rewrite <- E, pupd_same. intros [[w H]|H]; [subst x; discriminate|]. destruct (Hret _ H) as [-> _]. apply Hfi. left. exists true. congruence. }
      unfold checkpoint_completed.
      destruct (aget Z.eqb id (d_info (h_dist h))) as [[|]|] eqn:Ei; try (constructor; assumption). cbn [negb]. unfold proc_state.
      destruct (aget Z.eqb id (h_procs h)) as [p|] eqn:Epr; [|constructor; assumption]. rewrite (Ha _ _ Epr).
      destruct (p_pc p) eqn:Epc; try (constructor; assumption); cbn.
      + apply Hgen; [reflexivity| | |discriminate].
        * intros id0 [= <-]. eauto.
        * intros p' [= <-]. rewrite Epc. reflexivity.
      + apply Hgen; [reflexivity|discriminate| |discriminate]. intros p' [= <-]. rewrite Epc. reflexivity.
    - exists acc, m. cbn [hstep]. destruct (aget Z.eqb id (h_procs h)) as [p|] eqn:Ep; [|constructor; assumption].
      rewrite (Ha _ _ Ep). destruct (persist_step _ _ _) as [pc' k'] eqn:Es.
      destruct (g_procs _ _ _ _ _ _ Hg _ _ Ep) as (Hb & Hid & _ & Hnn).
      destruct (final (p_pc p)) eqn:Efin.
      { assert (pc' = p_pc p /\ k' = h_disk h) as [-> ->] by (destruct (p_pc p); try discriminate; injection Es as <- <-; auto).
        assert (Eq : forall x, aget Z.eqb x (aset Z.eqb id (mkProc (p_job p) (p_pc p) false) (h_procs h)) = aget Z.eqb x (h_procs h)).
        { intros x. rewrite (aget_aset _ Z.eqb_eq). destruct (Z.eqb_spec id x) as [<-|]; [|reflexivity]. rewrite Ep. specialize (Ha _ _ Ep).
          destruct p; cbn in *; congruence. }
        constructor; cbn [h_dist h_phase h_file h_procs h_disk]; try assumption; try (intros x y; rewrite ?Eq; eauto).
        - eapply ginv_same; [exact Hg|reflexivity|eapply aset_jobs; [exact Ep|reflexivity]|auto].
        - intros Hx. destruct (Hq Hx) as (x & y & H). exists x, y. rewrite Eq. exact H. 
        }
      (* it is the only one that is not done *)
      assert (Honly : forall x y, aget Z.eqb x (h_procs h) = Some y -> x <> id -> final (p_pc y) = true).
      { intros x y Hx Hne. destruct (final (p_pc y)) eqn:E; [reflexivity|].
        assert (H1 := Hf x y 0 0 Hx E ltac:(lia) ltac:(lia)). assert (H2 := Hf id p 0 0 Ep Efin ltac:(lia) ltac:(lia)). congruence. }
      assert (Hqp : k_qr (h_disk h) = Partial -> p_pc p = PCopying).
      { intros Hx. destruct (Hq Hx) as (x & y & H & Hpc). destruct (Z.eq_dec x id) as [->|Hne]; [congruence|].
        specialize (Honly x y H Hne). rewrite Hpc in Honly. discriminate. }
      destruct (persist_step_inv _ _ _ _ _ (Hp _ _ Ep) Hqp Es) as (Hpi & Hqp' & Hoth & Hfull).
      assert (Hget : forall x y, aget Z.eqb x (aset Z.eqb id (mkProc (p_job p) pc' false) (h_procs h)) = Some y ->
                (x = id /\ y = mkProc (p_job p) pc' false) \/ (x <> id /\ aget Z.eqb x (h_procs h) = Some y)).
      { intros x y. rewrite (aget_aset _ Z.eqb_eq). destruct (Z.eqb_spec id x) as [<-|Hne]; [intros [= <-]; auto|right; auto]. }
      constructor; cbn [h_dist h_phase h_file h_procs h_disk]; try assumption.
      + eapply ginv_same; [exact Hg|reflexivity|eapply aset_jobs; [exact Ep|reflexivity]|auto].
      + intros x y Hx. destruct (Hget _ _ Hx) as [(-> & ->)|(Hne & H)]; [reflexivity|eauto].
      + intros x y Hx. destruct (Hget _ _ Hx) as [(-> & ->)|(Hne & H)]; [exact Hpi|].
        specialize (Honly _ _ H Hne). specialize (Hp _ _ H). destruct (g_procs _ _ _ _ _ _ Hg _ _ H) as (_ & Hidy & _).
        destruct (p_pc y); try discriminate; [|exact I]. cbn [pinv] in *. destruct Hp as (Hp1 & v & Hp2 & Hp3). split; [auto|]. exists v.
        split; [exact Hp2|]. rewrite Hoth by congruence. exact Hp3.
      + intros Hx. exists id, (mkProc (p_job p) pc' false). rewrite (aget_aset_same _ Z.eqb_eq). auto.
      + intros x y a b Hx Hfl Hav Hbv. destruct (Hget _ _ Hx) as [(-> & ->)|(Hne & H)]; [apply (Hf id p); assumption|].
        rewrite (Honly _ _ H Hne) in Hfl. discriminate.
      + intros t x Hx. destruct (Hr _ _ Hx) as (y & H1 & H2). rewrite (aget_aset _ Z.eqb_eq). destruct (Z.eqb_spec id x) as [<-|Hne]; [|eauto].
        exfalso. rewrite Ep in H1. injection H1 as <-. rewrite H2 in Efin. discriminate.
    - destruct Hcare.
  Qed.

  Lemma cinv_run evs : forall h acc m, cinv h acc m -> Forall (from_job dp nodes) evs -> Forall careful evs ->
    exists acc' m', cinv (hrun src h evs) acc' m'.
  Proof.
    induction evs as [|e evs IH]; intros h acc m Hi Hv Hc; [exists acc, m; exact Hi|]. inversion Hv; inversion Hc; subst.
    destruct (cinv_step h acc m e Hi) as (acc' & m' & Hi'); [assumption|assumption|]. cbn [hrun fold_left]. eapply IH; eassumption.
  Qed.

  Lemma cinv_restores h acc m id p : cinv h acc m -> aget Z.eqb id (h_procs h) = Some p -> p_pc p = PDone -> restores h id.
  Proof.
    intros Hi Hp Hpc. pose proof (c_pinv _ _ _ Hi _ _ Hp) as Hq. rewrite Hpc in Hq. destruct Hq as (Hq & v & Ha & He).
    destruct (g_procs _ _ _ _ _ _ (c_g _ _ _ Hi) _ _ Hp) as (_ & Hid & Hvd & _). rewrite Hid in He.
    assert (Hv : v_dp v = dp) by (rewrite <- Hvd; apply (adjust_dp _ _ _ _ Ha)).
    exists p, v. eexists. split; [exact Hp|]. split; [exact Hid|]. split; [exact Ha|].
    unfold from_checkpoint. rewrite He, Hq. unfold dist_init. replace (v_dp v <? 1) with false by lia.
    split; [reflexivity|]. cbn. auto.
  Qed.
End Careful.
