(** Checkpoint rounds along histories. *)
From Verif Require Import Base MixtureKeyModel UtilsModel ChunkGenModel DistributorModel SpecDistributor DistributorProofs
  DistributorProofs2 DistributorProofs3 DistributorProofs4.
From Coq Require Import ZifyBool ZifyNat.
Open Scope Z_scope.

Section RunCk.
  Context {C : Type}.
  Variable src : nat -> qout C.
  Variables dp nodes m0 : Z.
  Hypothesis Hdp : 1 <= dp.

  Lemma req_frame g n w d (s s' : dist C) o : next_chunk_for src g n w d s = (s', o) ->
    d_dp s' = d_dp s /\ d_nodes s' = d_nodes s /\ d_rep s' = d_rep s /\ d_stat s' = d_stat s /\ d_ctr s' = d_ctr s
    /\ d_cur s' = d_cur s /\ d_info s' = d_info s /\ d_forked s' = d_forked s /\ d_og s' = d_og s /\ d_cached s' = d_cached s.
  Proof.
    unfold next_chunk_for, hand_out. intros En.
    repeat match type of En with
    | (if ?b then _ else _) = _ => destruct b
    | match ?x with Some _ => _ | None => _ end = _ => destruct x
    | match ?x with QChunk _ => _ | QNone => _ | QStop => _ | QErr _ => _ end = _ => destruct x
    end; injection En as <- _; repeat split.
  Qed.

  Lemma ck_run ops : forall s acc m s' es,
    ck_inv dp nodes m0 s acc m -> d_forked s = false -> Forall (ck_valid dp nodes) ops -> ~ In Fork ops ->
    drun src s ops = (s', es) ->
    ck_inv dp nodes m0 s' (round acc ops es) (m + started es) /\ d_forked s' = false /\ d_og s' = d_og s /\ d_cached s' = d_cached s
    /\ (forall i id j, nth_error es i = Some (ECk (CkId id) j) -> id = m + started (firstn i es) + 1).
  Proof.
    induction ops as [|o ops IH]; intros s acc m s' es Hi Hf Hv Hnf Hr; cbn [drun] in Hr.
    - injection Hr as <- <-. cbn. rewrite Z.add_0_r. split; [exact Hi|]. split; [exact Hf|]. split; [reflexivity|]. split; [reflexivity|]. intros [|i] id j Hx; discriminate.
    - destruct (dstep src s o) as [s1 e] eqn:Es. destruct (drun src s1 ops) as [s2 es'] eqn:Er. injection Hr as <- <-.
      inversion Hv as [|? ? Hv1 Hv2]; subst. assert (Hnf' : ~ In Fork ops) by (intros H; apply Hnf; right; exact H).
      destruct o as [g n w d|g n st srv qd|]; cbn [dstep] in Es.
      + destruct (next_chunk_for src g n w d s) as [s1' r] eqn:En. injection Es as -> <-.
        destruct (req_frame _ _ _ _ _ _ _ En) as (E1 & E2 & E3 & E4 & E5 & E6 & E7 & E8 & E9 & E10).
        assert (Hi1 : ck_inv dp nodes m0 s1 acc m).
        { destruct Hi. constructor; try congruence; auto. intros id. rewrite E7. auto. }
        destruct (IH _ _ _ _ _ Hi1 ltac:(congruence) Hv2 Hnf' Er) as (Ha & Hb & Hc & Hd & He).
        cbn [round started]. split; [exact Ha|]. split; [exact Hb|]. split; [congruence|]. split; [congruence|].
        intros [|i] id j H; [discriminate|]. cbn [firstn started nth_error] in *. eauto.
      + destruct (checkpoint g n st srv qd s) as [[s1' r] j] eqn:Ec. injection Es as -> <-.
        destruct (checkpoint_frame _ _ _ _ _ _ _ _ _ Ec) as (_ & _ & _ & Eog & Efk & _ & _ & _ & _ & Eca).
        destruct Hv1 as [Hg Hn].
        destruct (ck_step dp nodes m0 Hdp _ _ _ _ _ _ _ _ _ _ _ Hi Hg Hn Ec) as (acc' & m' & Hi' & Hres).
        destruct (IH _ _ _ _ _ Hi' ltac:(congruence) Hv2 Hnf' Er) as (Ha & Hb & Hc & Hd & He).
        assert (Hround : round acc (Ck g n st srv qd :: ops) (ECk r j :: es') = round acc' ops es'
                         /\ m + started (ECk r j :: es') = m' + started es'
                         /\ (forall id, r = CkId id -> id = m + 1) /\ m' = m + started [ECk r j]).
        { destruct Hres; cbn [round started]; try (repeat split; try congruence; lia).
          - rewrite (proj2 (existsb_p2 _ _)) by assumption. repeat split; try congruence; lia.
          - assert (Hex : existsb (p2_eqb (g, n)) (map fst acc) = false).
            { destruct (existsb _ _) eqn:E; [apply existsb_p2 in E; contradiction|reflexivity]. }
            rewrite Hex. repeat split; try congruence; lia. }
        destruct Hround as (-> & -> & Hid & Hm'). split; [exact Ha|]. split; [exact Hb|]. split; [congruence|]. split; [congruence|].
        intros [|i] id j' H.
        * cbn in H. injection H as -> ->. cbn [firstn started]. rewrite (Hid id eq_refl). lia.
        * cbn [nth_error] in H. specialize (He i id j' H). cbn [firstn]. rewrite He, Hm'. cbn [started]. destruct j; lia.
      + exfalso. apply Hnf. left. reflexivity.
  Qed.

  Lemma init_ck nw cached s0 : dist_init (C := C) dp nodes nw cached 0 = Ok s0 ->
    ck_inv dp nodes 0 s0 [] 0 /\ d_forked s0 = false /\ d_og s0 = nw /\ d_cached s0 = cached.
  Proof.
    clear m0 Hdp. unfold dist_init. destruct (dp <? 1) eqn:Ed; [discriminate|]. intros H. injection H as <-.
    repeat split; cbn; try (constructor); try (intros ? ? []); try lia; try contradiction.
    intros id. replace ((0 + 1 <=? id) && (id <=? 0)) with false by lia. reflexivity.
  Qed.
End RunCk.
