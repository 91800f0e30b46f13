(** Invariants of the checkpoint call. *)
From Verif Require Import Base MixtureKeyModel UtilsModel ChunkGenModel DistributorModel SpecDistributor DistributorProofs
  DistributorProofs2 DistributorProofs3 DistributorProofs4 DistributorProofs5 DistributorProofs10 HandleModel SpecHandle.
From Coq Require Import ZifyBool ZifyNat.
Open Scope Z_scope.

Definition hold (p : phase) : option (Z * bool) :=
  match p with HOpen id w | HWrite id w | HWait id w => Some (id, w) | _ => None end.
Lemma holds_hold p id : holds p id <-> exists w, hold p = Some (id, w).
Proof.
  split.
  - intros (w & [->|[->| ->]]); exists w; reflexivity.
  - intros (w & H). exists w. destruct p; try discriminate; injection H as -> ->; auto.
Qed.
Lemma busy_hold p : is_busy p = match hold p with Some _ => true | None => false end.
Proof. destruct p; reflexivity. Qed.
Lemma pupd_same f t x : pupd f t x t = x.
Proof. unfold pupd. rewrite (proj2 (p2_eqb_spec t t) eq_refl). reflexivity. Qed.
Lemma pupd_other f t x t' : t <> t' -> pupd f t x t' = f t'.
Proof. unfold pupd. intros H. destruct (p2_eqb t t') eqn:E; [apply p2_eqb_spec in E; contradiction|reflexivity]. Qed.
Lemma p2_dec (a b : p2) : {a = b} + {a <> b}.
Proof. repeat decide equality. Qed.

Lemma adjust_dp {C} ids ts : forall v v' : saved C, adjust ids v ts = Ok v' -> v_dp v' = v_dp v.
Proof.
  induction ts as [|t ts IH]; intros v v' H; cbn [adjust] in H; [injection H as <-; reflexivity|].
  destruct (adjust_slot ids v t) as [v1|] eqn:E; [|discriminate]. rewrite (IH _ _ H). unfold adjust_slot in E.
  destruct t as [[g n] w]. destruct (aget p3_eqb (g, n, w) (v_next v)); [|discriminate].
  destruct (_ <? 0); [injection E as <-; reflexivity|].
  destruct (aget p2_eqb _ (v_cache v)) as [[c k]|]; [|discriminate]. destruct (aget p2_eqb _ ids); [|discriminate].
  injection E as <-. reflexivity.
Qed.

Section Inv.
  Context {C : Type}.
  Variable src : nat -> qout C.
  Variables dp nodes m0 : Z.
  Hypothesis Hdp : 1 <= dp.

  Record ginv (h : hstate C) (acc : list (p2 * list Z)) (m : Z) : Prop := {
    g_ck : ck_inv dp nodes m0 (h_dist h) acc m;
    g_fork : d_forked (h_dist h) = false;
    g_procs : forall id p, aget Z.eqb id (h_procs h) = Some p ->
                m0 < id <= m /\ j_id (p_job p) = id /\ v_dp (j_state (p_job p)) = dp /\ 1 <= nodes;
    g_all : forall id, m0 < id <= m -> aget Z.eqb id (h_procs h) <> None;
    g_hold : forall t id w, hold (h_phase h t) = Some (id, w) -> m0 < id /\ (id <= m \/ (id = m + 1 /\ In t (map fst acc)))
  }.

  (** The events other than a report leave the distributor's rounds alone. *)
  Lemma ginv_same h h' acc m : ginv h acc m ->
    h_dist h' = h_dist h -> 
    (forall id, match aget Z.eqb id (h_procs h'), aget Z.eqb id (h_procs h) with
                | None, None => True | Some p', Some p => p_job p' = p_job p | _, _ => False end) ->
    (forall t, hold (h_phase h' t) = hold (h_phase h t) \/ hold (h_phase h' t) = None) -> ginv h' acc m.
  Proof.
    intros [H1 H2 H3 H4 H5] Ed Ep Eh. constructor.
    - rewrite Ed. exact H1.
    - rewrite Ed. exact H2.
    - intros id p Hp. specialize (Ep id). rewrite Hp in Ep. destruct (aget Z.eqb id (h_procs h)) as [p0|] eqn:E; [|contradiction].
      rewrite Ep. apply (H3 id p0 E).
    - intros id Hid Hn. specialize (Ep id). specialize (H4 id Hid). rewrite Hn in Ep. destruct (aget Z.eqb id (h_procs h)); [contradiction|auto].
    - intros t id w Hh. destruct (Eh t) as [E|E]; rewrite E in Hh; [eauto|discriminate].
  Qed.

  Lemma req_ginv h acc m g n w d : ginv h acc m -> ginv (hstep src h (HReq g n w d)) acc m.
  Proof.
    intros [H1 H2 H3 H4 H5]. cbn [hstep]. destruct (next_chunk_for src g n w d (h_dist h)) as [s' r] eqn:En. cbn [fst].
    destruct (req_frame _ _ _ _ _ _ _ _ En) as (E1 & E2 & E3 & E4 & E5 & E6 & E7 & E8 & E9 & E10).
    constructor; cbn [h_dist h_procs h_phase]; try assumption; [|congruence].
    destruct H1. constructor; try congruence; auto. intros id. rewrite E7. auto.
  Qed.

  Lemma aset_jobs (l : list (Z * proc C)) id p p' : aget Z.eqb id l = Some p -> p_job p' = p_job p ->
    forall x, match aget Z.eqb x (aset Z.eqb id p' l), aget Z.eqb x l with
              | None, None => True | Some a, Some b => p_job a = p_job b | _, _ => False end.
  Proof.
    intros H E x. rewrite (aget_aset _ Z.eqb_eq). destruct (Z.eqb_spec id x) as [<-|Hne].
    - rewrite H. exact E.
    - destruct (aget Z.eqb x l); auto.
  Qed.
  Lemma same_jobs (l : list (Z * proc C)) x : match aget Z.eqb x l, aget Z.eqb x l with
              | None, None => True | Some a, Some b => p_job a = p_job b | _, _ => False end.
  Proof. destruct (aget Z.eqb x l); auto. Qed.
  Lemma pupd_hold f t x : (hold x = hold (f t) \/ hold x = None) ->
    forall t', hold (pupd f t x t') = hold (f t') \/ hold (pupd f t x t') = None.
  Proof.
    intros H t'. destruct (p2_dec t t') as [<-|Hne]; [rewrite pupd_same; exact H|]. rewrite pupd_other by exact Hne. auto.
  Qed.

  (** What a report does. *)
  Lemma report_ginv h acc m g n st srv wait : ginv h acc m -> 0 <= g < dp -> 0 <= n < nodes -> is_busy (h_phase h (g, n)) = false ->
    let h' := hstep src h (HReport g n st srv wait) in
    exists acc' m' r j, ginv h' acc' m'
      /\ ck_result dp nodes g n st srv (qdir_exists (h_disk h)) (h_dist h) acc m (h_dist h') r j acc' m'
      /\ h_phase h' = pupd (h_phase h) (g, n)
           (match r with CkErr _ => HRaised | CkId id => if (g =? 0) && (n =? 0) then HOpen id wait else HWait id wait end)
      /\ h_procs h' = (match j with Some j => aset Z.eqb (j_id j) (mkProc j PCopy false) (h_procs h) | None => h_procs h end)
      /\ h_disk h' = h_disk h /\ h_file h' = h_file h.
  Proof.
    intros Hi Hg Hn Hb. cbv zeta. cbn [hstep]. rewrite Hb.
    destruct (checkpoint g n st srv (qdir_exists (h_disk h)) (h_dist h)) as [[s' r] j] eqn:Ec.
    pose proof Hi as [H1 H2 H3 H4 H5].
    destruct (ck_step dp nodes m0 Hdp _ _ _ _ _ _ _ _ _ _ _ H1 Hg Hn Ec) as (acc' & m' & H1' & Hres).
    destruct (checkpoint_frame _ _ _ _ _ _ _ _ _ Ec) as (_ & _ & _ & Eog & Efk & _ & _ & _ & _ & Eca).
    exists acc', m', r, j. cbn [h_dist h_phase h_procs h_disk h_file]. split; [|repeat split; auto].
    pose proof (k_m _ _ _ _ _ _ H1) as Hm. assert (Hold : forall f id w, hold (pupd (h_phase h) (g, n) f (g, n)) = Some (id, w) ->
      hold f = Some (id, w)) by (intros f id w; rewrite pupd_same; auto).
    assert (Hmk : forall f, (forall id w, hold f = Some (id, w) -> m0 < id /\ (id <= m' \/ (id = m' + 1 /\ In (g, n) (map fst acc')))) ->
       m <= m' -> (forall t, In t (map fst acc) -> In t (map fst acc') \/ m + 1 <= m') ->
       forall t id w, hold (pupd (h_phase h) (g, n) f t) = Some (id, w) -> m0 < id /\ (id <= m' \/ (id = m' + 1 /\ In t (map fst acc')))).
    { intros f Hf Hle Hacc t id w Ht. destruct (p2_dec (g, n) t) as [<-|Hne]; [rewrite pupd_same in Ht; eauto|].
      rewrite pupd_other in Ht by exact Hne. destruct (H5 _ _ _ Ht) as [Ha [Hb'|[Hb1 Hb2]]]; split; try lia.
      destruct (Hacc _ Hb2); [|left; lia]. destruct (Z.le_gt_cases id m'); [left; lia|right; split; [lia|assumption]]. }
    assert (Hif : forall id w w' i', hold (if (g =? 0) && (n =? 0) then HOpen id w else HWait id w) = Some (i', w') -> i' = id).
    { intros id w w' i'. destruct (_ && _); cbn; congruence. }
    destruct Hres as [| | |s' Hni Hlt|s' Hni Heq Hbad|s' Hni Heq Hsame Hok]; constructor; cbn [h_dist h_procs h_phase]; try assumption; try congruence;
      try (apply Hmk; [intros ? ? Hx; discriminate Hx|lia|rewrite ?map_app; intros; rewrite ?in_app_iff; auto]).
    - apply Hmk; [|lia|rewrite map_app; intros; rewrite in_app_iff; auto].
      intros id w Hx. apply Hif in Hx. subst id. split; [lia|]. right. split; [reflexivity|]. rewrite map_app, in_app_iff. cbn. auto.
    - intros id p. rewrite (aget_aset _ Z.eqb_eq). cbn [j_id]. destruct (Z.eqb_spec (m + 1) id) as [<-|Hne].
      + intros [= <-]. cbn. split; [lia|]. split; [reflexivity|]. split; [apply (k_dp _ _ _ _ _ _ H1)|lia].
      + intros Hp. destruct (H3 _ _ Hp) as (Ha & Hb' & Hc). split; [lia|auto].
    - intros id Hid. rewrite (aget_aset _ Z.eqb_eq). cbn [j_id]. destruct (Z.eqb_spec (m + 1) id) as [<-|Hne]; [discriminate|].
      apply H4. lia.
    - apply Hmk; [|lia|intros; right; lia]. intros id w Hx. apply Hif in Hx. subst id. split; [lia|]. left. lia.
  Qed.

  Lemma ginv_step h acc m e : ginv h acc m -> from_job dp nodes e -> exists acc' m', ginv (hstep src h e) acc' m'.
  Proof.
    intros Hi Hv. destruct e as [g n w d|g n st srv wait|g n|g n|id|id].
    - exists acc, m. apply req_ginv, Hi.
    - destruct Hv as [Hg Hn]. destruct (is_busy (h_phase h (g, n))) eqn:Eb.
      + exists acc, m. cbn [hstep]. rewrite Eb. exact Hi.
      + destruct (report_ginv h acc m g n st srv wait Hi Hg Hn Eb) as (acc' & m' & r & j & H & _). eauto.
    - exists acc, m. cbn [hstep]. destruct (h_phase h (g, n)) eqn:Ep; try exact Hi;
        (eapply ginv_same; [exact Hi|reflexivity|apply same_jobs|apply pupd_hold; left; rewrite Ep; reflexivity]).
    - exists acc, m. cbn [hstep]. destruct (h_phase h (g, n)) eqn:Ep; try exact Hi.
      destruct (checkpoint_completed _ _ _ _) as [[|]|]; try exact Hi;
        (eapply ginv_same; [exact Hi|reflexivity|apply same_jobs|apply pupd_hold; right; reflexivity]).
    - exists acc, m. cbn [hstep]. destruct (aget Z.eqb id (h_procs h)) as [p|] eqn:Ep; [|exact Hi]. destruct (p_killed p); [exact Hi|].
      destruct (persist_step _ _ _) as [pc' k']. eapply ginv_same; [exact Hi|reflexivity|eapply aset_jobs; [exact Ep|reflexivity]|auto].
    - exists acc, m. cbn [hstep]. destruct (aget Z.eqb id (h_procs h)) as [p|] eqn:Ep; [|exact Hi].
      destruct (p_pc p); try exact Hi; (eapply ginv_same; [exact Hi|reflexivity|eapply aset_jobs; [exact Ep|reflexivity]|auto]).
  Qed.
  Lemma ginv_run evs : forall h acc m, ginv h acc m -> Forall (from_job dp nodes) evs -> exists acc' m', ginv (hrun src h evs) acc' m'.
  Proof.
    induction evs as [|e evs IH]; intros h acc m Hi Hv; [exists acc, m; exact Hi|]. inversion Hv; subst.
    destruct (ginv_step h acc m e Hi) as (acc' & m' & Hi'); [assumption|]. cbn [hrun fold_left]. eapply IH; eassumption.
  Qed.

  (** ** Nobody gets out of a rejected round *)
  Record stuck (h : hstate C) (m : Z) (T : p2 -> Prop) : Prop := {
    s_inv : exists acc, ginv h acc m /\ (forall g n, 0 <= g < dp -> 0 <= n < nodes -> In (g, n) (map fst acc));
    s_hold : forall t, T t -> exists w, hold (h_phase h t) = Some (m + 1, w)
  }.
  Lemma stuck_step h m T e : stuck h m T -> from_job dp nodes e -> stuck (hstep src h e) m T.
  Proof.
    intros [(acc & Hi & Hfull) Hh] Hv. 
    assert (Hacc : map fst acc <> [] \/ ~ exists g n, 0 <= g < dp /\ 0 <= n < nodes).
    { destruct (Z.le_gt_cases nodes 0); [right; intros (g & n & ? & ?); lia|left]. intros E.
      specialize (Hfull 0 0). rewrite E in Hfull. cbn in Hfull. apply Hfull; lia. }
    assert (Hframe : forall h', ginv h' acc m -> (forall t, hold (h_phase h' t) = hold (h_phase h t)) -> stuck h' m T).
    { intros h' Hg Hp. constructor; [exists acc; auto|]. intros t Ht. rewrite Hp. auto. }
    destruct e as [g n w d|g n st srv wait|g n|g n|id|id].
    - apply Hframe; [apply req_ginv, Hi|reflexivity].
    - destruct Hv as [Hg Hn]. destruct (is_busy (h_phase h (g, n))) eqn:Eb.
      + cbn [hstep]. rewrite Eb. constructor; [exists acc; auto|exact Hh].
      + destruct (report_ginv h acc m g n st srv wait Hi Hg Hn Eb) as (acc' & m' & r & j & H & Hres & Hp & _).
        pose proof (Hfull g n Hg Hn) as Hin.
        assert (acc' = acc /\ m' = m) as [-> ->] by (destruct Hres; try contradiction; auto).
        apply Hframe; [exact H|]. intros t. rewrite Hp. destruct (p2_dec (g, n) t) as [<-|Hne].
        * rewrite pupd_same. rewrite busy_hold in Eb. destruct (hold (h_phase h (g, n))); [discriminate|]. destruct Hres; try contradiction; reflexivity.
        * rewrite pupd_other by exact Hne. reflexivity.
    - cbn [hstep]. destruct (h_phase h (g, n)) eqn:Ep; try (apply Hframe; [exact Hi|reflexivity]);
      (apply Hframe; [eapply ginv_same; [exact Hi|reflexivity|apply same_jobs|apply pupd_hold; left; rewrite Ep; reflexivity]|]);
        cbn [h_phase]; intros t; (destruct (p2_dec (g, n) t) as [<-|Hne]; [rewrite pupd_same, Ep|rewrite pupd_other by exact Hne]); reflexivity.
    - cbn [hstep]. destruct (h_phase h (g, n)) eqn:Ep; try (apply Hframe; [exact Hi|reflexivity]).
      destruct (checkpoint_completed _ _ _ _) as [b|] eqn:Ec.
      + destruct b; [|apply Hframe; [exact Hi|reflexivity]].
        assert (Hg' : ginv (with_phase h (g, n) (HReturned id)) acc m).
        { eapply ginv_same; [exact Hi|reflexivity|apply same_jobs|apply pupd_hold; right; reflexivity]. }
        constructor; [exists acc; auto|]. intros t Ht. cbn. destruct (Hh t Ht) as [w Hw]. exists w.
        destruct (p2_dec (g, n) t) as [<-|Hne]; [|rewrite pupd_other by exact Hne; exact Hw]. exfalso. rewrite Ep in Hw. injection Hw as -> <-.
        unfold checkpoint_completed in Ec. rewrite (k_info _ _ _ _ _ _ (g_ck _ _ _ Hi)) in Ec.
        replace ((m0 + 1 <=? m + 1) && (m + 1 <=? m)) with false in Ec by lia. rewrite Z.eqb_refl in Ec. destruct acc; discriminate.
      + assert (Hg' : ginv (with_phase h (g, n) HRaised) acc m).
        { eapply ginv_same; [exact Hi|reflexivity|apply same_jobs|apply pupd_hold; right; reflexivity]. }
        constructor; [exists acc; auto|]. intros t Ht. cbn. destruct (Hh t Ht) as [w Hw]. exists w.
        destruct (p2_dec (g, n) t) as [<-|Hne]; [|rewrite pupd_other by exact Hne; exact Hw]. exfalso. rewrite Ep in Hw. injection Hw as -> <-.
        unfold checkpoint_completed in Ec. rewrite (k_info _ _ _ _ _ _ (g_ck _ _ _ Hi)) in Ec.
        replace ((m0 + 1 <=? m + 1) && (m + 1 <=? m)) with false in Ec by lia. rewrite Z.eqb_refl in Ec. destruct acc; discriminate.
    - cbn [hstep]. destruct (aget Z.eqb id (h_procs h)) as [p|] eqn:Ep; [|apply Hframe; [exact Hi|reflexivity]].
      destruct (p_killed p); [apply Hframe; [exact Hi|reflexivity]|].
      destruct (persist_step _ _ _) as [pc' k']. apply Hframe; [|reflexivity].
      eapply ginv_same; [exact Hi|reflexivity|eapply aset_jobs; [exact Ep|reflexivity]|auto].
    - cbn [hstep]. destruct (aget Z.eqb id (h_procs h)) as [p|] eqn:Ep; [|apply Hframe; [exact Hi|reflexivity]].
      destruct (p_pc p); (apply Hframe; [|reflexivity]); try exact Hi; (eapply ginv_same; [exact Hi|reflexivity|eapply aset_jobs; [exact Ep|reflexivity]|auto]).
  Qed.
  Lemma stuck_run evs : forall h m T, stuck h m T -> Forall (from_job dp nodes) evs -> stuck (hrun src h evs) m T.
  Proof.
    induction evs as [|e evs IH]; intros h m T Hi Hv; [exact Hi|]. inversion Hv; subst. cbn [hrun fold_left]. apply IH; [|assumption].
    apply stuck_step; assumption.
  Qed.
End Inv.

Lemma begins_inv {C} dp nodes (s : dist C) k f : job_begins dp nodes s k -> exists m, ginv dp nodes m (hstart s k f) [] m /\ 1 <= dp.
Proof.
  intros [(nw & cached & H)|(id & H & Hd & Hn)].
  - exists 0. destruct (init_ck dp nodes _ _ _ H) as (H1 & H2 & _).
    assert (Hp : 1 <= dp) by (unfold dist_init in H; destruct (dp <? 1) eqn:E; [discriminate|lia]).
    split; [|exact Hp]. constructor; cbn; try assumption; try discriminate. intros id. lia.
  - exists (d_ctr s). unfold from_checkpoint in H. destruct (aget Z.eqb id (k_ck k)) as [[a b]|]; [|discriminate].
    destruct a as [| |v]; try discriminate. destruct b as [| |c]; try discriminate. destruct (k_qr k); try discriminate.
    unfold dist_init in H. destruct (v_dp v <? 1) eqn:E; [discriminate|]. injection H as <-. cbn in Hd, Hn. split; [|lia].
    constructor; cbn; try discriminate; try reflexivity.
    + constructor; cbn; try assumption; try reflexivity; try constructor; try (intros ? ? []); try lia.
      intros x. match goal with |- _ = if ?b then _ else _ => replace b with false by lia end. reflexivity.
    + intros x. lia.
Qed.
