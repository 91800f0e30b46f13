(** handle_mixtera_checkpoint (C63). *)
From Verif Require Import Base MixtureKeyModel UtilsModel ChunkGenModel DistributorModel SpecDistributor DistributorProofs
  DistributorProofs2 DistributorProofs4 DistributorProofs10 HandleModel SpecHandle HandleProofs HandleProofs2.
From Coq Require Import ZifyBool ZifyNat.
Open Scope Z_scope.

(** ** C63 *)
(** When every node waits for the disk and no writing process is killed: once the call has returned on a node, the
    checkpoint of its id can be restored, with the state of the moment the last node reported; once it has returned on
    node (0, 0), mixtera.id holds this id.  Over any number of checkpoints and in every interleaving. *)
Theorem C63_returned_partial {C} (src : nat -> qout C) dp nodes s k f evs g n id :
  job_begins dp nodes s k -> k_qr k <> Partial -> Forall (from_job dp nodes) evs -> Forall careful evs ->
  let h := hrun src (hstart s k f) evs in
  h_phase h (g, n) = HReturned id ->
  restores h id /\ ((g, n) = (0, 0) -> h_file h = Full id).
Proof.
  intros Hb Hq Hv Hc h Hr. destruct (begins_inv dp nodes s k f Hb) as (m0 & Hg & Hdp).
  destruct (cinv_run src dp nodes m0 Hdp evs _ _ _ (cinv_start dp nodes m0 _ _ _ Hg Hq) Hv Hc) as (acc & m & Hi). fold h in Hi.
  destruct (c_ret _ _ _ _ _ _ Hi _ _ Hr) as (p & Hp & Hpc). split.
  - eapply cinv_restores; eassumption.
  - intros E. rewrite E in Hr. apply (c_file _ _ _ _ _ _ Hi). right. exact Hr.
Qed.

Definition rank (p : pc) : nat :=
  match p with PCopy => 0 | PCopying => 1 | PCheck => 2 | PMkdir => 3 | PState => 4 | PStating => 5 | PQstate => 6 | PQstating => 7 | PDone | PFailed => 8 end.
Lemma rank_step {C} (j : job C) p k : (rank p < 8)%nat -> (rank p < rank (fst (persist_step j p k)))%nat.
Proof.
  destruct p; cbn [rank persist_step]; intros H.
  - destruct (j_copy j); [destruct (k_qr k)|]; cbn; lia.
  - cbn. lia.
  - destruct (k_qr k); cbn; lia.
  - destruct (amem _ _ _); cbn; lia.
  - destruct (adjusted j); cbn; lia.
  - destruct (adjusted j); cbn; lia.
  - destruct (aget _ _ _) as [[? ?]|]; cbn; lia.
  - destruct (aget _ _ _) as [[? ?]|]; cbn; lia.
  - lia.
  - lia.
Qed.
Lemma procs_finish {C} (src : nat -> qout C) id j : forall h p, aget Z.eqb id (h_procs h) = Some p ->
  let h' := hrun src h (repeat (HProc id) j) in
  h_phase h' = h_phase h /\ h_dist h' = h_dist h /\
  exists p', aget Z.eqb id (h_procs h') = Some p' /\ (p_killed p' = true \/ (Nat.min 8 (rank (p_pc p) + j) <= rank (p_pc p'))%nat).
Proof.
  induction j as [|j IH]; intros h p Hp; cbn [repeat hrun fold_left].
  - split; [reflexivity|]. split; [reflexivity|]. exists p. split; [exact Hp|]. right. lia.
  - set (h1 := hstep src h (HProc id)).
    assert (H1 : exists p1, aget Z.eqb id (h_procs h1) = Some p1 /\ h_phase h1 = h_phase h /\ h_dist h1 = h_dist h
              /\ (p_killed p1 = true /\ p1 = p \/ (rank (p_pc p) < rank (p_pc p1))%nat \/ (8 <= rank (p_pc p1))%nat)).
    { unfold h1. cbn [hstep]. rewrite Hp. destruct (p_killed p) eqn:Ek; [exists p; repeat split; auto|].
      pose proof (rank_step (p_job p) (p_pc p) (h_disk h)) as Hrk.
      destruct (persist_step _ _ _) as [pc' k'] eqn:Es. cbn [fst] in Hrk. exists (mkProc (p_job p) pc' false). cbn [h_procs h_phase h_dist]. rewrite (aget_aset_same _ Z.eqb_eq).
      split; [reflexivity|]. split; [reflexivity|]. split; [reflexivity|]. right. cbn [p_pc].
      destruct (Nat.lt_ge_cases (rank (p_pc p)) 8) as [Hlt|Hge]; [left; apply Hrk, Hlt|right].
      destruct (p_pc p); cbn in Hge, Es; try lia; injection Es as <- <-; cbn; lia. }
    clearbody h1. destruct H1 as (p1 & Hp1 & E1 & E2 & Hcase). destruct (IH h1 p1 Hp1) as (E3 & E4 & p' & Hp' & Hrest).
    change (fold_left (hstep src) (repeat (HProc id) j) h1) with (hrun src h1 (repeat (HProc id) j)).
    rewrite E3, E4. split; [exact E1|]. split; [exact E2|]. exists p'. split; [exact Hp'|].
    destruct Hrest as [H|H]; [left; exact H|]. destruct Hcase as [(Hk & ->)|[Hlt|Hge]]; [|right; lia|right; lia].
    left. clear - Hp1 Hp' Hk.
    assert (Hst : forall i h, aget Z.eqb id (h_procs h) = Some p -> aget Z.eqb id (h_procs (hrun src h (repeat (HProc id) i))) = Some p).
    { induction i as [|i IHj]; intros h H; [exact H|]. cbn [repeat hrun fold_left]. apply IHj. cbn [hstep]. rewrite H, Hk. exact H. }
    rewrite (Hst j h1 Hp1) in Hp'. congruence.
Qed.

(** Whatever has happened (kills included): if the checkpoint a node polls for has been started, the wait ends as soon as
    the writing process has ended, by returning or, when the node waits for the disk, by an exception. *)
Theorem C63_wait_ends {C} (src : nat -> qout C) dp nodes s k f evs g n id wait :
  job_begins dp nodes s k -> Forall (from_job dp nodes) evs ->
  let h := hrun src (hstart s k f) evs in
  h_phase h (g, n) = HWait id wait -> aget Z.eqb id (h_procs h) <> None ->
  let h' := hrun src h (repeat (HProc id) 8 ++ [HPoll g n]) in
  h_phase h' (g, n) = HReturned id \/ (h_phase h' (g, n) = HRaised /\ wait = true).
Proof.
  intros Hb Hv h Hp Hex. cbv zeta. destruct (begins_inv dp nodes s k f Hb) as (m0 & Hg & Hdp).
  destruct (ginv_run src dp nodes m0 Hdp evs _ _ _ Hg Hv) as (acc & m & Hi). fold h in Hi. clearbody h.
  destruct (aget Z.eqb id (h_procs h)) as [p|] eqn:Ep; [|congruence].
  destruct (g_procs _ _ _ _ _ _ Hi _ _ Ep) as (Hb' & _).
  destruct (procs_finish src id 8 h p Ep) as (E1 & E2 & p' & Hp' & Hfin).
  assert (Happ : hrun src h (repeat (HProc id) 8 ++ [HPoll g n]) = hstep src (hrun src h (repeat (HProc id) 8)) (HPoll g n)) by (unfold hrun; rewrite fold_left_app; reflexivity).
  rewrite Happ. clear Happ.
  set (h8 := hrun src h (repeat (HProc id) 8)) in *. clearbody h8. cbn [hstep]. rewrite E1, Hp.
  unfold checkpoint_completed. rewrite E2, (k_info _ _ _ _ _ _ (g_ck _ _ _ _ _ _ Hi)).
  replace ((m0 + 1 <=? id) && (id <=? m)) with true by lia.
  destruct wait; cbn [negb].
  - unfold proc_state. rewrite Hp'. destruct (p_killed p'); [change (-9 =? 0) with false; cbn [with_phase h_phase]; rewrite pupd_same; auto|]. destruct Hfin as [|Hfin]; [discriminate|].
    destruct (p_pc p'); cbn [rank] in Hfin; try lia; change (0 =? 0) with true; change (1 =? 0) with false; cbn [with_phase h_phase]; rewrite pupd_same; auto.
  - cbn [with_phase h_phase]. rewrite pupd_same. auto.
Qed.

(** ** Where it fails *)
(** Every other node waits for a checkpoint that has not been started; the last report raises.  Then the others never
    return and never raise, whatever happens afterwards. *)
Theorem C63_stuck_refuted {C} (src : nat -> qout C) dp nodes s k f evs g n st srv wait id :
  job_begins dp nodes s k -> Forall (from_job dp nodes) evs -> 0 <= g < dp -> 0 <= n < nodes ->
  let h := hrun src (hstart s k f) evs in
  let h' := hstep src h (HReport g n st srv wait) in
  is_busy (h_phase h (g, n)) = false -> h_phase h' (g, n) = HRaised -> aget Z.eqb id (h_procs h) = None ->
  (forall a b, 0 <= a < dp -> 0 <= b < nodes -> (a, b) <> (g, n) -> holds (h_phase h (a, b)) id) ->
  forall evs', Forall (from_job dp nodes) evs' ->
  forall a b, 0 <= a < dp -> 0 <= b < nodes -> (a, b) <> (g, n) -> holds (h_phase (hrun src h' evs') (a, b)) id.
Proof.
  intros Hb Hv Hgv Hnv h h' Hbusy Hraise Hno Hoth evs' Hv' a b Hav Hbv Hne.
  destruct (begins_inv dp nodes s k f Hb) as (m0 & Hg & Hdp).
  destruct (ginv_run src dp nodes m0 Hdp evs _ _ _ Hg Hv) as (acc & m & Hi). fold h in Hi. clearbody h.
  assert (Hin : forall x y, 0 <= x < dp -> 0 <= y < nodes -> (x, y) <> (g, n) -> id = m + 1 /\ In (x, y) (map fst acc)).
  { intros x y Hx Hy Hxy. destruct (proj1 (holds_hold _ _) (Hoth x y Hx Hy Hxy)) as [w Hw].
    destruct (g_hold _ _ _ _ _ _ Hi _ _ _ Hw) as [H1 [H2|H2]]; [|exact H2]. exfalso. apply (g_all _ _ _ _ _ _ Hi id); [lia|exact Hno]. }
  destruct (report_ginv src dp nodes m0 Hdp h acc m g n st srv wait Hi Hgv Hnv Hbusy) as (acc' & m' & r & j & Hi' & Hres & Eph & _).
  fold h' in Hi', Hres, Eph.
  assert (Hcase : m' = m /\ forall x y, 0 <= x < dp -> 0 <= y < nodes -> In (x, y) (map fst acc')).
  { destruct (Hin a b Hav Hbv Hne) as [-> Hab]. rewrite Eph, pupd_same in Hraise.
    destruct Hres as [Hd Hnn| |Hag|s' Hni Hlt|s' Hni Heq Hbad|s' Hni Heq Hsame Hok].
    - exfalso. apply Hne. f_equal; lia.
    - rewrite (g_fork _ _ _ _ _ _ Hi) in H. discriminate.
    - split; [reflexivity|]. intros x y Hx Hy. destruct (p2_dec (x, y) (g, n)) as [->|E]; [exact Hag|apply Hin; assumption].
    - destruct (_ && _); discriminate.
    - split; [reflexivity|]. intros x y Hx Hy. rewrite map_app, in_app_iff. cbn.
      destruct (p2_dec (x, y) (g, n)) as [->|E]; [auto|left; apply Hin; assumption].
    - destruct (_ && _); discriminate. }
  destruct Hcase as [-> Hfull].
  assert (Hst : stuck dp nodes m0 h' m (fun t => t = (a, b))).
  { constructor; [exists acc'; auto|]. intros t ->. rewrite Eph, pupd_other by congruence.
    destruct (Hin a b Hav Hbv Hne) as [-> _]. apply holds_hold, Hoth; assumption. }
  destruct (s_hold _ _ _ _ _ _ (stuck_run src dp nodes m0 Hdp evs' _ _ _ Hst Hv') (a, b) eq_refl) as [w Hw].
  destruct (Hin a b Hav Hbv Hne) as [-> _]. apply holds_hold. exists w. exact Hw.
Qed.

Section Examples.
  Definition h_src (i : nat) : qout Z := QChunk (Z.of_nat i).
  Definition begin1 (nodes : Z) : hstate Z :=
    match dist_init 1 nodes 1 true 0 with Ok s => hstart s (mkDisk Absent []) Absent | Err _ => hstart (mkDist 0 0 0 0 false 0 [] [] [] [] [] 0 None [] false) (mkDisk Absent []) Absent end.
  Lemma begin1_ok nodes : exists s, job_begins 1 nodes s (mkDisk Absent []) /\ begin1 nodes = hstart s (mkDisk Absent []) Absent.
  Proof. eexists. split; [left; exists 1, true; reflexivity|reflexivity]. Qed.
  (** One whole call of the only node: report, write the file, let the process end, poll. *)
  Definition call1 (id : Z) (wait : bool) : list hev :=
    [HReq 0 0 0 true; HReport 0 0 [1] true wait; HFile 0 0; HFile 0 0] ++ repeat (HProc id) 8 ++ [HPoll 0 0].
  Definition ok {A} (r : res A) : bool := match r with Ok _ => true | Err _ => false end.

  (** mixtera.id is overwritten before the checkpoint it names exists: if the job dies then (here the writing process; the
      file is emptied even earlier), the old checkpoint is complete on disk, the file names one that cannot be restored. *)
  Theorem C63_file_first_refuted : exists s k evs,
    job_begins 1 1 s k /\ Forall (from_job 1 1) evs /\
    let h := hrun h_src (hstart s k Absent) evs in
    let h1 := hrun h_src h (call1 1 true) in
    let h2 := hrun h_src h1 [HReq 0 0 0 true; HReport 0 0 [1] true true; HFile 0 0] in
    let h3 := hrun h_src h2 [HFile 0 0; HProc 2; HKill 2] in
    h_phase h1 (0, 0) = HReturned 1 /\ h_file h1 = Full 1 /\ ok (from_checkpoint (h_disk h1) 1) = true
    /\ h_file h2 = Partial /\ h_file h3 = Full 2
    /\ ok (from_checkpoint (h_disk h3) 1) = true /\ from_checkpoint (h_disk h3) 2 = Err RuntimeError.
  Proof.
    destruct (begin1_ok 1) as (s & Hb & E). exists s, (mkDisk Absent []), []. split; [exact Hb|]. split; [constructor|].
    cbn [hrun fold_left]. rewrite <- E. vm_compute. auto 10.
  Qed.

  (** Without waiting for the disk the call returns although the checkpoint is never written. *)
  Theorem C63_no_wait_refuted : exists s k,
    job_begins 1 1 s k /\
    let h := hrun h_src (hstart s k Absent) [HReq 0 0 0 true; HReport 0 0 [1] true false; HFile 0 0; HFile 0 0; HKill 1; HPoll 0 0] in
    h_phase h (0, 0) = HReturned 1 /\ h_file h = Full 1 /\ from_checkpoint (h_disk h) 1 = Err RuntimeError.
  Proof.
    destruct (begin1_ok 1) as (s & Hb & E). exists s, (mkDisk Absent []). split; [exact Hb|]. rewrite <- E. vm_compute. auto.
  Qed.

  (** A first checkpoint killed while it copies the query result spoils every later one: the call returns, also when
      waiting for the disk, and the checkpoint cannot be restored. *)
  Theorem C63_killed_copy_refuted : exists s k,
    job_begins 1 1 s k /\
    let h1 := hrun h_src (hstart s k Absent) [HReq 0 0 0 true; HReport 0 0 [1] true true; HFile 0 0; HFile 0 0; HProc 1; HKill 1; HPoll 0 0] in
    let h2 := hrun h_src h1 (call1 2 true) in
    h_phase h1 (0, 0) = HRaised /\ h_phase h2 (0, 0) = HReturned 2 /\ h_file h2 = Full 2
    /\ from_checkpoint (h_disk h2) 2 = Err RuntimeError.
  Proof.
    destruct (begin1_ok 1) as (s & Hb & E). exists s, (mkDisk Absent []). split; [exact Hb|]. rewrite <- E. vm_compute. auto.
  Qed.

  (** The hypotheses of [C63_returned_partial] and [C63_wait_ends] are met: two nodes, two checkpoints. *)
  Definition two_nodes : list hev :=
    [HReq 0 0 0 true; HReq 0 1 0 true; HReport 0 1 [1] true true; HPoll 0 1; HReport 0 0 [2] true true; HFile 0 0; HProc 1; HFile 0 0]
    ++ repeat (HProc 1) 8 ++ [HPoll 0 1; HPoll 0 0; HReq 0 1 0 true; HReq 0 0 0 true; HReport 0 0 [0] true true; HFile 0 0; HFile 0 0; HReport 0 1 [0] true true].
  Example C63_returned_example : exists s, job_begins 1 2 s (mkDisk Absent []) /\ k_qr (mkDisk (C := Z) Absent []) <> Partial /\
    Forall (from_job 1 2) two_nodes /\ Forall careful two_nodes /\
    let h := hrun h_src (hstart s (mkDisk Absent []) Absent) two_nodes in
    h_phase h (0, 1) = HWait 2 true /\ aget Z.eqb 2 (h_procs h) <> None
    /\ h_phase (hrun h_src h (repeat (HProc 2) 8 ++ [HPoll 0 0])) (0, 0) = HReturned 2.
  Proof.
    destruct (begin1_ok 2) as (s & Hb & E). exists s. split; [exact Hb|]. split; [vm_compute; discriminate|]. split.
    { repeat (constructor; [cbn; lia || exact I|]). constructor. }
    split. { repeat (constructor; [cbn; lia || exact I || reflexivity|]). constructor. }
    rewrite <- E. vm_compute. repeat split; discriminate.
  Qed.
  (** A round that is rejected: node (0, 1) is a chunk ahead, node (0, 0) waits. *)
  Example C63_stuck_example : exists s, job_begins 1 2 s (mkDisk Absent []) /\
    let h := hrun h_src (hstart s (mkDisk Absent []) Absent) [HReq 0 1 0 true; HReport 0 0 [0] true true; HFile 0 0; HFile 0 0] in
    is_busy (h_phase h (0, 1)) = false /\ h_phase (hstep h_src h (HReport 0 1 [0] true true)) (0, 1) = HRaised
    /\ aget Z.eqb 1 (h_procs h) = None /\ h_phase h (0, 0) = HWait 1 true.
  Proof. destruct (begin1_ok 2) as (s & Hb & E). exists s. split; [exact Hb|]. rewrite <- E. vm_compute. auto. Qed.
End Examples.
Print Assumptions C63_returned_partial. Print Assumptions C63_wait_ends. Print Assumptions C63_stuck_refuted.
Print Assumptions C63_file_first_refuted. Print Assumptions C63_no_wait_refuted. Print Assumptions C63_killed_copy_refuted.
