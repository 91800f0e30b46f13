(** C16-C20, C53-C55: the chunk distributor. [life] (SpecDistributor) is a job from its start over any number of requests,
    checkpoints and restarts; [D g n w] are the chunks handed to a worker in that time. *)
From Verif Require Import Base MixtureKeyModel UtilsModel ChunkGenModel DistributorModel SpecDistributor DistributorProofs
  DistributorProofs2 DistributorProofs3 DistributorProofs4 DistributorProofs5 DistributorProofs6 DistributorProofs7 DistributorProofs8
  DistributorProofs9 DistributorProofs10.
From Coq Require Import ZifyBool ZifyNat.
Open Scope Z_scope.

(** ** C16: the nodes of a group get the same data. *)
Theorem C16_same_data {C} (src : nat -> qout C) dp nodes nw cached s pend rep D g a b w i x y :
  life src dp nodes nw cached s pend rep D ->
  nth_error (D g a w) i = Some x -> nth_error (D g b w) i = Some y -> x = y.
Proof. apply life_same. Qed.

(** The same for one process, in terms of requests and answers only. *)
Theorem C16_same_data_run {C} (src : nat -> qout C) dp nodes nw cached s0 ops s es g a b w i x y :
  dist_init dp nodes nw cached 0 = Ok s0 -> drun src s0 ops = (s, es) ->
  nth_error (got g a w ops es) i = Some x -> nth_error (got g b w ops es) i = Some y -> x = y.
Proof. apply same_data. Qed.

(** ** C17: groups and workers get disjoint data, and everything taken from the query is handed to somebody. *)
Theorem C17_disjoint {C} (src : nat -> qout C) dp nodes nw cached s pend rep D g n w g' n' w' i j c :
  life src dp nodes nw cached s pend rep D -> distinct_source src ->
  nth_error (D g n w) i = Some c -> nth_error (D g' n' w') j = Some c -> g = g' /\ w = w' /\ i = j.
Proof. apply life_disjoint. Qed.

Theorem C17_all_delivered {C} (src : nat -> qout C) dp nodes nw cached s pend rep D c :
  life src dp nodes nw cached s pend rep D -> In c (taken src (d_calls s)) ->
  exists g n w, valid_slot dp nodes (eff_workers nw) g n w /\ In c (D g n w).
Proof. apply life_delivered. Qed.

(** ** C18: the cache is safe and bounded. *)
(** A node that is behind gets the chunk the others got, without a new call of the query. *)
Theorem C18_lagging_served {C} (src : nat -> qout C) dp nodes nw cached s0 ops s es g a b w deser c :
  dist_init dp nodes nw cached 0 = Ok s0 -> drun src s0 ops = (s, es) ->
  (dp <= 1 /\ nodes <= 1) \/ ~ In Fork ops ->
  0 <= a < nodes -> nth_error (got g b w ops es) (length (got g a w ops es)) = Some c ->
  exists s' k, next_chunk_for src g a w deser s = (s', DChunk (negb deser) c k) /\ d_calls s' = d_calls s.
Proof. apply lagging_served. Qed.

(** A chunk some node of the group has not taken is in memory. *)
Theorem C18_kept {C} (src : nat -> qout C) dp nodes nw cached s0 ops s es g a b w i c :
  dist_init dp nodes nw cached 0 = Ok s0 -> drun src s0 ops = (s, es) -> 0 <= a < nodes ->
  nth_error (got g b w ops es) i = Some c -> (length (got g a w ops es) <= i)%nat ->
  exists k z, In (k, (c, z)) (in_memory s g w).
Proof. apply kept. Qed.

Theorem C18_bounded {C} (src : nat -> qout C) dp nodes nw cached s0 ops s es :
  dist_init dp nodes nw cached 0 = Ok s0 -> drun src s0 ops = (s, es) ->
  (forall g w k, 0 <= w < eff_workers nw ->
     (forall a b, 0 <= a < nodes -> 0 <= b < nodes -> (length (got g a w ops es) <= length (got g b w ops es) + k)%nat) ->
     (length (in_memory s g w) <= k + 1)%nat) /\
  (forall kv, In kv (d_cache s) -> exists g w, 0 <= g < dp /\ 0 <= w < eff_workers nw /\ In kv (in_memory s g w)).
Proof.
  intros Hi Hr. split.
  - intros g w k. eapply memory_bound; eauto.
  - intros kv. eapply memory_all; eauto.
Qed.

(** ** C19: agreement *)
(** [rep]: who reported in this round. A second report has no effect; otherwise a checkpoint is started exactly when
    everyone has reported, the positions agree (and there is something to copy the query result from). *)
Theorem C19_agreement {C} (src : nat -> qout C) dp nodes nw cached s pend rep D g n st srv qd s' r j :
  life src dp nodes nw cached s pend rep D -> 0 <= g < dp -> 0 <= n < nodes ->
  checkpoint g n st srv qd s = (s', r, j) ->
  (In (g, n) (map fst rep) -> s' = s /\ j = None /\ exists e, r = CkErr e) /\
  (~ In (g, n) (map fst rep) -> ~ (dp = 1 /\ nodes = 1 /\ 0 < d_og s /\ srv = false) ->
   let everyone := forall g' n', 0 <= g' < dp -> 0 <= n' < nodes -> (g', n') = (g, n) \/ In (g', n') (map fst rep) in
   let aligned := forall g' a b w, valid_slot dp nodes (eff_workers nw) g' a w -> valid_slot dp nodes (eff_workers nw) g' b w ->
                    position pend D g' a w = position pend D g' b w in
   let no_copy := d_ctr s' = 1 /\ d_cached s = false /\ qd = false in
   (everyone /\ aligned /\ ~ no_copy /\ (exists id jb, r = CkId id /\ j = Some jb /\ j_id jb = id
        /\ forall g' w x, 0 <= w -> aget p2_eqb (g', w) (j_ids jb) = Some x <-> largest_reported (rep ++ [((g, n), st)]) g' w x))
   \/ (everyone /\ (~ aligned \/ no_copy) /\ r = CkErr RuntimeError /\ j = None)
   \/ (~ everyone /\ (exists id, r = CkId id) /\ j = None)).
Proof. apply agreement. Qed.

(** The ids of two answers are equal exactly if no checkpoint was started in between, and they grow with every one. *)
Theorem C19_ids {C} (src : nat -> qout C) dp nodes nw cached s pend rep D ops s' es :
  life src dp nodes nw cached s pend rep D -> Forall (ck_valid dp nodes) ops -> ~ In Fork ops -> drun src s ops = (s', es) ->
  forall i j a b ja jb, nth_error es i = Some (ECk (CkId a) ja) -> nth_error es j = Some (ECk (CkId b) jb) ->
    b - a = started (firstn j es) - started (firstn i es) /\ a > 0.
Proof. apply life_ids. Qed.

(** ** C20: resuming *)
(** [s] is where the checkpoint is taken, [s1] the same process right after it, [s2] the process restored from disk. Whatever
    requests [more] the workers make of [s2]: every worker that had a chunk gets that chunk again as its first one, with the
    largest reported index as samples to skip; without these first answers the answers are those [s1] gives. *)
Theorem C20_resume {C} (src : nat -> qout C) dp nodes nw cached s rep D g n st srv qd s1 id j :
  life src dp nodes nw cached s [] rep D -> 0 <= g < dp -> 0 <= n < nodes ->
  checkpoint g n st srv qd s = (s1, CkId id, Some j) ->
  (forall k st', In (k, st') (rep ++ [((g, n), st)]) -> eff_workers nw <= Z.of_nat (length st')) ->
  exists v, adjusted j = Ok v /\ j_id j = id /\
    forall k, aget Z.eqb id (k_ck k) = Some (Full v, Full (v_calls (j_state j))) -> k_qr k = Full tt ->
    exists s2, from_checkpoint k id = Ok s2 /\
      forall more s2' es2, only_requests dp nodes (eff_workers nw) more -> drun src s2 more = (s2', es2) ->
        let rest := without_first (had_chunk dp nodes (eff_workers nw) D) more es2 in
        (exists s1', drun src s1 (fst rest) = (s1', snd rest))
        /\ forall g' n' w', valid_slot dp nodes (eff_workers nw) g' n' w' ->
           exists x, largest_reported (rep ++ [((g, n), st)]) g' w' x /\
             got_skip g' n' w' more es2
             = (if asked_for (g', n', w') more then map (fun c => (c, x)) (last_of (D g' n' w')) else [])
               ++ got_skip g' n' w' (fst rest) (snd rest).
Proof. apply resume. Qed.

(** The process that writes the checkpoint may be killed after any step: a restore then fails or reads exactly the complete
    checkpoint, and older checkpoints are restored as before. *)
Theorem C20_crash_safe {C} (j : job C) k0 i : amem Z.eqb (j_id j) (k_ck k0) = false ->
  (forall s2, from_checkpoint (snd (persist j i k0)) (j_id j) = Ok s2 ->
     exists v, adjusted j = Ok v /\ k_qr (snd (persist j i k0)) = Full tt
       /\ aget Z.eqb (j_id j) (k_ck (snd (persist j i k0))) = Some (Full v, Full (v_calls (j_state j)))) /\
  (forall id s2, id <> j_id j -> from_checkpoint k0 id = Ok s2 ->
     exists ctr, from_checkpoint (snd (persist j i k0)) id = Ok (with_ck s2 [] [] ctr None [])).
Proof. apply crash_safe. Qed.

(** A restored process never reuses the id of a checkpoint directory, also not of an unfinished one. *)
Theorem C20_fresh_ids {C} (src : nat -> qout C) (k : disk C) id s2 ops s' es :
  from_checkpoint k id = Ok s2 -> Forall (ck_valid (d_dp s2) (d_nodes s2)) ops -> ~ In Fork ops -> drun src s2 ops = (s', es) ->
  forall i id' j, nth_error es i = Some (ECk (CkId id') j) -> ~ In id' (map fst (k_ck k)).
Proof.
  intros Hf Hv Hnf Hr i id' j Hi Hin. pose proof (fresh_ids _ _ _ Hf _ Hin) as Hle.
  assert (H2 : 1 <= d_dp s2 /\ ck_inv (d_dp s2) (d_nodes s2) (d_ctr s2) s2 [] (d_ctr s2) /\ d_forked s2 = false).
  { unfold from_checkpoint in Hf. destruct (aget Z.eqb id (k_ck k)) as [[f q]|]; [|discriminate].
    destruct f as [| |v]; try discriminate. destruct q as [| |calls]; try discriminate.
    destruct (k_qr k) as [| |[]]; try discriminate. unfold dist_init in Hf. destruct (v_dp v <? 1) eqn:Ed; [discriminate|].
    injection Hf as <-. cbn [d_dp d_forked]. split; [lia|]. split; [|reflexivity].
    constructor; cbn; try reflexivity; try (constructor); try (intros ? ? []); try lia.
    intros x. replace (_ && _) with false by lia. reflexivity. }
  destruct H2 as (Hdp & Hck & Hfk).
  destruct (ck_run src _ _ _ Hdp _ _ _ _ _ _ Hck Hfk Hv Hnf Hr) as (_ & _ & _ & _ & Hid).
  rewrite (Hid _ _ _ Hi) in Hle.
  assert (Hst : forall l : list (dev C), 0 <= started l) by (induction l as [|[| ? [|] |] l IH]; cbn [started]; lia).
  specialize (Hst (firstn i es)). lia.
Qed.

(** ** Examples: two groups of two nodes with two workers *)
Definition nsrc (i : nat) : qout nat := if (i <? 100)%nat then QChunk i else QStop.
Definition all_ask (dp nodes nw : Z) : list dop := map (fun t => match t with (g, n, w) => Req g n w true end) (all_slots dp nodes nw).
Definition ex_s0 : dist nat := match dist_init 2 2 2 true 0 with Ok s => s | Err _ => mkDist 0 0 0 0 false 0 [] [] [] [] [] 0 None [] false end.
Definition ex_ops : list dop := all_ask 2 2 2 ++ all_ask 2 2 2 ++ [Ck 0 0 [3; 5] true true; Ck 1 0 [2; 2] true true; Ck 1 1 [4; 1] true true].
Definition ex_run := drun nsrc ex_s0 ex_ops.
Definition ex_s := fst ex_run.
Definition ex_D (g n w : Z) : list nat := got g n w ex_ops (snd ex_run).
Definition ex_rep := round [] ex_ops (snd ex_run).
Definition ex_ck := checkpoint 0 1 [4; 4] true true ex_s.
Definition ex_job : job nat := match snd ex_ck with Some j => j | None => mkJob 0 (mkSaved [] [] [] 0 0 0 0 0) [] false end.
Definition ex_disk : disk nat := snd (persist ex_job 8 (mkDisk Absent [])).
Definition ex_s2 : dist nat := match from_checkpoint ex_disk 1 with Ok s => s | Err _ => ex_s0 end.

Example C16_life : exists D, life nsrc 2 2 2 true ex_s [] ex_rep D /\ D 0 0 0 = [0; 4]%nat /\ D 0 1 0 = [0; 4]%nat
  /\ D 1 1 1 = [3; 7]%nat /\ map fst ex_rep = [(0, 0); (1, 0); (1, 1)] /\ length (d_cache ex_s) = 4%nat.
Proof.
  exists (fun g n w => [] ++ (if existsb (p3_eqb (g, n, w)) [] then tl (got g n w ex_ops (snd ex_run)) else got g n w ex_ops (snd ex_run))).
  split; [|vm_compute; auto].
  apply (life_run nsrc 2 2 2 true ex_s0 [] [] (fun _ _ _ => []) ex_ops ex_s (snd ex_run)).
  - apply life_start. reflexivity.
  - unfold ex_s, ex_run. apply surjective_pairing.
  - apply Forall_forall. intros o H. vm_compute in H. repeat (destruct H as [<-|H]; [vm_compute; intuition congruence|]). destruct H.
  - intros H. vm_compute in H. repeat (destruct H as [H|H]; [discriminate|]). exact H.
Qed.

Example C19_example : fst ex_ck = (fst (fst ex_ck), CkId 1) /\ snd ex_ck = Some ex_job /\ j_id ex_job = 1
  /\ aget p2_eqb (0, 0) (j_ids ex_job) = Some 4 /\ aget p2_eqb (0, 1) (j_ids ex_job) = Some 5
  /\ checkpoint 1 0 [9; 9] true true ex_s = (ex_s, CkErr RuntimeError, None).
Proof. vm_compute. auto 7. Qed.

Example C20_example :
  fst (persist ex_job 8 (mkDisk Absent [])) = PDone /\ from_checkpoint ex_disk 1 = Ok ex_s2
  /\ map (fun i => match from_checkpoint (snd (persist ex_job i (mkDisk Absent []))) 1 with Ok _ => true | Err _ => false end)
         (seq 0 9) = [false; false; false; false; false; false; false; false; true]
  /\ (let more := [Req 0 1 1 true; Req 0 1 1 true; Req 1 0 0 true; Req 0 0 1 true] in
      got_skip 0 1 1 more (snd (drun nsrc ex_s2 more)) = [(5%nat, 5); (8%nat, 0)]
      /\ got_skip 1 0 0 more (snd (drun nsrc ex_s2 more)) = [(6%nat, 4)]
      /\ got_skip 0 0 1 more (snd (drun nsrc ex_s2 more)) = [(5%nat, 5)]).
Proof. vm_compute. auto 7. Qed.

Definition ex_v : saved nat := match adjusted ex_job with Ok v => v | Err _ => mkSaved [] [] [] 0 0 0 0 0 end.
Example C17_example : distinct_source nsrc.
Proof.
  intros i j c. unfold nsrc. destruct (i <? 100)%nat, (j <? 100)%nat; try discriminate. intros [= ->] [= ->]. reflexivity.
Qed.

(** The restart is a case of [life], so the theorems above cover the restored process, and its next checkpoint. *)
Example C20_restart_life : exists D, life nsrc 2 2 2 true ex_s2 (had_chunk 2 2 2 D) [] D /\ length (had_chunk 2 2 2 D) = 8%nat.
Proof.
  destruct C16_life as (D & Hl & _ & _ & _ & _).
  assert (Ec : checkpoint 0 1 [4; 4] true true ex_s = (fst (fst ex_ck), CkId 1, Some ex_job)) by (vm_compute; reflexivity).
  exists D. split.
  - eapply (life_restart nsrc 2 2 2 true ex_s ex_rep D 0 1 [4; 4] true true (fst (fst ex_ck)) 1 ex_job ex_v ex_disk ex_s2).
    + exact Hl.
    + lia.
    + lia.
    + exact Ec.
    + intros x st' H. vm_compute in H. repeat (destruct H as [[= <- <-]|H]; [vm_compute; congruence|]). destruct H.
    + vm_compute. reflexivity.
    + vm_compute. reflexivity.
    + vm_compute. reflexivity.
    + vm_compute. reflexivity.
  - clear -Hl. unfold had_chunk.
    assert (H : forall g n w, In (g, n, w) (all_slots 2 2 2) -> negb (Nat.eqb (length (D g n w)) 0) = true).
    { intros g n w Hin. destruct (Nat.eqb_spec (length (D g n w)) 0) as [E|]; [|reflexivity]. exfalso.
      pose proof (proj1 (life_positions _ _ _ _ _ _ _ _ _ Hl)) as Hpos.
      assert (Hs : same_chunk (d_next ex_s) = true) by (vm_compute; reflexivity). specialize (Hpos Hs).
      destruct (life_inv _ _ _ _ _ _ _ _ _ Hl) as (m0 & B & P & F & m & HL).
      apply in_all_slots in Hin. pose proof (l_D _ _ _ _ _ _ _ _ _ _ _ _ _ HL _ _ _ Hin) as [ED _].
      pose proof (l_inv _ _ _ _ _ _ _ _ _ _ _ _ _ HL) as HI. pose proof (i_core _ _ _ _ _ _ _ _ HI) as Hc.
      pose proof (c_next _ _ _ _ _ _ _ _ _ Hc _ _ _ Hin) as En. pose proof (c_le _ _ _ _ _ _ _ _ _ Hc _ _ _ Hin) as Hle.
      rewrite ED, map_length, firstn_length in E. assert (HP : P g n w = O) by lia. rewrite HP in En.
      destruct Hin as (Hg & Hn & Hw). change (eff_workers 2) with 2 in Hw.
      assert (g = 0 \/ g = 1) as [->| ->] by lia; assert (n = 0 \/ n = 1) as [->| ->] by lia;
        assert (w = 0 \/ w = 1) as [->| ->] by lia; vm_compute in En; discriminate. }
    rewrite (filter_ext_in _ (fun _ => true)).
    + vm_compute. reflexivity.
    + intros [[g n] w] Hin. apply H, Hin.
Qed.

(** ** C53: can a rejected checkpoint be retried? *)
(** No: once everyone has reported and the checkpoint was rejected, no later report is ever accepted, whatever happens. *)
Theorem C53_retry_refuted {C} (src : nat -> qout C) dp nodes nw cached s pend rep D ops s' es :
  life src dp nodes nw cached s pend rep D ->
  (forall g n, 0 <= g < dp -> 0 <= n < nodes -> In (g, n) (map fst rep)) ->
  Forall (ck_valid dp nodes) ops -> ~ In Fork ops -> drun src s ops = (s', es) ->
  forall r j, In (ECk r j) es -> j = None /\ exists e, r = CkErr e.
Proof. apply life_wedged. Qed.

(** It happens: one node is a chunk ahead when both report; later they agree, and still nobody can checkpoint. The second case:
    no cached query. *)
Example C53_example :
  (exists s0, dist_init 1 2 1 true 0 = Ok s0 /\
     let ops := [Req 0 0 0 true; Ck 0 0 [1] true true; Ck 0 1 [0] true true] in
     map fst (round [] ops (snd (drun nsrc s0 ops))) = [(0, 0); (0, 1)]
     /\ match drun nsrc s0 (ops ++ [Req 0 1 0 true; Ck 0 0 [1] true true; Ck 0 1 [1] true true]) with
        | (_, es) => got 0 0 0 (ops ++ [Req 0 1 0 true; Ck 0 0 [1] true true; Ck 0 1 [1] true true]) es
                     = got 0 1 0 (ops ++ [Req 0 1 0 true; Ck 0 0 [1] true true; Ck 0 1 [1] true true]) es
                     /\ nth_error es 4 = Some (ECk (CkErr RuntimeError) None) /\ nth_error es 5 = Some (ECk (CkErr RuntimeError) None)
        end) /\
  (exists s0, dist_init 1 1 0 false 0 = Ok s0 /\
     snd (drun nsrc s0 [Req 0 0 0 true; Ck 0 0 [1] false false; Ck 0 0 [1] false false])
     = [EReq (DChunk false 0%nat 0); ECk (CkErr RuntimeError) None; ECk (CkErr RuntimeError) None]).
Proof. split; eexists; (split; [reflexivity|]); vm_compute; auto. Qed.

(** ** C54: a checkpoint reported as written can be restored *)
(** Proved when no other process of the job is still copying the query result. *)
Theorem C54_restorable_partial {C} (src : nat -> qout C) dp nodes nw cached s rep D g n st srv qd s1 id j k0 i :
  life src dp nodes nw cached s [] rep D -> 0 <= g < dp -> 0 <= n < nodes ->
  checkpoint g n st srv qd s = (s1, CkId id, Some j) ->
  (forall k st', In (k, st') (rep ++ [((g, n), st)]) -> eff_workers nw <= Z.of_nat (length st')) ->
  amem Z.eqb id (k_ck k0) = false -> k_qr k0 <> Partial ->
  (fst (persist j i k0) = PDone -> exists s2, from_checkpoint (snd (persist j i k0)) id = Ok s2) /\
  (k_qr k0 = (if j_copy j then Absent else Full tt) -> fst (persist j 8 k0) = PDone).
Proof.
  intros Hl Hg Hn Hck Hcov Hfr Hq. destruct (resume _ _ _ _ _ _ _ _ _ _ _ _ _ _ _ _ Hl Hg Hn Hck Hcov) as (v & Ha & Hid & Hrest).
  subst id. split.
  - intros Hd. destruct (dinv_persist j k0 i Hfr) as [_ _ _ _ H3 He]. rewrite Hd in H3, He. destruct He as (v' & Ha' & He).
    assert (v' = v) by congruence. subst v'. destruct (Hrest _ He (H3 Hq)) as (s2 & H2 & _). exists s2. exact H2.
  - intros Hk. apply (persist_complete j k0 v Hfr Ha Hk).
Qed.

(** With two checkpoints shortly after each other the second one can be complete while the copy of the query result the first
    one makes is not; if that process dies, no checkpoint can be restored. *)
Definition ex2_jobs : option (job nat * job nat) :=
  match dist_init 1 1 1 true 0 with
  | Err _ => None
  | Ok s0 => match snd (drun nsrc s0 [Req 0 0 0 true; Ck 0 0 [1] true true; Req 0 0 0 true; Ck 0 0 [2] true true]) with
             | [_; ECk _ (Some j1); _; ECk _ (Some j2)] => Some (j1, j2)
             | _ => None
             end
  end.
Theorem C54_overlap_refuted :
  exists j1 j2, ex2_jobs = Some (j1, j2) /\ j_id j1 = 1 /\ j_id j2 = 2 /\
    let k1 := snd (persist j1 1 (mkDisk Absent [])) in
    fst (persist j2 8 k1) = PDone /\ from_checkpoint (snd (persist j2 8 k1)) 2 = Err RuntimeError
    /\ from_checkpoint (snd (persist j2 8 k1)) 1 = Err RuntimeError.
Proof. eexists. eexists. split; [vm_compute; reflexivity|]. vm_compute. auto 6. Qed.

(** ** C55: a restored job can be checkpointed again *)
(** Once its workers have asked for a chunk again: [C20_resume] holds for the states after a restart. Not right after the
    restart: the writing process fails. And not for a local job without loader workers: it is refused. *)
Definition ex_s3 : dist nat * list (dev nat) :=
  drun nsrc ex_s2 [Ck 0 0 [0; 0] true true; Ck 0 1 [0; 0] true true; Ck 1 0 [0; 0] true true; Ck 1 1 [0; 0] true true].
Definition ex_job3 : option (job nat) := match snd ex_s3 with [_; _; _; ECk _ j] => j | _ => None end.
Theorem C55_checkpoint_after_restart_refuted :
  exists j, ex_job3 = Some j /\ j_id j = 2 /\ adjusted j = Err KeyError /\ fst (persist j 8 ex_disk) = PFailed.
Proof. eexists. split; [vm_compute; reflexivity|]. vm_compute. auto. Qed.

Theorem C55_local_job_refuted :
  exists s0 s1 j s2, dist_init 1 1 0 true 0 = Ok s0 /\
    drun nsrc s0 [Req 0 0 0 true; Ck 0 0 [1] false true] = (s1, [EReq (DChunk false 0%nat 0); ECk (CkId 1) (Some j)]) /\
    from_checkpoint (snd (persist j 8 (mkDisk Absent []))) 1 = Ok s2 /\
    snd (drun nsrc s2 [Req 0 0 0 true; Req 0 0 0 true; Ck 0 0 [1] false true])
    = [EReq (DChunk false 0%nat 1); EReq (DChunk false 1%nat 0); ECk (CkErr NotImplementedError) None].
Proof. do 4 eexists. split; [vm_compute; reflexivity|]. split; [vm_compute; reflexivity|]. split; vm_compute; reflexivity. Qed.

Print Assumptions C16_same_data. Print Assumptions C16_same_data_run. Print Assumptions C17_disjoint. Print Assumptions C17_all_delivered.
Print Assumptions C18_lagging_served. Print Assumptions C18_kept. Print Assumptions C18_bounded. Print Assumptions C19_agreement.
Print Assumptions C19_ids. Print Assumptions C20_resume. Print Assumptions C20_crash_safe. Print Assumptions C20_fresh_ids.
Print Assumptions C53_retry_refuted. Print Assumptions C54_restorable_partial. Print Assumptions C54_overlap_refuted.
Print Assumptions C55_checkpoint_after_restart_refuted. Print Assumptions C55_local_job_refuted.
