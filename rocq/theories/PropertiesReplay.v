(** C11: saving and loading a QueryResult.  Model: ReplayModel.v. *)
From Verif Require Import Base MixtureKeyModel MixtureKeyProofs UtilsModel UtilsProofs ChunkGenModel SpecChunk ConcurrentModel ReplayModel
  ChunkGenProofs1 ChunkGenProofs2 ChunkGenProofs3 ChunkGenProofs4 ChunkGenProofs5 ChunkGenProofs6 ChunkGenProofs10 ChunkGenProofs11
  ReplayProofs PropertiesChunk.
From Coq Require Import ZifyBool ZifyNat.
Open Scope Z_scope.

(** Consecutive requests with the same row numbers have the same strictness and chunk size. *)
Definition consistent (ms : list mixobj) : Prop :=
  forall i m m', nth_error ms i = Some m -> nth_error ms (S i) = Some m' -> same_dict (m_rows m) (m_rows m') -> m = m'.

Lemma consistent_steady ms : forall p, (forall m, nth_error ms 0 = Some m -> forall p', p = Some p' -> same_dict (m_rows p') (m_rows m) -> p' = m) ->
  consistent ms -> steady p ms.
Proof.
  induction ms as [|m ms IH]; intros p Hp H; [exact I|]. cbn [steady]. split.
  - intros p' E Hs. eapply Hp; eauto.
  - apply IH.
    + intros m' Hm' p' [= <-] Hs. eapply (H 0%nat); eauto.
    + intros i a b Ha Hb. apply (H (S i)); assumption.
Qed.

Lemma working_nodup ops : forall os inst held, Forall (fun o => heap_ok (op_heap o)) ops ->
  Forall (fun m => NoDup (map fst (m_rows m))) (working ops os inst held).
Proof.
  induction ops as [|[h|h r] ops IH]; intros os inst held H; cbn [working].
  - constructor.
  - destruct os as [|o os]; [constructor|]. inversion H as [|? ? H1 H2]; subst. cbn in H1. constructor; [apply H1|apply IH, H2].
  - inversion H as [|? ? H1 H2]; subst. destruct os; apply IH, H2.
Qed.

(** A query that delivered n chunks (whatever mixtures were installed in between) is saved and loaded.  Loading
    succeeds; the loaded query has the same position, key ids and mixture log; its mixture is the one last used; and
    for every future of the original that installs a mixture, it gives exactly the results the original gives.
    Partial: the history has no failed call, requests with equal row numbers are equal ([consistent]), and an
    arbitrary mixture object keeps its contents until saving.  Each is necessary: see the refutations below. *)
Theorem C11_resume_partial : forall F idx order h0 r0 son ops q os hs,
  heap_ok h0 -> Forall (fun o => heap_ok (op_heap o)) ops ->
  qrun (S F) ops (qr_init idx order h0 r0 son) = (q, os) -> Forall is_chunk os ->
  consistent (working ops os r0 None) ->
  Forall (fun o => match o with Next h => forall r, m_rows (h r) = [] -> hs r = h r | Update _ _ => True end) ops ->
  exists q', from_cache (S F) (to_cache hs q) = Loaded q'
    /\ q_count q' = q_count q /\ q_count q = Z.of_nat (length os) /\ q_nret q' = q_nret q /\ s_kid (q_self q') = s_kid (q_self q)
    /\ resolved hs q' = resolved hs q
    /\ load_heap (to_cache hs q) (s_mix (q_self q')) = last (working ops os r0 None) (hs (s_mix (q_self q)))
    /\ forall fuel h r ops2, snd (qrun fuel (Update h r :: ops2) q') = snd (qrun fuel (Update h r :: ops2) q).
Proof.
  intros F idx order h0 r0 son ops q os hs Hh0 Hh Hrun Hall Hcons Hfz.
  set (q0 := qr_init idx order h0 r0 son) in *. set (g0 := match gen_init idx order with GChunk g => g | _ => mkG [] [] 0 0 0 [] None 0 0 0 end).
  assert (Hr0 : ready idx order r0 q0 g0) by (constructor; reflexivity).
  assert (Hst : steady None (working ops os r0 None)) by (apply consistent_steady; [discriminate|exact Hcons]).
  destruct (history F idx order hs ops q0 g0 r0 q os None Hr0) as (g & r & I1 & I2 & I3 & I4 & I5 & I6 & I7 & I8 & I9 & I10); auto.
  { cbn. auto. } { cbn. lia. } { cbn. auto. } { apply kidinv_init. }
  change (q_nret q0) with 0 in I4. change (q_count q0) with 0 in I5. change (resolved hs q0) with (@nil (Z * mixobj)) in I3.
  change (g_cur g0) with 0 in I3. cbn [app] in I3.
  pose proof (working_nodup ops os r0 None Hh) as Hnd.
  set (ms := working ops os r0 None) in *.
  assert (Hidx : q_idx q = idx) by apply (rd_idx _ _ _ _ _ I1). assert (Hord : q_order q = order) by apply (rd_order _ _ _ _ _ I1).
  unfold from_cache. cbn [sv_nret to_cache sv_idx sv_order sv_log sv_kid sv_son sv_mix].
  fold (resolved hs q). rewrite Hidx, Hord.
  assert (Hres : forall qq, s_log (q_self qq) = map (fun e => (fst e, LSnap (snd e))) (resolved hs q) -> resolved hs qq = resolved hs q).
  { intros qq E. unfold resolved at 1. rewrite E, map_map. cbn. rewrite map_ext with (g := fun x => x); [apply map_id|]. intros [a b]; reflexivity. }
  destruct (0 <? q_nret q) eqn:En.
  - destruct ms as [|m ms'] eqn:Ems; [cbn in I6; lia|]. rewrite <- Ems in *.
    assert (EL : resolved hs q = (0, m) :: log_of 1 (Some m) ms') by (rewrite I3, Ems; reflexivity).
    unfold replay. rewrite EL. rewrite <- EL.
    set (sv := {| sv_idx := idx; sv_order := order; sv_log := resolved hs q; sv_kid := s_kid (q_self q); sv_mix := hs (s_mix (q_self q));
                  sv_nret := q_nret q; sv_son := q_son q |}).
    assert (Esv : to_cache hs q = sv) by (unfold to_cache, sv; rewrite Hidx, Hord; reflexivity).
    set (q1 := mkQR idx order (mkSelf (map (fun e => (fst e, LSnap (snd e))) (resolved hs q)) (s_kid (q_self q)) (-1) false) 0 None 0 (q_son q)).
    set (q2 := qr_update_mixture (load_heap sv) 0 (set_replay true q1)).
    assert (H0m : load_heap sv 0 = m) by (unfold load_heap; cbn [sv_log sv]; rewrite EL; reflexivity).
    assert (Hkm : incl (map fst (m_rows m)) (map fst (q_kid q))).
    { clear - I2 Ems. rewrite Ems in I2. inversion I2; assumption. }
    assert (Hrep : exists q' g' r', replay_loop (S F) (load_heap sv) (resolved hs q) 1 0 (length ms) q2 = Loaded q' /\ ready idx order r' q' g' /\ gsim g g'
      /\ load_heap sv r' = last ms m /\ s_kid (q_self q') = s_kid (q_self q) /\ s_log (q_self q') = s_log (q_self q2) /\ s_replay (q_self q') = true
      /\ q_count q' = q_count q2 + Z.of_nat (length ms) /\ q_nret q' = q_nret q2 + Z.of_nat (length ms) /\ q_son q' = q_son q2).
    { apply (replay_loop_ok F idx order (load_heap sv) (resolved hs q) (s_kid (q_self q))) with (g := g0) (r := 0) (p := m).
      - intros j e He. unfold load_heap. cbn [sv_log sv]. replace (Z.of_nat j <? 0) with false by lia. rewrite Nat2Z.id, He. destruct e; reflexivity.
      - apply (ki_cover _ _ I7).
      - constructor; reflexivity.
      - reflexivity.
      - exact I2.
      - exact H0m.
      - rewrite EL. cbn [skipn]. rewrite Ems. cbn [log_of]. rewrite dict_eqb_refl; [reflexivity|]. rewrite Ems in Hnd. inversion Hnd; assumption.
      - rewrite Ems in *. cbn [steady] in *. split; [intros p [= <-] _; reflexivity|apply Hst].
      - constructor; [rewrite Ems in Hnd; inversion Hnd; assumption|exact Hnd].
      - cbn. rewrite H0m. apply update_kid_id; [exact Hkm|apply (ki_cover _ _ I7)].
      - reflexivity. }
    destruct Hrep as (q' & g' & r' & L1 & L2 & L3 & L4 & L5 & L6 & L7 & L8 & L9 & L10).
    replace (Z.to_nat (q_nret q)) with (length ms) by (rewrite I4, I6; lia). rewrite Esv. fold q2. rewrite L1.
    change (q_count q2) with 0 in L8. change (q_nret q2) with 0 in L9.
    replace ((q_nret q' =? q_nret q) && (q_count q' =? q_nret q)) with true by lia.
    exists (set_replay false q'). split; [reflexivity|]. cbn [set_replay q_count q_nret q_self s_kid s_mix].
    split; [lia|]. split; [lia|]. split; [lia|]. split; [exact L5|]. split; [apply Hres; cbn [set_replay q_self s_log]; rewrite L6; reflexivity|].
    split.
    { rewrite (rd_mix _ _ _ _ _ L2), L4, Ems. rewrite !last_cons. reflexivity. }
    intros fuel h r2 ops2. cbn [qrun]. apply (qsim_run idx order). destruct I1 as [A1 A2 A3 A4 A5 A6]. destruct L2 as [C1 C2 C3 C4 C5 C6].
    constructor; cbn; auto; [|lia|]. 
    + constructor; cbn; [|reflexivity]. rewrite C4, A4, L5. reflexivity.
    + change (qgen idx order (qr_update_mixture h r2 (set_replay false q'))) with (qgen idx order q').
      change (qgen idx order (qr_update_mixture h r2 q)) with (qgen idx order q). rewrite C1, A1. apply gsim_sym, L3.
  - assert (Hos : os = []) by (destruct os; [reflexivity|cbn in I4; lia]). subst os.
    assert (Hms : ms = []) by (destruct ms; [reflexivity|discriminate]). rewrite Hms in *.
    eexists. split; [reflexivity|]. cbn [q_count q_nret q_self s_kid]. cbn in I4, I5. split; [lia|]. split; [cbn; lia|]. split; [lia|]. split; [reflexivity|].
    split; [apply Hres; reflexivity|]. split; [reflexivity|].
    intros fuel h r2 ops2. cbn [qrun]. apply (qsim_run idx order). destruct I1 as [A1 A2 A3 A4 A5 A6].
    assert (Hg : gsim g0 g) by (inversion I2; assumption).
    constructor; cbn; auto.
    + constructor; cbn; rewrite ?A4; reflexivity.
    + change (qgen idx order (qr_update_mixture h r2 q)) with (qgen idx order q). rewrite A1. exact Hg.
Qed.
Print Assumptions C11_resume_partial.
(** A saved history with three different mixtures; the loaded query delivers a fourth chunk, as the original would. *)
Example C11_example : exists q c1 c2 c3 q' c4,
  qrun 20 [Next heap_ex; Update heap_ex 1; Next heap_ex; Update heap_ex 2; Next heap_ex] (qr_init idx_ex order_ex heap_ex 0 false)
    = (q, [NChunk c1; NChunk c2; NChunk c3])
  /\ working [Next heap_ex; Update heap_ex 1; Next heap_ex; Update heap_ex 2; Next heap_ex] [NChunk c1; NChunk c2; NChunk c3] 0 None
     = [heap_ex 0; heap_ex 1; heap_ex 2]
  /\ consistent [heap_ex 0; heap_ex 1; heap_ex 2]
  /\ from_cache 20 (to_cache heap_ex q) = Loaded q'
  /\ snd (qrun 20 [Update heap_ex 2; Next heap_ex] q') = [NChunk c4] /\ snd (qrun 20 [Update heap_ex 2; Next heap_ex] q) = [NChunk c4].
Proof.
  do 6 eexists. split; [vm_compute; reflexivity|]. split; [vm_compute; reflexivity|]. split.
  { intros i m m' H1 H2 Hs. destruct i as [|[|[|i]]]; cbn in H1, H2; try discriminate; injection H1 as <-; injection H2 as <-.
    - exfalso. specialize (Hs ka). vm_compute in Hs. discriminate.
    - exfalso. specialize (Hs kb). vm_compute in Hs. discriminate. }
  split; [vm_compute; reflexivity|]. split; vm_compute; reflexivity.
Qed.

(** Not for histories with a failed call: a query saved after one failed [next()] cannot be loaded at all. *)
Theorem C11_failed_call_refuted : exists q c1 c2 c3,
  index_ok idx_ex /\ heap_ok heap_ex
  /\ qrun 20 (repeat (Next heap_ex) 4) (qr_init idx_ex order_ex heap_ex 0 false) = (q, [NChunk c1; NChunk c2; NChunk c3; NNone])
  /\ from_cache 20 (to_cache heap_ex q) = LoadAssertionError.
Proof.
  do 4 eexists. split; [apply idx_ex_ok|]. split; [apply heap_ex_ok|]. split; vm_compute; reflexivity.
Qed.
Print Assumptions C11_failed_call_refuted.

(** Not if only the chunk size changes: arbitrary mixture with chunk size 3, then 1.  The loaded query has skipped
    rows the original has not delivered: its next chunk differs. *)
Definition heap_cs : heap := fun r => mkMix [] true (if r =? 0 then 3 else 1).
Theorem C11_chunk_size_refuted : exists q c1 c2 q' c3 c4 c4',
  index_ok idx_ex /\ heap_ok heap_cs
  /\ qrun 20 [Next heap_cs; Update heap_cs 1; Next heap_cs] (qr_init idx_ex order_ex heap_cs 0 false) = (q, [NChunk c1; NChunk c2])
  /\ from_cache 20 (to_cache heap_cs q) = Loaded q'
  /\ snd (qrun 20 [Update heap_cs 1; Next heap_cs; Next heap_cs] q) = [NChunk c3; NChunk c4]
  /\ snd (qrun 20 [Update heap_cs 1; Next heap_cs; Next heap_cs] q') = [NChunk c3; NChunk c4']
  /\ all_rows (rc_index c4) = [(0, 0, 6)] /\ all_rows (rc_index c4') = [(2, 4, 1)].
Proof.
  do 7 eexists. split; [apply idx_ex_ok|]. split.
  { intros r. unfold heap_cs. cbn. split; [split; constructor|]. destruct (r =? 0); lia. }
  repeat (split; [vm_compute; reflexivity|]). vm_compute; reflexivity.
Qed.
Print Assumptions C11_chunk_size_refuted.

(** Not if an arbitrary mixture object changes its contents later (a schedule moving from an arbitrary to a static
    entry): the log holds the object itself, so the first chunk is replayed with the later rows.  The two queries
    then go on at different places. *)
Definition heap_ev1 : heap := fun _ => mkMix [] true 3.
Definition heap_ev2 : heap := fun _ => mkMix [(ka, 1); (kb, 1)] true 2.
Theorem C11_schedule_refuted : exists q c1 c2 q' c3 c3',
  index_ok idx_ex /\ heap_ok heap_ev1 /\ heap_ok heap_ev2
  /\ qrun 20 [Next heap_ev1; Next heap_ev2] (qr_init idx_ex order_ex heap_ev1 0 false) = (q, [NChunk c1; NChunk c2])
  /\ from_cache 20 (to_cache heap_ev2 q) = Loaded q'
  /\ snd (qrun 20 [Update heap_ev2 0; Next heap_ev2] q) = [NChunk c3]
  /\ snd (qrun 20 [Update heap_ev2 0; Next heap_ev2] q') = [NChunk c3']
  /\ all_rows (rc_index c3) = [(0, 0, 4); (0, 0, 6)] /\ all_rows (rc_index c3') = [(0, 0, 2); (2, 4, 0)].
Proof.
  do 6 eexists. split; [apply idx_ex_ok|]. split.
  { intros r. cbn. split; [split; constructor|]. lia. }
  split. { intros r. cbn. (split; [split|]); crush_nd; repeat (apply Forall_cons || apply Forall_nil); cbn; lia. }
  repeat (split; [vm_compute; reflexivity|]). vm_compute; reflexivity.
Qed.
Print Assumptions C11_schedule_refuted.
