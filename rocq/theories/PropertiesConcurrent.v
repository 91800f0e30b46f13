(** C12: processes that forked a QueryResult.  Model: ConcurrentModel.v, vocabulary: SpecChunk.v. *)
From Verif Require Import Base MixtureKeyModel MixtureKeyProofs UtilsModel UtilsProofs ChunkGenModel SpecChunk ConcurrentModel
  ChunkGenProofs1 ChunkGenProofs2 ChunkGenProofs3 ChunkGenProofs4 ChunkGenProofs5 ChunkGenProofs6 ChunkGenProofs10 ChunkGenProofs11
  PropertiesChunk.
From Coq Require Import ZifyBool ZifyNat.
Open Scope Z_scope.

Lemma ready_update idx order r q g h r' : ready idx order r q g -> ready idx order r' (qr_update_mixture h r' q) g.
Proof. intros [R1 R2 R3 R4 R5 R6]. constructor; cbn; auto. Qed.

Lemma ready_run idx order F ops : forall q g r q' os, ready idx order r q g -> qrun (S F) ops q = (q', os) -> Forall is_chunk os ->
  exists g' r', ready idx order r' q' g'.
Proof.
  induction ops as [|[h|h r1] ops IH]; intros q g r q' os Hr H Ho; cbn [qrun] in H.
  - injection H as <- <-. eauto.
  - destruct (qr_next (S F) h q) as [q1 o] eqn:E. destruct (qrun (S F) ops q1) as [q2 os2] eqn:E2. injection H as <- <-.
    inversion Ho as [|? ? Ho1 Ho2]; subst. destruct o; try destruct Ho1.
    destruct (ready_next _ _ _ _ _ _ _ _ _ Hr E) as (g1 & R1 & _). eapply IH; eauto.
  - eapply IH; [|exact H|exact Ho]. eapply ready_update; eassumption.
Qed.

Lemma nth_firstn_flat {A} (cs : list A) B m : B <= m -> m - B <= Z.of_nat (length cs) ->
  flat_map (fun t => match nth_error cs (Z.to_nat (t - B)) with Some c => [c] | None => [] end) (zrange B m) = firstn (Z.to_nat (m - B)) cs.
Proof.
  revert B m. induction cs as [|c cs IH]; intros B m H1 H2; cbn [length] in *.
  - rewrite firstn_nil. replace m with B by lia. rewrite zrange_nil by lia. reflexivity.
  - destruct (Z.eq_dec m B) as [-> |Hne].
    { rewrite zrange_nil by lia. rewrite Z.sub_diag. reflexivity. }
    rewrite zrange_cons by lia. cbn [flat_map]. rewrite Z.sub_diag. change (Z.to_nat 0) with 0%nat. cbn [nth_error app].
    replace (Z.to_nat (m - B)) with (S (Z.to_nat (m - (B + 1)))) by lia. cbn [firstn]. f_equal.
    rewrite <- (IH (B + 1) m) by lia. rewrite !flat_map_concat_map. f_equal. apply map_ext_in. intros t Ht. apply in_zrange in Ht.
    replace (Z.to_nat (t - B)) with (S (Z.to_nat (t - (B + 1)))) by lia. reflexivity.
Qed.

(** Let [q0] be a QueryResult in any state reached by calls that delivered chunks, and [cs] the chunks a single
    consumer would get next from [q0].  Fork [q0]; any number of processes, any interleaving [evs].  Then
    - a finished call that drew the i-th number after the fork delivers exactly [cs]'s i-th chunk;
    - no two calls draw the same number while [cs] lasts;
    - if a single consumer gets nothing after [cs], then the chunks delivered so far, plus one chunk for each call
      still running with a number that has a chunk, are exactly the first chunks of [cs], each once. *)
Theorem C12_consumers_partition : forall F fuel idx order h0 r0 son ops q0 os0 h cs qN evs w res,
  heap_ok h -> qrun (S F) ops (qr_init idx order h0 r0 son) = (q0, os0) -> Forall is_chunk os0 ->
  qrun (S F) (repeat (Next h) (length cs)) q0 = (qN, map NChunk cs) ->
  (F + length cs <= fuel)%nat -> wrun (S fuel) h evs (forked q0) = (w, res) ->
  (forall p t o, In (p, t, o) res -> q_count q0 <= t
     /\ (t < q_count q0 + Z.of_nat (length cs) -> exists c, nth_error cs (Z.to_nat (t - q_count q0)) = Some c /\ o = NChunk c))
  /\ NoDup (filter (fun t => t <? q_count q0 + Z.of_nat (length cs)) (map (fun x => snd (fst x)) res))
  /\ (snd (qr_next (S F) h qN) = NNone \/ snd (qr_next (S F) h qN) = NStop ->
      exists running, Permutation (chunks (map snd res) ++ running) (firstn (Z.to_nat (w_count w - q_count q0)) cs)
        /\ ((forall p, p_pending (w_procs w p) = None) -> running = [])).
Proof.
  intros F fuel idx order h0 r0 son ops q0 os0 h cs qN evs w res Hh Hrun Hall Hsingle Hfuel Hw.
  assert (Hi : ready idx order r0 (qr_init idx order h0 r0 son) (match gen_init idx order with GChunk g => g | _ => mkG [] [] 0 0 0 [] None 0 0 0 end)).
  { constructor; reflexivity. }
  destruct (ready_run _ _ _ _ _ _ _ _ _ Hi Hrun Hall) as (g0 & r & Hr).
  destruct (ready_chain _ _ _ _ _ _ _ _ _ Hr Hsingle) as (gN & HrN & Hch & Hcnt).
  assert (HW : winv F idx order h r q0 qN gN cs w ([] ++ res)).
  { eapply winv_run; try eassumption. eapply winv_init; eassumption. }
  cbn [app] in HW. destruct HW as [W1 W2 W3 (pend & P1 & P2 & P3 & P4)]. rewrite Forall_forall in W3.
  set (B := q_count q0) in *. set (N := Z.of_nat (length cs)) in *.
  split; [|split].
  - intros p t o Hin. destruct (W3 _ Hin) as (X1 & X2 & _). split; [exact X1|exact X2].
  - pose proof (Permutation_NoDup (Permutation_sym P3) (NoDup_zrange _ _)) as Hnd. apply NoDup_app_iff in Hnd. apply Hnd.
  - intros Hend. set (ch := fun t => match nth_error cs (Z.to_nat (t - B)) with Some c => [c] | None => [] end).
    exists (flat_map ch (filter (fun t => t <? B + N) (map snd pend))). split.
    + assert (E : chunks (map snd res) = flat_map ch (filter (fun t => t <? B + N) (map res_t res))).
      { clear - W3 Hend. induction res as [|[[p' t'] o'] res IH]; [reflexivity|]. cbn [map filter]. change (res_t (p', t', o')) with t'. cbn [snd].
        destruct (W3 (p', t', o')) as (X1 & X2 & X3); [cbn; auto|]. cbn [res_t fst snd] in X1, X2, X3.
        assert (IH' : chunks (map snd res) = flat_map ch (filter (fun t => t <? B + N) (map res_t res))).
        { apply IH. intros x Hx; apply W3; cbn; auto. }
        unfold chunks in *. cbn [flat_map]. rewrite IH'. destruct (t' <? B + N) eqn:E; cbn [flat_map].
        - destruct X2 as (c & X4 & ->); [fold B N; lia|]. unfold ch at 2. fold B in X4. rewrite X4. reflexivity.
        - destruct o'; try reflexivity. exfalso. apply X3; [fold B N; lia|exact Hend|exact I]. }
      rewrite E, <- flat_map_app. rewrite (Permutation_flat_map ch (Permutation_app_comm _ _)).
      rewrite (Permutation_flat_map ch P3). unfold ch. rewrite nth_firstn_flat by lia.
      destruct (Z.le_ge_cases (w_count w) (B + N)).
      * rewrite Z.min_l by lia. reflexivity.
      * rewrite Z.min_r by lia. rewrite !firstn_all2 by (unfold N in *; lia). reflexivity.
    + intros Hnone. assert (pend = []) as ->; [|reflexivity]. destruct pend as [|[p t] pend]; [reflexivity|].
      exfalso. assert (Hin : In (p, t) ((p, t) :: pend)) by (cbn; auto). apply P2 in Hin. rewrite Hnone in Hin. discriminate.
Qed.
Print Assumptions C12_consumers_partition.

(** Two processes fork after one chunk; a single consumer would get two more chunks, then nothing. *)
Example C12_example : exists q0 c0 c1 c2 qN w,
  qrun 20 [Next heap_ex] (qr_init idx_ex order_ex heap_ex 0 false) = (q0, [NChunk c0])
  /\ qrun 20 (repeat (Next heap_ex) 2) q0 = (qN, map NChunk [c1; c2]) /\ snd (qr_next 20 heap_ex qN) = NNone
  /\ wrun 30 heap_ex [Take 0; Take 1; Finish 1; Take 1; Finish 0; Finish 1; Take 0; Finish 0] (forked q0)
     = (w, [(1%nat, 2, NChunk c2); (0%nat, 1, NChunk c1); (1%nat, 3, NNone); (0%nat, 3, NNone)])
  /\ w_count w = 3 /\ c1 <> c2.
Proof.
  do 6 eexists. split; [vm_compute; reflexivity|]. split; [vm_compute; reflexivity|]. split; [vm_compute; reflexivity|].
  split; [vm_compute; reflexivity|]. split; [vm_compute; reflexivity|]. vm_compute. discriminate.
Qed.
