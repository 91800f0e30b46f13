(** C81: the mixture log on disk tells with which mixture every delivered chunk was made. *)
From Coq Require Import String.
From Verif Require Import Base MixtureKeyModel MixtureKeyProofs UtilsModel ChunkGenModel SpecChunk ReplayModel MixLogModel SpecMixLog ChunkGenProofs2 ChunkGenProofs3 ChunkGenProofs4 ChunkGenProofs5 ChunkGenProofs6 MixLogProofs PropertiesChunk ParserModel.
From Coq Require Import ZifyBool ZifyNat.
Open Scope Z_scope.

(** Writing the files does not change what the query delivers. *)
Theorem C81_same_run : forall fuel idx h cnt gn sf r target,
  fst (gen_send_w fuel idx h cnt gn sf r target) = gen_send fuel idx h gn sf r target.
Proof. intros. destruct gn; cbn; [apply gen_loop_w_erase|apply gen_loop_w_erase|reflexivity]. Qed.
Print Assumptions C81_same_run.

(** For every history of one consumer (calls may fail, mixtures may be exchanged or change), if keys of a mixture have
    different texts and an arbitrary mixture object stays arbitrary: the log on disk is right about every delivered
    chunk, its counter is one past its last entry, and chunk.idx is the number of the last delivered chunk. *)
Theorem C81_log_partial : forall fuel idx order h0 r0 son ops q os,
  Forall (fun o => heap_ok (op_heap o) /\ texts_differ (op_heap o)) ops -> stay_arbitrary (map op_heap ops) ->
  qrun (S fuel) ops (qr_init idx order h0 r0 son) = (q, os) ->
  let d := disk (all_writes (S fuel) ops (qr_init idx order h0 r0 son)) in
  let ms := delivered (working ops os r0 None) os in
  log_right (ld_log d) ms /\ next_right (ld_log d) /\ (no_error os -> ld_idx d = last_index ms).
Proof.
  intros fuel idx order h0 r0 son ops q os Hok Hst H d ms. rewrite <- (app_nil_r (map op_heap ops)) in Hst.
  destruct (linv_run fuel idx order ops [] _ [] [] [] _ _ _ _ _ _ Hok Hst (hist_init idx order h0 r0 son) (linv_init idx order _ h0 r0 son) H) as [HL _].
  cbn [app] in HL. split; [exact (linv_right _ _ _ _ _ _ _ HL)|]. split; [exact (linv_nextright _ _ _ _ _ _ _ HL)|].
  intros Hn. destruct (li_idx _ _ _ _ _ _ _ HL) as [X|[X _]]; [exact X|contradiction].
Qed.
Print Assumptions C81_log_partial.

(** The same at every crash point of a further call that lies between two writes: [k] of its writes have happened. The
    log is right about all chunks delivered before; chunk.idx is the last delivered chunk or the one being made. *)
Theorem C81_crash_partial : forall fuel idx order h0 r0 son ops h q os k,
  Forall (fun o => heap_ok (op_heap o) /\ texts_differ (op_heap o)) (ops ++ [Next h]) -> stay_arbitrary (map op_heap (ops ++ [Next h])) ->
  qrun (S fuel) ops (qr_init idx order h0 r0 son) = (q, os) -> no_error os ->
  let d := disk (all_writes (S fuel) ops (qr_init idx order h0 r0 son) ++ firstn k (next_writes (S fuel) h q)) in
  let ms := delivered (working ops os r0 None) os in
  log_right (ld_log d) ms /\ next_right (ld_log d)
  /\ (ld_idx d = last_index ms \/ ld_idx d = Some (Z.of_nat (length ms))).
Proof.
  intros fuel idx order h0 r0 son ops h q os k Hok Hst H Hne d ms. rewrite map_app in Hst. cbn [map op_heap] in Hst. apply Forall_app in Hok as [Hok Hok1].
  inversion Hok1 as [|? ? [Hh Ht] _]; subst. cbn [op_heap] in *.
  destruct (linv_run fuel idx order ops [h] _ [] [] [] _ _ _ _ _ _ Hok Hst (hist_init idx order h0 r0 son) (linv_init idx order _ h0 r0 son) H)
    as [HL (inst & held & prev & id & Hi)]. cbn [app] in HL. fold ms in HL.
  destruct (qr_next (S fuel) h q) as [q' o] eqn:E.
  assert (HL' := linv_next idx order [] fuel h q _ ms os inst held prev id q' o Hh Ht ltac:(intros r _ h' []) Hi HL E).
  destruct (next_writes_prefix idx order fuel h q inst held prev id q' o (all_writes (S fuel) ops (qr_init idx order h0 r0 son)) k Hi E) as [Hp1 Hp2].
  fold d in Hp1, Hp2. split; [|split].
  - destruct Hp1 as [-> | ->]; [exact (linv_right _ _ _ _ _ _ _ HL)|]. pose proof (linv_right _ _ _ _ _ _ _ HL') as Hr. intros i m Hm. apply Hr.
    rewrite nth_error_app1; [exact Hm|]. apply nth_error_Some. rewrite Hm. discriminate.
  - destruct Hp1 as [-> | ->]; [exact (linv_nextright _ _ _ _ _ _ _ HL)|exact (linv_nextright _ _ _ _ _ _ _ HL')].
  - destruct Hp2 as [-> | [Hx Hng]].
    + left. destruct (li_idx _ _ _ _ _ _ _ HL) as [X|[X _]]; [exact X|contradiction].
    + pose proof (hi_st _ _ _ _ _ _ _ Hi) as Hs. pose proof (li_gen _ _ _ _ _ _ _ HL) as Hg. right. rewrite Hx. f_equal.
      destruct (qgen idx order q) as [g|g|]; [| |contradiction]; destruct Hs as (_ & X & _); destruct Hg as (Y & _); congruence.
Qed.
Print Assumptions C81_crash_partial.

(** Four calls with three mixtures: the log has three entries. *)
Lemma heap_ex_texts : texts_differ heap_ex.
Proof.
  intros r k k' v v'. unfold heap_ex. destruct (r =? 0); [|destruct (r =? 1)]; cbn [m_rows aget];
  repeat match goal with |- context [mkey_eqb ?a ?b] => let E := fresh in destruct (mkey_eqb a b) eqn:E; [apply mkey_eqb_spec in E; subst|] end;
  intros X1 X2 X3; try discriminate; try reflexivity; vm_compute in X3; discriminate.
Qed.
Definition ops_ex : list qop := [Next heap_ex; Update heap_ex 1; Next heap_ex; Update heap_ex 2; Next heap_ex].
Example C81_example : exists c1 c2 c3,
  Forall (fun o => heap_ok (op_heap o) /\ texts_differ (op_heap o)) ops_ex /\ stay_arbitrary (map op_heap ops_ex)
  /\ snd (qrun 20 ops_ex (qr_init idx_ex order_ex heap_ex 0 false)) = [NChunk c1; NChunk c2; NChunk c3]
  /\ map fst (lf_log match ld_log (disk (all_writes 20 ops_ex (qr_init idx_ex order_ex heap_ex 0 false))) with Some f => f | None => mkLogfile [] 0 end) = [0; 1; 2]
  /\ ld_idx (disk (all_writes 20 ops_ex (qr_init idx_ex order_ex heap_ex 0 false))) = Some 2.
Proof.
  do 3 eexists. split; [repeat (apply Forall_cons; [split; [apply heap_ex_ok|apply heap_ex_texts]|]); apply Forall_nil|]. 
  split. { intros i j h h' r Hij H1 H2. apply nth_error_In in H1, H2. cbn in H1, H2.
    repeat match goal with H : _ \/ _ |- _ => destruct H end; try contradiction; subst; auto. }
  split; [vm_compute; reflexivity|]. split; vm_compute; reflexivity.
Qed.

(** Not if two keys of a mixture have the same text: {"a": ["b;c:d"]} and {"a": ["b"], "c": ["d"]} are both "a:b;c:d"; the
    log keeps one of the two numbers. *)
Definition kc1 : mkey := [(lit "a", [lit "b;c:d"])].
Definition kc2 : mkey := [(lit "a", [lit "b"]); (lit "c", [lit "d"])].
Definition idx_col : index := [(kc1, [(0, [(0, [(0, 3)])])]); (kc2, [(0, [(1, [(0, 3)])])])].
Definition heap_col : heap := fun _ => mkMix [(kc1, 1); (kc2, 2)] true 3.
Theorem C81_texts_refuted : exists c f e,
  heap_ok heap_col
  /\ snd (qrun 20 [Next heap_col] (qr_init idx_col [kc1; kc2] heap_col 0 false)) = [NChunk c]
  /\ rc_mix c = Some [(kc1, 1); (kc2, 2)]
  /\ ld_log (disk (all_writes 20 [Next heap_col] (qr_init idx_col [kc1; kc2] heap_col 0 false))) = Some f
  /\ lf_log f = [(0, [(lit "a:b;c:d", e)])].
Proof.
  do 3 eexists. split.
  { intros r. split; [|unfold heap_col; cbn [m_csize]; lia]. split.
    - constructor; [intros [H|[]]; vm_compute in H; discriminate|]. constructor; [intros []|constructor].
    - repeat (apply Forall_cons || apply Forall_nil); unfold snd; lia. }
  repeat (split; [vm_compute; reflexivity|]). vm_compute; reflexivity.
Qed.
Print Assumptions C81_texts_refuted.

(** Not if an arbitrary mixture object gets row numbers later (a schedule): the log then says that the first chunk was made
    with those numbers, although it was made without any. *)
Definition heap_s1 : heap := fun _ => mkMix [] true 3.
Definition heap_s2 : heap := fun _ => mkMix [(ka, 1); (kb, 1)] true 2.
Theorem C81_schedule_refuted : exists c1 c2 f e,
  heap_ok heap_s1 /\ heap_ok heap_s2
  /\ snd (qrun 20 [Next heap_s1; Next heap_s2] (qr_init idx_ex order_ex heap_s1 0 false)) = [NChunk c1; NChunk c2]
  /\ rc_mix c1 = None
  /\ ld_log (disk (all_writes 20 [Next heap_s1; Next heap_s2] (qr_init idx_ex order_ex heap_s1 0 false))) = Some f
  /\ aget Z.eqb 0 (lf_log f) = Some e /\ e = [(key_str ka, 1); (key_str kb, 1)].
Proof.
  do 4 eexists. split. { intros r. cbn. split; [split; constructor|]. lia. }
  split. { intros r. cbn. (split; [split|]); crush_nd; repeat (apply Forall_cons || apply Forall_nil); cbn; lia. }
  repeat (split; [vm_compute; reflexivity|]). vm_compute; reflexivity.
Qed.
Print Assumptions C81_schedule_refuted.

(** Not at a crash inside a write: the file has been emptied, so the whole log of the chunks delivered so far is lost. *)
Theorem C81_torn_refuted : exists q c1 w ws,
  qrun 20 [Next heap_ex; Update heap_ex 1] (qr_init idx_ex order_ex heap_ex 0 false) = (q, [NChunk c1])
  /\ next_writes 20 heap_ex q = w :: ws
  /\ ~ log_right (ld_log (torn (disk (all_writes 20 [Next heap_ex; Update heap_ex 1] (qr_init idx_ex order_ex heap_ex 0 false))) w)) [heap_ex 0].
Proof.
  do 4 eexists. split; [vm_compute; reflexivity|]. split; [vm_compute; reflexivity|].
  intros H. destruct (H 0%nat (heap_ex 0) eq_refl) as (f & Hf & _). vm_compute in Hf. discriminate.
Qed.
Print Assumptions C81_torn_refuted.
