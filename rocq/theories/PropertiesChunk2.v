(** Properties C49, C50, C51 of the chunk iterator. *)
From Verif Require Import Base MixtureKeyModel MixtureKeyProofs UtilsModel UtilsProofs ChunkGenModel SpecChunk ChunkGenProofs1
  ChunkGenProofs2 ChunkGenProofs3 ChunkGenProofs4 ChunkGenProofs5 ChunkGenProofs6 ChunkGenProofs7 ChunkGenProofs9 ChunkGenProofs12 PropertiesChunk.
From Coq Require Import ZifyBool ZifyNat.
Open Scope Z_scope.

(** ** C49 *)
(** The contents of the installed mixture at each [next()] of a history. *)
Fixpoint installed (ops : list qop) (inst : ref) : list mixobj :=
  match ops with
  | [] => []
  | Next h :: ops' => h inst :: installed ops' inst
  | Update _ r :: ops' => installed ops' r
  end.

Lemma working_installed ops : forall os inst held i m,
  (i = 0%nat -> held = None) -> (forall j, i = S j -> exists c, nth_error os j = Some (NChunk c)) ->
  (i < length os)%nat -> nth_error (installed ops inst) i = Some m -> nth_error (working ops os inst held) i = Some m.
Proof.
  induction ops as [|[h|h r] ops IH]; intros os inst held i m H0 Hj Hl Hm; cbn [installed] in Hm.
  - destruct i; discriminate.
  - destruct os as [|o os]; [cbn in Hl; lia|]. rewrite working_cons. destruct i as [|i]; cbn in *.
    + rewrite H0 by reflexivity. exact Hm.
    + apply IH; [| |lia|exact Hm].
      * intros ->. destruct (Hj 0%nat eq_refl) as [c E]. cbn in E. injection E as ->. reflexivity.
      * intros j ->. destruct (Hj (S j) eq_refl) as [c E]. exists c. exact E.
  - cbn [working]. apply IH; auto.
Qed.

(** If the previous call delivered a chunk (or there was none), the chunk follows the mixture installed now.
    [_partial]: missing is the case of a failed previous call, which is refuted below. *)
Theorem C49_installed_partial : forall fuel idx order h0 r0 son ops q os i c m,
  index_ok idx -> Permutation order (map fst idx) -> heap_ok h0 -> Forall (fun o => heap_ok (op_heap o)) ops ->
  qrun (S fuel) ops (qr_init idx order h0 r0 son) = (q, os) ->
  nth_error os i = Some (NChunk c) -> (forall j, i = S j -> exists c', nth_error os j = Some (NChunk c')) ->
  nth_error (installed ops r0) i = Some m -> m_rows m <> [] -> m_strict m = true ->
  forall k, Z.of_nat (length (rows_under k (rc_index c))) = asked (m_rows m) k.
Proof.
  intros fuel idx order h0 r0 son ops q os i c m Hix Hord Hh Hops Hrun Hc Hprev Hm Hne Hst.
  eapply (C03_strict_exact fuel idx order h0 r0 son ops q os i c m); eauto.
  eapply working_installed; auto. apply nth_error_Some. congruence.
Qed.
Print Assumptions C49_installed_partial.

(** 10 rows under ka, 6 under kb.  The first mixture asks for 20 rows of ka; the second one for 4. *)
Definition heap49 : heap := fun r => if r =? 0 then mkMix [(ka, 20)] true 20 else mkMix [(ka, 4)] true 4.
Lemma heap49_ok : heap_ok heap49.
Proof.
  intros r. unfold heap49. destruct (r =? 0); cbn; (split; [split|lia]).
  all: repeat constructor; cbn; try lia; intros [].
Qed.
(** After one failure, installing a mixture that the query can fill does not help: the iteration fails until it gives
    up, without ever delivering a row; a fresh query fills the same mixture at once. *)
Theorem C49_after_failure_refuted : exists q q' c,
  index_ok idx_ex /\ Permutation order_ex (map fst idx_ex) /\ heap_ok heap49
  /\ qrun 20 (Next heap49 :: Update heap49 1 :: repeat (Next heap49) 11) (qr_init idx_ex order_ex heap49 0 false)
     = (q, NNone :: repeat NNone 10 ++ [NStop])
  /\ qrun 20 [Next heap49] (qr_init idx_ex order_ex heap49 1 false) = (q', [NChunk c]).
Proof.
  do 3 eexists. split; [apply idx_ex_ok|]. split; [apply Permutation_refl || (cbn; apply perm_swap)|].
  split; [apply heap49_ok|]. split; vm_compute; reflexivity.
Qed.
Print Assumptions C49_after_failure_refuted.

(** ** C50 *)
(** [next()] returns a chunk, no chunk, or the end, and never an error - if requested row numbers are positive, an
    object in use for a retried attempt is not changed, and no arbitrary mixture is in use (for those the only
    trouble is the livelock of C05). [_partial]: the other cases are refuted below or in C05. *)
Theorem C50_no_errors_partial : forall fuel idx order h0 r0 son ops q os,
  index_ok idx -> Permutation order (map fst idx) -> heap_ok h0 -> Forall (fun o => heap_ok (op_heap o)) ops ->
  qrun (S fuel) ops (qr_init idx order h0 r0 son) = (q, os) ->
  (forall m, In m (working ops os r0 None) -> m_strict m = true \/ Forall (fun kv => 0 < snd kv) (m_rows m)) ->
  (forall i m m', (forall c, nth_error os i <> Some (NChunk c)) -> nth_error (working ops os r0 None) i = Some m ->
     nth_error (working ops os r0 None) (S i) = Some m' -> same_dict (m_rows m) (m_rows m')) ->
  forall i e m, nth_error os i = Some (NErr e) -> nth_error (working ops os r0 None) i = Some m ->
    m_rows m = [] /\ e = OutOfFuel.
Proof.
  intros fuel idx order h0 r0 son ops q os Hix Hord Hh Hops Hrun Hpos Hst i e m Hn Hw.
  assert (Hres : (m_rows m = [] /\ e = OutOfFuel) \/ (m_rows m <> [] /\ e = ZeroDivisionError /\ m_strict m = false
        /\ exists k, In k (map fst (m_rows m)) /\ asked (m_rows m) k = 0)).
  { eapply (run_clean idx order Hix Hord fuel ops _ [] r0 None None 0 q os Hops (qinit_inv idx order Hix Hord h0 r0 son)
             (kidinv_init idx order h0 r0 son) (hist_init idx order h0 r0 son)); eauto.
    - discriminate.
    - intros m0 Hx. exfalso. apply Hx. reflexivity. }
  destruct Hres as [H|(_ & _ & Hs & k & Hk & Hz)]; [exact H|]. exfalso.
  destruct (Hpos m) as [E|E]; [eapply nth_error_In; exact Hw|congruence|].
  apply (aget_some_in _ mkey_eqb_spec) in Hk as [v Ev]. unfold asked in Hz. rewrite Ev in Hz. subst v.
  apply (aget_in _ mkey_eqb_spec) in Ev. rewrite Forall_forall in E. specialize (E _ Ev). cbn in E. lia.
Qed.
Print Assumptions C50_no_errors_partial.
Example C50_example : exists q os,
  qrun 20 [Next heap_ex; Update heap_ex 1; Next heap_ex; Next heap_ex; Next heap_ex; Next heap_ex] (qr_init idx_ex order_ex heap_ex 0 false) = (q, os)
  /\ length os = 5%nat /\ forallb (fun m => forallb (fun kv => 0 <? snd kv) (m_rows m)) (working [Next heap_ex; Update heap_ex 1; Next heap_ex; Next heap_ex; Next heap_ex; Next heap_ex] os 0 None) = true.
Proof. do 2 eexists. split; [vm_compute; reflexivity|]. vm_compute. auto. Qed.

(** A best-effort mixture with a zero entry divides by zero once the other keys are used up. *)
Definition heap50 : heap := fun _ => mkMix [(ka, 20); (kb, 0)] false 20.
Theorem C50_zero_entry_refuted : exists q,
  index_ok idx_ex /\ Permutation order_ex (map fst idx_ex) /\ heap_ok heap50
  /\ qrun 20 [Next heap50] (qr_init idx_ex order_ex heap50 0 false) = (q, [NErr ZeroDivisionError]).
Proof.
  eexists. split; [apply idx_ex_ok|]. split; [apply Permutation_refl || (cbn; apply perm_swap)|].
  split; [|vm_compute; reflexivity]. intros r. cbn. split; [split|lia]; repeat constructor; cbn; try lia; intros H; crush_in; discriminate.
Qed.
Print Assumptions C50_zero_entry_refuted.

(** ** C51 *)
(** Rows of the query result that belong to key [k] of a mixture. *)
Definition belongs (idx : index) (k : mkey) (x : row) : Prop :=
  exists ck p, In (ck, p) idx /\ key_eq k ck = true /\ In x (rows_of p).
(** When a query that has only delivered chunks so far fails for the first time while a best-effort mixture is in use,
    every list of rows that match the mixture and were not delivered is shorter than a chunk.  (For a strict mixture
    the same holds of the rows of at least one of its keys.) *)
Theorem C51_uses_data : forall fuel idx order h0 r0 son ops q cs o m,
  index_ok idx -> Permutation order (map fst idx) -> heap_ok h0 -> Forall (fun o => heap_ok (op_heap o)) ops ->
  qrun (S fuel) ops (qr_init idx order h0 r0 son) = (q, cs ++ [o]) ->
  Forall (fun o => exists c, o = NChunk c) cs -> o = NNone \/ o = NStop ->
  nth_error (installed ops r0) (length cs) = Some m -> m_rows m <> [] ->
  let undelivered x := ~ In x (flat_map (fun c => all_rows (rc_index c)) (chunks cs)) in
  (m_strict m = false -> forall L, NoDup L ->
     (forall x, In x L -> undelivered x /\ exists k, In k (map fst (m_rows m)) /\ belongs idx k x) ->
     Z.of_nat (length L) < zsum (map snd (m_rows m)))
  /\ (m_strict m = true -> exists k, In k (map fst (m_rows m)) /\ forall L, NoDup L ->
     (forall x, In x L -> undelivered x /\ belongs idx k x) -> Z.of_nat (length L) < zsum (map snd (m_rows m))).
Proof.
  intros fuel idx order h0 r0 son ops q cs o m Hix Hord Hh Hops Hrun Hcs Ho Hm Hne und.
  assert (Hw : nth_error (working ops (cs ++ [o]) r0 None) (length cs) = Some m).
  { apply working_installed; auto.
    - intros j Hj. assert (Hjl : (j < length cs)%nat) by lia. rewrite nth_error_app1 by exact Hjl.
      destruct (nth_error cs j) as [x|] eqn:E; [|apply nth_error_None in E; lia].
      rewrite Forall_forall in Hcs. destruct (Hcs x (nth_error_In _ _ E)) as [c ->]. eauto.
    - rewrite app_length. cbn. lia. }
  destruct (fail_run idx order Hix Hord fuel ops _ [] r0 None None 0 q cs o m Hops (qinit_inv idx order Hix Hord h0 r0 son)
              (hist_init idx order h0 r0 son) (chunk_only_init idx order Hix Hord h0 r0 son) Hcs Ho Hrun Hw Hne) as (ks & K1 & K2 & K3 & K4).
  split.
  - intros Hs L HL HLx. apply K4; [exact HL|]. intros x Hx. destruct (HLx x Hx) as [H1 (k & Hk & Hb)]. split; [|exact H1].
    exists k. rewrite (K3 Hs). auto.
  - intros _. destruct ks as [|k ks]; [contradiction|]. exists k. split; [apply K1; cbn; auto|]. intros L HL HLx.
    apply K4; [exact HL|]. intros x Hx. destruct (HLx x Hx) as [H1 H2]. split; [exists k; cbn; auto|exact H1].
Qed.
Print Assumptions C51_uses_data.
(** Best effort over 16 rows in chunks of 5: three chunks, then the end with one row left. *)
Definition heap51 : heap := fun _ => mkMix [(ka, 2); (kb, 3)] false 5.
Example C51_example : exists q c1 c2 c3,
  qrun 20 (repeat (Next heap51) 4) (qr_init idx_ex order_ex heap51 0 true) = (q, [NChunk c1; NChunk c2; NChunk c3] ++ [NStop])
  /\ nth_error (installed (repeat (Next heap51) 4) 0) 3 = Some (mkMix [(ka, 2); (kb, 3)] false 5) /\ heap_ok heap51.
Proof.
  do 4 eexists. split; [vm_compute; reflexivity|]. split; [reflexivity|].
  intros r. cbn. split; [split|lia]; repeat constructor; cbn; try lia; intros H; crush_in; discriminate.
Qed.
