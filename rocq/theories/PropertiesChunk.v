(** Theorems about query iteration (C01-C10) and its helpers (C36-C38).  Vocabulary: SpecChunk.v. *)
From Verif Require Import Base MixtureKeyModel MixtureKeyProofs UtilsModel UtilsProofs ChunkGenModel SpecChunk ChunkGenProofs1
  ChunkGenProofs2 ChunkGenProofs3 ChunkGenProofs4 ChunkGenProofs5 ChunkGenProofs6 ChunkGenProofs7 ChunkGenProofs8 ChunkGenProofs9.
From Coq Require Import QArith Qround.
Open Scope Z_scope.

(** ** A concrete query result used in the examples: two property combinations, three datasets/files *)
Definition ka : mkey := [([1], [[10]])].
Definition kb : mkey := [([1], [[11]])].
Definition kab : mkey := [([1], [[10]; [11]])].
Definition idx_ex : index :=
  [(ka, [(0, [(0, [(0, 5); (7, 9)]); (1, [(0, 3)])])]); (kb, [(0, [(0, [(5, 7)])]); (2, [(4, [(0, 4)])])])].
Definition order_ex : list mkey := [kb; ka].
Definition heap_ex : heap := fun r =>
  if r =? 0 then mkMix [(ka, 3); (kb, 1)] true 4
  else if r =? 1 then mkMix [(kab, 2); (kb, 2)] false 4
  else mkMix [] true 3.

Ltac crush_in := repeat match goal with
  | H : _ \/ _ |- _ => destruct H
  | H : False |- _ => destruct H
  | H : (_, _) = (_, _) |- _ => injection H; clear H; intros; subst
  | H : In _ _ |- _ => progress cbn in H
  end.
Ltac crush_nd := repeat (constructor; [unfold ka, kb, kab; cbn; intuition congruence|]); try constructor.
Lemma idx_ex_ok : index_ok idx_ex.
Proof.
  constructor.
  - cbn. crush_nd.
  - intros k p H. cbn in H. crush_in; cbn; crush_nd.
  - intros k p H. cbn in H. crush_in; cbn; crush_nd.
  - intros k p d fs H H2. cbn in H. crush_in; cbn; crush_nd.
  - intros k p d fs f rs H H2 H3. cbn in H. crush_in; cbn; repeat split; repeat (apply Forall_cons || apply Forall_nil); cbn; lia.
  - replace (all_rows idx_ex) with (ltac:(let r := eval vm_compute in (all_rows idx_ex) in exact r)) by (vm_compute; reflexivity). crush_nd.
Qed.
Lemma order_ex_ok : Permutation order_ex (map fst idx_ex).
Proof. cbn. apply perm_swap. Qed.
Lemma heap_ex_ok : heap_ok heap_ex.
Proof.
  intros r. unfold heap_ex. destruct (r =? 0); [|destruct (r =? 1)]; cbn; (split; [split|]); crush_nd; repeat (apply Forall_cons || apply Forall_nil); cbn; lia.
Qed.

(** ** C01 *)
(** In every history of [next()] and [update_mixture] calls, no row is delivered twice, in one chunk or in two. *)
Theorem C01_no_sample_twice : forall fuel idx order q os,
  index_ok idx -> Permutation order (map fst idx) -> reachable fuel idx order q os ->
  NoDup (flat_map (fun c => all_rows (rc_index c)) (chunks os))
  /\ incl (flat_map (fun c => all_rows (rc_index c)) (chunks os)) (all_rows idx).
Proof.
  intros fuel idx order q os Hix Hord Hr. destruct (qi_rows _ _ _ _ (reachable_inv idx order Hix Hord fuel q os Hr)) as (lost & Hp).
  split.
  - pose proof (Permutation_NoDup Hp (ix_rows _ Hix)) as Hnd. apply NoDup_app_iff in Hnd. tauto.
  - intros x Hx. eapply Permutation_in; [symmetry; exact Hp|]. apply in_or_app. auto.
Qed.
Print Assumptions C01_no_sample_twice.
(** A history with a strict, a best-effort and an arbitrary mixture that delivers three chunks. *)
Example C01_example : exists q c1 c2 c3,
  reachable 20 idx_ex order_ex q [NChunk c1; NChunk c2; NChunk c3]
  /\ length (all_rows (rc_index c1)) = 4%nat /\ length (all_rows (rc_index c2)) = 4%nat /\ length (all_rows (rc_index c3)) = 3%nat.
Proof.
  do 4 eexists. split.
  - exists heap_ex, 0, false, [Next heap_ex; Update heap_ex 1; Next heap_ex; Update heap_ex 2; Next heap_ex].
    split; [apply heap_ex_ok|]. split; [repeat constructor; apply heap_ex_ok|]. vm_compute. reflexivity.
  - vm_compute. auto.
Qed.

(** ** C02 *)
Theorem C02_rows_from_matching_key : forall fuel idx order q os c k p x,
  index_ok idx -> Permutation order (map fst idx) -> reachable fuel idx order q os ->
  In c (chunks os) -> In (k, p) (rc_index c) -> In x (rows_of p) ->
  exists ck p', In (ck, p') idx /\ key_eq k ck = true /\ In x (rows_of p').
Proof.
  intros fuel idx order q os c k p x Hix Hord Hr Hc Hk Hx.
  destruct (qi_facts _ _ _ _ (reachable_inv idx order Hix Hord fuel q os Hr) c Hc) as (h & r & _ & F). eapply cf_match; eauto.
Qed.
Print Assumptions C02_rows_from_matching_key.

(** ** C03, C04: histories from a fresh query *)
(** Every chunk obtained while a strict mixture is in force holds exactly the numbers asked for, and says so. *)
Theorem C03_strict_exact : forall fuel idx order h0 r0 son ops q os i c m,
  index_ok idx -> Permutation order (map fst idx) -> heap_ok h0 -> Forall (fun o => heap_ok (op_heap o)) ops ->
  qrun (S fuel) ops (qr_init idx order h0 r0 son) = (q, os) ->
  nth_error os i = Some (NChunk c) -> nth_error (working ops os r0 None) i = Some m ->
  m_rows m <> [] -> m_strict m = true ->
  rc_mix c = Some (m_rows m)
  /\ (forall k, Z.of_nat (length (rows_under k (rc_index c))) = asked (m_rows m) k)
  /\ Z.of_nat (length (all_rows (rc_index c))) = zsum (map snd (m_rows m)).
Proof.
  intros fuel idx order h0 r0 son ops q os i c m Hix Hord Hh0 Hops Hrun Hn Hw Hne Hst.
  pose proof (run_facts idx order Hix fuel ops _ [] r0 None None 0 q os Hops (qinit_inv idx order Hix Hord h0 r0 son)
                (hist_init idx order h0 r0 son) Hrun i c m Hn Hw) as F.
  pose proof (cf_mix _ _ _ F) as M. unfold chunk_mix in M. destruct (m_rows m) as [|kv l] eqn:E; [contradiction|]. rewrite <- E in *.
  destruct M as (_ & mix & M1 & M2 & M3 & _ & _ & _ & M7). specialize (M7 Hst). subst mix. auto.
Qed.
Print Assumptions C03_strict_exact.

(** Every chunk obtained while a best-effort mixture is in force is full and reports what it holds. *)
Theorem C04_best_effort_full : forall fuel idx order h0 r0 son ops q os i c m,
  index_ok idx -> Permutation order (map fst idx) -> heap_ok h0 -> Forall (fun o => heap_ok (op_heap o)) ops ->
  qrun (S fuel) ops (qr_init idx order h0 r0 son) = (q, os) ->
  nth_error os i = Some (NChunk c) -> nth_error (working ops os r0 None) i = Some m ->
  m_rows m <> [] -> zsum (map snd (m_rows m)) = m_csize m ->
  rc_csize c = m_csize m
  /\ Z.of_nat (length (all_rows (rc_index c))) = m_csize m
  /\ exists mix, rc_mix c = Some mix /\ incl (map fst mix) (map fst (m_rows m))
       /\ (forall k, Z.of_nat (length (rows_under k (rc_index c))) = asked mix k).
Proof.
  intros fuel idx order h0 r0 son ops q os i c m Hix Hord Hh0 Hops Hrun Hn Hw Hne Hsum.
  pose proof (run_facts idx order Hix fuel ops _ [] r0 None None 0 q os Hops (qinit_inv idx order Hix Hord h0 r0 son)
                (hist_init idx order h0 r0 son) Hrun i c m Hn Hw) as F.
  split; [apply (cf_csize _ _ _ F)|].
  pose proof (cf_mix _ _ _ F) as M. unfold chunk_mix in M. destruct (m_rows m) as [|kv l] eqn:E; [contradiction|]. rewrite <- E in *.
  destruct M as (_ & mix & M1 & M2 & M3 & _ & M5 & _). split; [lia|]. exists mix. auto.
Qed.
Print Assumptions C04_best_effort_full.
Example C03_C04_example : exists q c1 c2,
  qrun 20 [Next heap_ex; Update heap_ex 1; Next heap_ex] (qr_init idx_ex order_ex heap_ex 0 false) = (q, [NChunk c1; NChunk c2])
  /\ working [Next heap_ex; Update heap_ex 1; Next heap_ex] [NChunk c1; NChunk c2] 0 None = [heap_ex 0; heap_ex 1]
  /\ rc_mix c1 = Some [(ka, 3); (kb, 1)] /\ rc_strict c2 = false.
Proof. do 3 eexists. split; [vm_compute; reflexivity|]. vm_compute. auto. Qed.

(** ** C05 *)
(** With arbitrary mixtures: one key per chunk, 1 to chunk_size rows, only the last chunk of a key smaller; the
    iteration fails only by running for ever in one call ([OutOfFuel]); if it ends, every row was delivered. *)
Theorem C05_arbitrary_everything_partial : forall fuel idx order h0 r0 son ops q os,
  index_ok idx -> Permutation order (map fst idx) -> Forall (fun o => arbitrary_heap (op_heap o)) ops ->
  qrun (S fuel) ops (qr_init idx order h0 r0 son) = (q, os) ->
  (forall o, In o os -> (exists c, o = NChunk c) \/ o = NStop \/ o = NErr OutOfFuel)
  /\ (forall c, In c (chunks os) -> exists k p, rc_index c = [(k, p)] /\ 1 <= Z.of_nat (length (rows_of p)) <= rc_csize c /\ rc_mix c = None)
  /\ (forall i j c c' k, (i < j)%nat -> nth_error (chunks os) i = Some c -> nth_error (chunks os) j = Some c' ->
        Z.of_nat (length (all_rows (rc_index c))) < rc_csize c ->
        In k (map fst (rc_index c)) -> ~ In k (map fst (rc_index c')))
  /\ (In NStop os -> ~ In (NErr OutOfFuel) os -> Permutation (all_rows idx) (flat_map (fun c => all_rows (rc_index c)) (chunks os)))
  (* with an odd number of keys every call ends, and the iteration ends *)
  /\ (Z.odd (Z.of_nat (length idx)) = true -> (length idx * length idx <= S fuel)%nat ->
      ~ In (NErr OutOfFuel) os /\ ((length (all_rows idx) < length os)%nat -> In NStop os)).
Proof.
  intros fuel idx order h0 r0 son ops q os Hix Hord Hops Hrun.
  assert (Hops' : Forall (fun o => arbitrary_heap (op_heap o) /\ heap_ok (op_heap o)) ops).
  { eapply Forall_impl; [|exact Hops]. intros o Ho. split; [exact Ho|apply arbitrary_heap_ok, Ho]. }
  pose proof (qinit_inv idx order Hix Hord h0 r0 son) as Hq. pose proof (kidinv_init idx order h0 r0 son) as Hk.
  pose proof (arb_init idx order Hix Hord h0 r0 son) as Ha.
  destruct (arb_run idx order Hix Hord fuel ops _ [] q os Hops' Hq Hk Ha Hrun) as (A & _). cbn [app] in A.
  split; [apply (ab_outs _ _ _ _ A)|]. split; [apply (ab_one _ _ _ _ A)|]. split; [apply (ab_short _ _ _ _ A)|].
  split; [intros; eapply arb_stop_all; eauto|].
  intros Hodd Hfu. assert (Hm : Z.of_nat (length idx) mod 2 = 1) by (rewrite Zmod_odd, Hodd; reflexivity).
  assert (Hne : ~ In (NErr OutOfFuel) os) by (eapply (arb_run_no_fuel idx order Hix Hord fuel ops Hm Hfu _ [] q os); eauto).
  split; [exact Hne|]. intros Hl. eapply arb_stops; eauto.
Qed.
Print Assumptions C05_arbitrary_everything_partial.

(** Full property fails for an even number of keys: when one key is used up before the other, the round robin (which
    advances twice over an exhausted key) never reaches the other key again: the fourth [next()] never returns,
    although 92 of 101 rows are still to be delivered. *)
Definition idx_rr : index := [(ka, [(0, [(0, [(0, 1)])])]); (kb, [(0, [(0, [(1, 101)])])])].
Definition heap_rr : heap := fun _ => mkMix [] true 4.
Lemma rr_stuck fuel csize comps : round_robin fuel [kb; ka] csize comps 0 [1] = (comps, 0, [1], RErr OutOfFuel).
Proof. induction fuel as [|fuel IH]; [reflexivity|]. cbn. exact IH. Qed.
Lemma idx_rr_ok : index_ok idx_rr.
Proof.
  constructor.
  - cbn. crush_nd.
  - intros k p H. cbn in H. crush_in; cbn; crush_nd.
  - intros k p H. cbn in H. crush_in; cbn; crush_nd.
  - intros k p d fs H H2. cbn in H. crush_in; cbn; crush_nd.
  - intros k p d fs f rs H H2 H3. cbn in H. crush_in; cbn; repeat split; repeat (apply Forall_cons || apply Forall_nil); cbn; lia.
  - replace (all_rows idx_rr) with (map (fun i => (0, 0, i)) (zrange 0 101)) by reflexivity.
    apply FinFun.Injective_map_NoDup; [intros x y; congruence|apply NoDup_zrange].
Qed.
Theorem C05_arbitrary_livelock_refuted : exists q c1 c2 c3,
  index_ok idx_rr /\ Permutation [kb; ka] (map fst idx_rr) /\ arbitrary_heap heap_rr
  /\ (forall fuel, (10 <= fuel)%nat ->
       qrun fuel [Next heap_rr; Next heap_rr; Next heap_rr] (qr_init idx_rr [kb; ka] heap_rr 0 false)
       = (q, [NChunk c1; NChunk c2; NChunk c3]))
  /\ length (flat_map (fun c => all_rows (rc_index c)) [c1; c2; c3]) = 9%nat /\ length (all_rows idx_rr) = 101%nat
  /\ (forall fuel, snd (qr_next fuel heap_rr q) = NErr OutOfFuel).
Proof.
  do 4 eexists. split; [apply idx_rr_ok|]. split; [cbn; apply perm_swap|]. split; [intros r; cbn; split; [reflexivity|lia]|].
  split.
  { intros fuel H. do 10 (destruct fuel as [|fuel]; [exfalso; lia|]). vm_compute. reflexivity. }
  split; [vm_compute; reflexivity|]. split; [vm_compute; reflexivity|].
  intros fuel. unfold qr_next. cbn [q_gen q_nret andb q_idx q_order q_self s_mix q_count gen_send].
  destruct fuel as [|fuel]; [reflexivity|]. lazy beta iota zeta delta -[round_robin].
  match goal with |- context [round_robin (S fuel) ?k ?c ?cs ?i ?e] => change (round_robin (S fuel) k c cs i e) with (round_robin (S fuel) [kb; ka] c cs 0 [1]) end.
  rewrite rr_stuck. reflexivity.
Qed.
Print Assumptions C05_arbitrary_livelock_refuted.

(** ** C06 *)
Theorem C06_ranges_sorted : forall fuel idx order q os c k p d fs f rs,
  index_ok idx -> Permutation order (map fst idx) -> reachable fuel idx order q os ->
  In c (chunks os) -> In (k, p) (rc_index c) -> In (d, fs) p -> In (f, rs) fs -> ranges_sorted rs.
Proof.
  intros fuel idx order q os c k p d fs f rs Hix Hord Hr Hc H1 H2 H3.
  destruct (qi_facts _ _ _ _ (reachable_inv idx order Hix Hord fuel q os Hr) c Hc) as (h & r & _ & F). eapply (cf_sorted _ _ _ F); eauto.
Qed.
Print Assumptions C06_ranges_sorted.

(** ** C07 *)
(** The answers to requests [ns] cut the list of all rows of the combination, in reading order, into consecutive
    pieces of the requested sizes (the last one shorter); the coroutine ends exactly when nothing is left. *)
Theorem C07_component_exact : forall p ns,
  NoDup (map fst p) -> (forall d fs, In (d, fs) p -> NoDup (map fst fs)) ->
  (forall d fs f rs, In (d, fs) p -> In (f, rs) fs -> ranges_sorted rs) -> Forall (fun n => 0 < n) ns ->
  exists rows, Permutation rows (rows_of p) /\ StronglySorted row_lt rows
    /\ map answer_rows (comp_requests (flatten p) ns) = served rows ns
    /\ Forall (fun o => o = None <-> answer_rows o = []) (comp_requests (flatten p) ns).
Proof.
  intros p ns H1 H2 H3 Hn. exists (frows (flatten p)).
  assert (Hnd : part_nd p) by (split; [exact H1|]; apply Forall_forall; intros [d fs] Hd; exact (H2 d fs Hd)).
  assert (Hs : part_sorted p) by (intros d f rs (fs & Ha & Hb); eapply H3; eauto).
  pose proof (flatten_fre p Hnd Hs) as Hf.
  split; [apply flatten_rows|]. split; [apply frows_sorted, Hf|]. apply comp_requests_spec; assumption.
Qed.
Print Assumptions C07_component_exact.
Example C07_example : map answer_rows (comp_requests (flatten [(3, [(1, [(4, 6)]); (0, [(0, 2); (5, 8)])]); (2, [(7, [(0, 1)])])]) [4; 3; 5; 1])
  = [[(2, 7, 0); (3, 0, 0); (3, 0, 1); (3, 0, 5)]; [(3, 0, 6); (3, 0, 7); (3, 1, 4)]; [(3, 1, 5)]; []].
Proof. vm_compute. reflexivity. Qed.

(** ** C08 *)
(** After eleven failures in a row the next call ends the iteration. *)
Theorem C08_gives_up : forall fuel idx order q os h q' o,
  reachable (S fuel) idx order q (os ++ repeat NNone 11) -> heap_ok h -> qr_next (S fuel) h q = (q', o) -> o = NStop.
Proof. intros. eapply gives_up; eauto. Qed.
Print Assumptions C08_gives_up.
(** One attempt always ends: with one unit of loop fuel a call with a non-empty mixture returns a chunk, a failure,
    the end of the iteration or one of two errors, never "still running". *)
Theorem C08_attempt_terminates : forall fuel idx order h0 r0 son ops q os i e m,
  heap_ok h0 -> Forall (fun o => heap_ok (op_heap o)) ops ->
  qrun (S fuel) ops (qr_init idx order h0 r0 son) = (q, os) ->
  nth_error os i = Some (NErr e) -> nth_error (working ops os r0 None) i = Some m -> m_rows m <> [] ->
  e <> OutOfFuel /\ ((e = ZeroDivisionError /\ m_strict m = false) \/ e = AssertionError).
Proof.
  intros fuel idx order h0 r0 son ops q os i e m Hh0 Hops Hrun Hn Hw Hne.
  pose proof (run_errs idx order fuel ops _ r0 None None 0 q os Hops (hist_init idx order h0 r0 son) Hrun i e m Hn Hw Hne) as H.
  split; [destruct H as [[-> _]| ->]; discriminate|exact H].
Qed.
Print Assumptions C08_attempt_terminates.
(** A mixture that can never be filled: eleven failures, then the end. *)
Example C08_example : exists q, qrun 1 (repeat (Next (fun _ => mkMix [([([1], [[99]])], 1)] true 1)) 12)
    (qr_init idx_ex order_ex (fun _ => mkMix [([([1], [[99]])], 1)] true 1) 0 false) = (q, repeat NNone 11 ++ [NStop]).
Proof. eexists. vm_compute. reflexivity. Qed.

(** ** C09 *)
(** Ids are distinct, cover the query's keys and the keys of a mixture when it is installed, and never change. *)
Theorem C09_key_ids : forall fuel idx order q os,
  reachable (S fuel) idx order q os ->
  NoDup (map fst (s_kid (q_self q))) /\ NoDup (map snd (s_kid (q_self q)))
  /\ incl (map fst idx) (map fst (s_kid (q_self q)))
  /\ (forall h r, incl (map fst (m_rows (h r))) (map fst (s_kid (q_self (qr_update_mixture h r q)))))
  /\ (forall ops q' os', qrun (S fuel) ops q = (q', os') ->
        forall k id, aget mkey_eqb k (s_kid (q_self q)) = Some id -> aget mkey_eqb k (s_kid (q_self q')) = Some id)
  /\ (forall h q' c, qr_next (S fuel) h q = (q', NChunk c) -> rc_kid c = s_kid (q_self q')).
Proof.
  intros fuel idx order q os (h0 & r0 & son & ops & _ & _ & Hrun).
  destruct (kidinv_run idx (S fuel) ops _ _ _ Hrun (kidinv_init idx order h0 r0 son)) as [K _].
  destruct (ki_ok _ _ K) as [K1 K2 K3]. split; [exact K1|]. split; [exact K2|]. split; [apply (ki_cover _ _ K)|].
  split. { intros h r. apply (update_kid_spec (q_idx q) (m_rows (h r)) _ (ki_ok _ _ K)). }
  split. { intros ops' q' os' Hr. apply (kidinv_run idx (S fuel) ops' _ _ _ Hr K). }
  intros h q' c Hn. destruct (qr_next_kid _ _ _ _ _ Hn (ki_ok _ _ K)) as (_ & _ & _ & _ & H). apply H. reflexivity.
Qed.
Print Assumptions C09_key_ids.
Example C09_example : s_kid (q_self (qr_update_mixture heap_ex 1 (qr_init idx_ex order_ex heap_ex 0 false))) = [(ka, 0); (kb, 1); (kab, 2)].
Proof. vm_compute. reflexivity. Qed.

(** ** C10 *)
(** There is one id per call; it starts at 0, stays while the requested mixture stays the same (as a dict), grows by
    one when it differs, and every chunk carries the id of its call. *)
Theorem C10_mixture_ids : forall fuel idx order h0 r0 son ops q os,
  Forall (fun o => heap_ok (op_heap o)) ops ->
  qrun (S fuel) ops (qr_init idx order h0 r0 son) = (q, os) ->
  exists ids, length ids = length os
    /\ (forall a, nth_error ids 0 = Some a -> a = 0)
    /\ (forall i m m' a b, nth_error (requests ops os r0 None) i = Some m -> nth_error (requests ops os r0 None) (S i) = Some m' ->
          nth_error ids i = Some a -> nth_error ids (S i) = Some b ->
          (same_dict m m' -> b = a) /\ (~ same_dict m m' -> b = a + 1))
    /\ length (requests ops os r0 None) = length os
    /\ (forall i c, nth_error os i = Some (NChunk c) -> nth_error ids i = Some (rc_mid c)).
Proof.
  intros fuel idx order h0 r0 son ops q os Hops Hrun.
  destruct (hist_run idx order fuel ops _ r0 None None 0 q os Hops (hist_init idx order h0 r0 son) Hrun) as (H1 & H2 & H3).
  exists (ids_from None 0 (requests ops os r0 None)).
  destruct (ids_from_spec (requests ops os r0 None) None 0 H2) as [I1 I2]; [discriminate|].
  split; [congruence|]. split.
  { intros a Ha. destruct (requests ops os r0 None); cbn in Ha; congruence. }
  split; [exact I2|]. split; [exact H1|exact H3].
Qed.
Print Assumptions C10_mixture_ids.
Example C10_example : exists q c1 c2 c3,
  qrun 20 [Next heap_ex; Next heap_ex; Update heap_ex 2; Next heap_ex] (qr_init idx_ex order_ex heap_ex 0 false) = (q, [NChunk c1; NChunk c2; NChunk c3])
  /\ (rc_mid c1, rc_mid c2, rc_mid c3) = (0, 0, 1).
Proof. do 4 eexists. split; vm_compute; reflexivity. Qed.

(** ** C36 *)
Definition key_ok (k : mkey) : Prop := NoDup (map fst k).
(** Equality is reflexive; keys with the same properties and values (in any order) are equal both ways and have the
    same hash input; [<] is a strict order, total up to the hash input; sorting is deterministic up to it. *)
Theorem C36_key_laws_partial :
  (forall a, key_ok a -> key_eq a a = true)
  /\ (forall a b, key_ok a -> key_ok b -> canon a = canon b -> key_eq a b = true /\ key_eq b a = true)
  /\ (forall a, key_ltb a a = false)
  /\ (forall a b c, key_ltb a b = true -> key_ltb b c = true -> key_ltb a c = true)
  /\ (forall a b, key_ltb a b = true -> key_ltb b a = false)
  /\ (forall a b, key_ltb a b = false -> key_ltb b a = false -> canon a = canon b)
  /\ (forall l, Permutation (ksort l) l /\ StronglySorted (fun a b => key_ltb b a = false) (ksort l)).
Proof.
  split; [exact key_eq_refl|]. split.
  { intros a b Ha Hb H. split; apply canon_eq_key_eq; auto. }
  split; [exact key_ltb_irrefl|]. split; [exact key_ltb_trans|]. split; [exact key_ltb_asym|]. split; [exact key_ltb_total|].
  intros l. split; [apply ksort_perm|apply ksort_sorted].
Qed.
Print Assumptions C36_key_laws_partial.
(** Equality is neither symmetric nor transitive, and equal keys need not hash alike. *)
Theorem C36_key_equality_refuted :
  (exists a b, key_ok a /\ key_ok b /\ key_eq a b = true /\ key_eq b a = false)
  /\ (exists a b c, key_ok a /\ key_ok b /\ key_ok c /\ key_eq a b = true /\ key_eq b c = true /\ key_eq a c = false)
  /\ (exists a b, key_ok a /\ key_ok b /\ map fst a = map fst b /\ key_eq a b = true /\ key_eq b a = true /\ canon a <> canon b).
Proof.
  split; [|split].
  - exists ka, [([1], [[10]]); ([2], [[5]])]. split; [unfold key_ok; cbn; crush_nd|]. split; [unfold key_ok; cbn; crush_nd|]. split; reflexivity.
  - exists ka, kab, kb. split; [unfold key_ok; cbn; crush_nd|]. split; [unfold key_ok; cbn; crush_nd|].
    split; [unfold key_ok; cbn; crush_nd|]. repeat split; reflexivity.
  - exists ka, kab. split; [unfold key_ok; cbn; crush_nd|]. split; [unfold key_ok; cbn; crush_nd|].
    repeat split; try reflexivity. discriminate.
Qed.
Print Assumptions C36_key_equality_refuted.

(** ** C37 *)
Theorem C37_distribution_exact : forall n ratios,
  0 <= n -> ratios <> [] -> Forall (fun r => (0 <= r)%Q) ratios -> (qsum ratios == 1)%Q ->
  exists l, distribute_by_ratio n ratios = Some l /\ length l = length ratios /\ zsum l = n
            /\ Forall (fun v => 0 <= v) l
            /\ forall i r, nth_error ratios i = Some r ->
                 exists v, nth_error l i = Some v
                           /\ (v = Qfloor (r * inject_Z n) \/ v = Qceiling (r * inject_Z n)).
Proof. exact distribute_spec. Qed.
Print Assumptions C37_distribution_exact.
Example C37_example : distribute_by_ratio 10 [1 # 3; 1 # 6; 1 # 2] = Some [3; 2; 5].
Proof. vm_compute. reflexivity. Qed.

(** ** C38 *)
Theorem C38_merge : forall l1 l2,
  StronglySorted (fun a b : range => fst a <= fst b) l1 -> StronglySorted (fun a b : range => fst a <= fst b) l2 ->
  Permutation (merge_sorted_lists l1 l2) (l1 ++ l2)
  /\ StronglySorted (fun a b : range => fst a <= fst b) (merge_sorted_lists l1 l2).
Proof. intros l1 l2 H1 H2. split; [apply merge_perm|apply merge_sorted; assumption]. Qed.
Print Assumptions C38_merge.
Example C38_example : merge_sorted_lists [(0, 2); (5, 6)] [(2, 5); (5, 9)] = [(0, 2); (2, 5); (5, 6); (5, 9)].
Proof. reflexivity. Qed.
