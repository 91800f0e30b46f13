(** C05, even number of keys: exactly when the iteration over an arbitrary mixture ends. *)
From Verif Require Import Base MixtureKeyModel MixtureKeyProofs UtilsModel UtilsProofs ChunkGenModel SpecChunk SpecBalance ChunkGenProofs1
  ChunkGenProofs2 ChunkGenProofs3 ChunkGenProofs4 ChunkGenProofs5 ChunkGenProofs6 ChunkGenProofs7 ChunkGenProofs13 PropertiesChunk.
From Coq Require Import ZifyBool ZifyNat.
Open Scope Z_scope.

Lemma rows_under_absent k (idx : index) : ~ In k (map fst idx) -> rows_under k idx = [].
Proof.
  induction idx as [|[k' p] r IH]; intros H; [reflexivity|]. cbn in *. destruct (mkey_eqb k' k) eqn:E.
  - apply mkey_eqb_spec in E. tauto.
  - apply IH. tauto.
Qed.
Lemma rows_under_in k p (idx : index) : NoDup (map fst idx) -> In (k, p) idx -> rows_under k idx = rows_of p.
Proof.
  induction idx as [|[k' p'] r IH]; intros Hnd H; [destruct H|]. inversion Hnd as [|? ? Hni Hnd']; subst.
  cbn. destruct H as [H|H].
  - injection H as -> ->. rewrite (proj2 (mkey_eqb_spec k k) eq_refl). fold (rows_under k r). rewrite rows_under_absent by exact Hni. apply app_nil_r.
  - destruct (mkey_eqb k' k) eqn:E.
    + apply mkey_eqb_spec in E. subst. exfalso. apply Hni. apply (in_map fst) in H. exact H.
    + apply IH; assumption.
Qed.

Lemma two_ind {A} (P : list A -> Prop) : P [] -> (forall x, P [x]) -> (forall x y l, P l -> P (x :: y :: l)) -> forall l, P l.
Proof.
  intros H0 H1 H2. assert (G : forall l, P l /\ forall x, P (x :: l)).
  { induction l as [|x l [IH1 IH2]]; [auto|]. split; [apply IH2|]. intros y. apply H2, IH1. }
  intros l. apply G.
Qed.


(** The lead at the start: the difference of the chunk numbers. *)
Lemma lead_start c idx (order : list mkey) : 1 <= c -> index_ok idx -> incl order (map fst idx) -> Z.even (Z.of_nat (length order)) = true ->
  forall i, Z.even i = true ->
  wsum c true [] i (map (fun k => (k, match aget mkey_eqb k idx with Some p => flatten p | None => [] end)) order)
  - wsum c false [] i (map (fun k => (k, match aget mkey_eqb k idx with Some p => flatten p | None => [] end)) order)
  = zsum (map (chunks_needed c idx) (at_odd order)) - zsum (map (chunks_needed c idx) (at_even order)).
Proof.
  intros Hc Hix. revert order. induction order as [|x|x y l IH] using two_ind; intros Hin Hev i Hi.
  - reflexivity.
  - cbn in Hev. discriminate.
  - assert (Hk : forall k, In k (x :: y :: l) -> left_in c (match aget mkey_eqb k idx with Some p => flatten p | None => [] end) = chunks_needed c idx k).
    { intros k Hk. apply Hin in Hk. apply in_map_iff in Hk as ([k' p] & E & Hp). cbn in E. subst k'.
      rewrite (in_aget _ mkey_eqb_spec k p idx (ix_keys _ Hix) Hp). unfold left_in, nchunks, chunks_needed.
      rewrite (rows_under_in k p idx (ix_keys _ Hix) Hp). rewrite (Permutation_length (flatten_rows p)). reflexivity. }
    cbn [map wsum at_odd at_even zsum fold_right snd]. rewrite (Hk x), (Hk y) by (cbn; auto).
    assert (O1 : Z.odd i = false) by (rewrite <- Z.negb_even, Hi; reflexivity).
    assert (O2 : Z.odd (i + 1) = true) by (rewrite Z.odd_add, O1; reflexivity).
    rewrite O1, O2. cbn [Bool.eqb zmem existsb negb b2z].
    assert (E1 : Z.even (Z.of_nat (length l)) = true).
    { cbn [length] in Hev. rewrite <- Hev. rewrite !Nat2Z.inj_succ, !Z.even_succ, Z.odd_succ. reflexivity. }
    specialize (IH ltac:(intros z Hz; apply Hin; cbn; auto) E1 (i + 1 + 1)).
    assert (E2 : Z.even (i + 1 + 1) = true) by (rewrite <- Z.negb_odd, Z.odd_add, O2; reflexivity).
    specialize (IH E2). cbn [zsum] in *. unfold zsum in *. cbn [fold_right] in *. lia.
Qed.

(** With an even number of keys and a fixed chunk size, the iteration delivers everything and ends if the keys at the
    odd positions of the shuffled order make as many chunks as those at the even positions, or one more; otherwise it
    never ends: no [fuel] is enough, and this shows after at most as many calls as there are rows. *)
Theorem C05_even_exact : forall c fuel idx order h0 r0 son ops q os,
  index_ok idx -> Permutation order (map fst idx) -> Z.even (Z.of_nat (length idx)) = true -> 1 <= c ->
  Forall (fun o => fixed_size c (op_heap o)) ops ->
  qrun (S fuel) ops (qr_init idx order h0 r0 son) = (q, os) ->
  (balanced c idx order -> (length idx * length idx <= S fuel)%nat ->
     ~ In (NErr OutOfFuel) os
     /\ ((length (all_rows idx) < length os)%nat ->
         In NStop os /\ Permutation (all_rows idx) (flat_map (fun ch => all_rows (rc_index ch)) (chunks os))))
  /\ (~ balanced c idx order ->
     (In NStop os -> In (NErr OutOfFuel) os)
     /\ ((length (all_rows idx) < length os)%nat -> In (NErr OutOfFuel) os)).
Proof.
  intros c fuel idx order h0 r0 son ops q os Hix Hord Hev Hc Hops Hrun.
  assert (Hlen : length order = length idx) by (rewrite (Permutation_length Hord); apply map_length).
  assert (Hev' : Z.even (Z.of_nat (length order)) = true) by (rewrite Hlen; exact Hev).
  pose proof (qinit_inv idx order Hix Hord h0 r0 son) as Hq. pose proof (kidinv_init idx order h0 r0 son) as Hk.
  pose proof (arb_init idx order Hix Hord h0 r0 son) as Ha.
  assert (Hops' : Forall (fun o => arbitrary_heap (op_heap o) /\ heap_ok (op_heap o)) ops).
  { eapply Forall_impl; [|exact Hops]. intros o Ho. assert (arbitrary_heap (op_heap o)) by (eapply const_arbitrary; eauto).
    split; [assumption|apply arbitrary_heap_ok; assumption]. }
  destruct (arb_run idx order Hix Hord fuel ops _ [] q os Hops' Hq Hk Ha Hrun) as (A & _). cbn [app] in A.
  set (v := zsum (map (chunks_needed c idx) (at_odd order)) - zsum (map (chunks_needed c idx) (at_even order))).
  assert (Hv : even_inv idx order c v (qr_init idx order h0 r0 son) []).
  { unfold even_inv. cbn [qgen q_gen qr_init gen_init g_comps g_empty g_kidx]. unfold lead. cbn [Z.odd b2z].
    rewrite Z.add_0_r. unfold v. apply lead_start; auto. intros k Hin. eapply Permutation_in; eauto. }
  destruct (even_run idx order Hix Hord Hev' c Hc fuel v ops _ [] q os Hops Hq Hk Ha Hv Hrun) as [R1 R2]. cbn [app] in R1.
  assert (Hbal : balanced c idx order <-> v = 0 \/ v = 1) by (unfold balanced, v; cbv zeta; lia).
  split.
  - intros Hb Hfu. rewrite Hlen in R2. specialize (R2 (proj1 Hbal Hb) Hfu). split; [exact R2|]. intros Hl.
    assert (Hs : In NStop os) by (eapply arb_stops; eauto). split; [exact Hs|]. eapply arb_stop_all; eauto.
  - intros Hb. assert (Hnb : ~ (v = 0 \/ v = 1)) by tauto.
    assert (Hstop : In NStop os -> In (NErr OutOfFuel) os).
    { intros Hs. unfold even_inv in R1. pose proof (ab_gen _ _ _ _ A) as G. destruct (qgen idx order q) as [g|g|].
      - destruct G as (_ & _ & _ & _ & G). destruct (G _ Hs). discriminate.
      - destruct G.
      - destruct R1 as [R1|R1]; [exact R1|contradiction]. }
    split; [exact Hstop|]. intros Hl.
    destruct (existsb (fun o => match o with NErr OutOfFuel => true | _ => false end) os) eqn:E.
    + apply existsb_exists in E as (o & Hin & Ho). destruct o as [| | |e]; try discriminate. destruct e; try discriminate. exact Hin.
    + assert (Hne : ~ In (NErr OutOfFuel) os).
      { intros Hin. assert (existsb (fun o => match o with NErr OutOfFuel => true | _ => false end) os = true); [|congruence].
        apply existsb_exists. exists (NErr OutOfFuel). auto. }
      apply Hstop. eapply arb_stops; eauto.
Qed.
Print Assumptions C05_even_exact.

Lemma at_even_odd_length {A} (l : list A) : Z.even (Z.of_nat (length l)) = true -> length (at_odd l) = length (at_even l).
Proof.
  induction l as [|x|x y l IH] using two_ind; intros H; [reflexivity|discriminate|]. cbn [at_odd at_even length]. f_equal. apply IH.
  cbn [length] in H. rewrite <- H. rewrite !Nat2Z.inj_succ, !Z.even_succ, Z.odd_succ. reflexivity.
Qed.
Lemma at_odd_in {A} (l : list A) x : In x (at_odd l) -> In x l.
Proof. induction l as [|y|y z l IH] using two_ind; cbn; [auto|tauto|]. intros [H|H]; auto. Qed.
Lemma at_even_in {A} (l : list A) x : In x (at_even l) -> In x l.
Proof. induction l as [|y|y z l IH] using two_ind; cbn; [auto|tauto|]. intros [H|H]; auto. Qed.
Lemma zsum_const {A} (f : A -> Z) n l : (forall x, In x l -> f x = n) -> zsum (map f l) = n * Z.of_nat (length l).
Proof.
  induction l as [|x l IH]; intros H; cbn [map length]; [cbn; lia|]. unfold zsum in *. cbn [fold_right]. rewrite IH by (intros; apply H; cbn; auto).
  rewrite (H x) by (cbn; auto). lia.
Qed.

(** Every key makes the same number of chunks: the iteration ends whatever the number of keys and their order. *)
Theorem C05_equal_keys : forall c n fuel idx order h0 r0 son ops q os,
  index_ok idx -> Permutation order (map fst idx) -> 1 <= c -> (forall k, In k (map fst idx) -> chunks_needed c idx k = n) ->
  Forall (fun o => fixed_size c (op_heap o)) ops -> (length idx * length idx <= S fuel)%nat ->
  qrun (S fuel) ops (qr_init idx order h0 r0 son) = (q, os) ->
  ~ In (NErr OutOfFuel) os
  /\ ((length (all_rows idx) < length os)%nat ->
      In NStop os /\ Permutation (all_rows idx) (flat_map (fun ch => all_rows (rc_index ch)) (chunks os))).
Proof.
  intros c n fuel idx order h0 r0 son ops q os Hix Hord Hc Hn Hops Hfu Hrun.
  assert (Hlen : length order = length idx) by (rewrite (Permutation_length Hord); apply map_length).
  destruct (Z.even (Z.of_nat (length idx))) eqn:Hev.
  - destruct (C05_even_exact c fuel idx order h0 r0 son ops q os Hix Hord Hev Hc Hops Hrun) as [H _]. apply H; [|exact Hfu].
    left. rewrite !(zsum_const _ n).
    + rewrite at_even_odd_length by (rewrite Hlen; exact Hev). reflexivity.
    + intros k Hk. apply Hn. eapply Permutation_in; [exact Hord|apply at_even_in, Hk].
    + intros k Hk. apply Hn. eapply Permutation_in; [exact Hord|apply at_odd_in, Hk].
  - assert (Hops' : Forall (fun o => arbitrary_heap (op_heap o)) ops).
    { eapply Forall_impl; [|exact Hops]. intros o Ho. eapply const_arbitrary; eauto. }
    destruct (C05_arbitrary_everything_partial fuel idx order h0 r0 son ops q os Hix Hord Hops' Hrun) as (_ & _ & _ & H4 & H5).
    rewrite <- Z.negb_even, Hev in H5. destruct (H5 eq_refl Hfu) as [H6 H7]. split; [exact H6|]. intros Hl. auto.
Qed.
Print Assumptions C05_equal_keys.

(** The livelock of [C05_arbitrary_livelock_refuted], and the same data with chunks of 101 rows, which gets through;
    two orders of three-chunk and two-chunk keys, of which one gets through. *)
Definition idx_bal : index := [(ka, [(0, [(0, [(0, 5)])])]); (kb, [(0, [(0, [(5, 14)])])])].
Example C05_even_example :
  ~ balanced 4 idx_rr [kb; ka] /\ balanced 101 idx_rr [kb; ka]
  /\ map (chunks_needed 4 idx_bal) [ka; kb] = [2; 3] /\ balanced 4 idx_bal [ka; kb] /\ ~ balanced 4 idx_bal [kb; ka]
  /\ fixed_size 4 heap_rr /\ Z.even (Z.of_nat (length idx_rr)) = true
  /\ snd (qrun 10 (repeat (Next heap_rr) 6) (qr_init idx_bal [ka; kb] heap_rr 0 false))
     <> snd (qrun 10 (repeat (Next heap_rr) 6) (qr_init idx_bal [kb; ka] heap_rr 0 false)).
Proof.
  split; [intros [H|H]; vm_compute in H; discriminate|]. split; [left; vm_compute; reflexivity|].
  split; [vm_compute; reflexivity|]. split; [right; vm_compute; reflexivity|].
  split; [intros [H|H]; vm_compute in H; discriminate|].
  split; [intros r; split; reflexivity|]. split; [reflexivity|]. vm_compute. discriminate.
Qed.
