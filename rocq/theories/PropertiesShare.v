(** Theorems about how long a best-effort query keeps its mixture (C93).  Vocabulary: SpecChunk.v, SpecCount.v, SpecShare.v;
    [belongs idx k x] (PropertiesChunk2.v): row [x] is listed under a property combination that equals the key [k]; [installed]: the mixture object
    that is installed at each call. *)
From Verif Require Import Base MixtureKeyModel MixtureKeyProofs UtilsModel UtilsProofs ChunkGenModel SpecChunk SpecCount SpecShare ChunkGenProofs1
  ChunkGenProofs2 ChunkGenProofs3 ChunkGenProofs4 ChunkGenProofs5 ChunkGenProofs6 ChunkGenProofs7 ChunkGenProofs9 ChunkGenProofs12
  ChunkGenProofs15 PropertiesChunk PropertiesChunk2 PropertiesCount.
From Coq Require Import ZifyBool ZifyNat.
Open Scope Z_scope.

Lemma under_sum K (c : index) : NoDup K -> zsum (map (fun k => Z.of_nat (length (rows_under k c))) K) <= Z.of_nat (length (all_rows c)).
Proof.
  intros HK. induction c as [|[k' p] c IH].
  - unfold rows_under, all_rows. cbn. clear HK. induction K as [|k K IHK]; cbn [map]; [cbn; lia|]. rewrite zsum_cons. lia.
  - unfold all_rows in *. cbn [flat_map snd]. rewrite app_length, Nat2Z.inj_add.
    assert (G : zsum (map (fun k => Z.of_nat (length (rows_under k ((k', p) :: c)))) K)
              <= Z.of_nat (length (rows_of p)) + zsum (map (fun k => Z.of_nat (length (rows_under k c))) K)).
    { clear IH. induction HK as [|k K Hn HK IHK]; cbn [map]; [cbn; lia|]. rewrite !zsum_cons.
      assert (E : Z.of_nat (length (rows_under k ((k', p) :: c))) = (if mkey_eqb k' k then Z.of_nat (length (rows_of p)) else 0) + Z.of_nat (length (rows_under k c))).
      { unfold rows_under. cbn [flat_map fst snd]. rewrite app_length, Nat2Z.inj_add. destruct (mkey_eqb k' k); reflexivity. }
      rewrite E. destruct (mkey_eqb k' k) eqn:Ek; [|lia]. apply mkey_eqb_spec in Ek. subst k'.
      assert (G : zsum (map (fun k0 => Z.of_nat (length (rows_under k0 ((k, p) :: c)))) K) = zsum (map (fun k0 => Z.of_nat (length (rows_under k0 c))) K)).
      { f_equal. apply map_ext_in. intros k0 Hk0. unfold rows_under. cbn [flat_map fst snd]. rewrite mkey_eqb_neq by (intros ->; contradiction). reflexivity. }
      rewrite G. lia. }
    lia.
Qed.

Lemma sums_equal {A} (f g : A -> Z) K : (forall k, In k K -> f k <= g k) -> zsum (map g K) <= zsum (map f K) -> forall k, In k K -> f k = g k.
Proof.
  induction K as [|k0 K IH]; [intros _ _ k []|]. intros H1 H2. cbn [map] in H2. rewrite !zsum_cons in H2.
  assert (G : zsum (map f K) <= zsum (map g K)).
  { clear IH H2. induction K as [|k1 K IHK]; cbn [map]; [lia|]. rewrite !zsum_cons.
    assert (f k1 <= g k1) by (apply H1; cbn; auto). assert (zsum (map f K) <= zsum (map g K)) by (apply IHK; intros k [<-|Hk]; apply H1; cbn; auto). lia. }
  assert (H0 : f k0 <= g k0) by (apply H1; left; reflexivity).
  intros k [<-|Hk]; [lia|]. apply IH; [intros; apply H1; right; assumption|lia|exact Hk].
Qed.

Lemma gave_prefix os i : (forall j, (j < i)%nat -> gave_chunk os j) -> (i <= length os)%nat -> Forall (fun o => exists c, o = NChunk c) (firstn i os).
Proof.
  intros H Hl. apply Forall_forall. intros o Ho. apply In_nth_error in Ho as [j Hj].
  assert (Hji : (j < i)%nat). { assert (L : (j < length (firstn i os))%nat) by (apply nth_error_Some; congruence). rewrite firstn_length in L. lia. }
  destruct (H j Hji) as [c Hc]. exists c. assert (E : nth_error (firstn i os) j = nth_error os j).
  { rewrite <- (firstn_skipn i os) at 2. symmetry. apply nth_error_app1. rewrite firstn_length. lia. }
  congruence.
Qed.

Lemma firstn_last {A} (l : list A) i x : nth_error l i = Some x -> firstn (S i) l = firstn i l ++ [x].
Proof. revert i. induction l as [|y l IH]; intros [|i] H; cbn in *; try discriminate; [congruence|]. f_equal. apply IH, H. Qed.

(** ** A key that gets less than it asks for has been exhausted *)
Lemma working_ok ops : forall os inst held w, Forall (fun o => heap_ok (op_heap o)) ops -> In w (working ops os inst held) -> mixture_ok (m_rows w).
Proof.
  induction ops as [|[h|h r] ops IH]; intros os inst held w H Hw; cbn [working] in Hw; [destruct Hw| |]; inversion H; subst.
  - destruct os; [destruct Hw|]. destruct Hw as [<-|Hw]; [apply (H2 _)|eapply IH; eauto].
  - eapply IH; eauto.
Qed.

Section Step.
  Context (fuel : nat) (idx : index) (order : list mkey) (h0 : heap) (r0 : ref) (son : bool) (ops : list qop) (q : qr) (os : list nout)
    (i : nat) (c : rchunk) (m : mixobj).
  Hypothesis Hix : index_ok idx.
  Hypothesis Hord : Permutation order (map fst idx).
  Hypothesis Hh : heap_ok h0.
  Hypothesis Hops : Forall (fun o => heap_ok (op_heap o)) ops.
  Hypothesis Hrun : qrun (S fuel) ops (qr_init idx order h0 r0 son) = (q, os).
  Hypothesis Hb : forall j, (j < i)%nat -> gave_chunk os j.
  Hypothesis Hi : nth_error os i = Some (NChunk c).
  Hypothesis Hw : nth_error (working ops os r0 None) i = Some m.
  Hypothesis Hne : m_rows m <> [].

  Lemma share_w k n : In (k, n) (m_rows m) ->
    n <= Z.of_nat (length (rows_under k (rc_index c))) \/ forall x, belongs idx k x -> In x (delivered_rows (firstn (S i) os)).
  Proof using Hix Hord Hops Hrun Hb Hi Hw Hne.
    intros Hk. assert (Hl : (i < length os)%nat) by (apply nth_error_Some; congruence).
    pose proof (working_ok _ _ _ _ _ Hops (nth_error_In _ _ Hw)) as Hmok.
    assert (Hask : asked (m_rows m) k = n) by (unfold asked; rewrite (in_aget _ mkey_eqb_spec k n _ (proj1 Hmok) Hk); reflexivity).
    pose proof Hrun as R. rewrite <- (firstn_skipn (S i) os) in R. destruct (qrun_prefix _ _ _ _ _ _ R) as (ops1 & q1 & R1 & I & W).
    rewrite (firstn_skipn (S i) os) in W. rewrite (firstn_last _ _ _ Hi) in *.
    assert (Hlen : length (firstn i os) = i) by (rewrite firstn_length; lia).
    pose proof (share_run idx order Hix Hord fuel ops1 (qr_init idx order h0 r0 son) [] r0 None None 0 q1 (firstn i os) c m) as S.
    rewrite <- Hask. cbn [app] in S. unfold delivered_rows.
    apply S; clear S.
    - apply Forall_forall. intros x Hx. rewrite Forall_forall in Hops. apply Hops, I, Hx.
    - apply (qinit_inv idx order Hix Hord h0 r0 son).
    - apply (hist_init idx order h0 r0 son).
    - apply (chunk_only_init idx order Hix Hord h0 r0 son).
    - apply gave_prefix; [exact Hb|lia].
    - exact R1.
    - rewrite Hlen, W by (rewrite app_length, Hlen; cbn; lia). exact Hw.
    - exact Hne.
    - apply (in_map fst) in Hk. exact Hk.
  Qed.

  Lemma exact_w : zsum (map snd (m_rows m)) = m_csize m ->
    (forall k n, In (k, n) (m_rows m) -> n <= Z.of_nat (length (rows_under k (rc_index c)))) -> follows c m.
  Proof using Hix Hord Hh Hops Hrun Hi Hw Hne.
    intros Hfull Hge0. pose proof (proj1 (working_ok _ _ _ _ _ Hops (nth_error_In _ _ Hw))) as Hmok.
    destruct (C04_best_effort_full _ _ _ _ _ _ _ _ _ _ _ _ Hix Hord Hh Hops Hrun Hi Hw Hne Hfull) as (_ & Hall & mix & _ & Hinc & Hmix).
    assert (Hge : forall k, In k (map fst (m_rows m)) -> asked (m_rows m) k <= Z.of_nat (length (rows_under k (rc_index c)))).
    { intros k Hk. apply in_map_iff in Hk as ([k' n] & E & Hk). cbn in E. subst k'.
      unfold asked. rewrite (in_aget _ mkey_eqb_spec k n _ Hmok Hk). apply Hge0, Hk. }
    intros k. destruct (in_dec mkey_eq_dec k (map fst (m_rows m))) as [Hk|Hk].
    - symmetry. apply (sums_equal (asked (m_rows m)) (fun k => Z.of_nat (length (rows_under k (rc_index c)))) (map fst (m_rows m)) Hge); [|exact Hk].
      pose proof (under_sum _ (rc_index c) Hmok) as U. rewrite Hall, <- Hfull in U. rewrite (zsum_over_keys (m_rows m) (map fst (m_rows m)) Hmok Hmok (incl_refl _)) in U. exact U.
    - rewrite Hmix. assert (Z0 : forall l, ~ In k (map fst l) -> asked l k = 0) by (intros l Hn; exact (lookup0_notin k l Hn)).
      rewrite !Z0; auto.
  Qed.
End Step.

(** While every call has given a chunk: a chunk lists, for each key of the installed mixture, at least as many rows as the mixture asks,
    or all rows that match the key have been delivered with it. *)
Theorem C93_share_or_all : forall fuel idx order h0 r0 son ops q os i c m,
  index_ok idx -> Permutation order (map fst idx) -> heap_ok h0 -> Forall (fun o => heap_ok (op_heap o)) ops ->
  qrun (S fuel) ops (qr_init idx order h0 r0 son) = (q, os) ->
  (forall j, (j < i)%nat -> gave_chunk os j) -> nth_error os i = Some (NChunk c) -> nth_error (installed ops r0) i = Some m -> m_rows m <> [] ->
  forall k n, In (k, n) (m_rows m) ->
    n <= Z.of_nat (length (rows_under k (rc_index c))) \/ forall x, belongs idx k x -> In x (delivered_rows (firstn (S i) os)).
Proof.
  intros fuel idx order h0 r0 son ops q os i c m Hix Hord Hh Hops Hrun Hb Hi Hm Hne k n Hk.
  assert (Hl : (i < length os)%nat) by (apply nth_error_Some; congruence).
  assert (Hw : nth_error (working ops os r0 None) i = Some m).
  { apply working_installed; auto. intros j ->. destruct (Hb j ltac:(lia)) as [d Hd]. eauto. }
  eapply share_w; eauto.
Qed.
Print Assumptions C93_share_or_all.

(** ** As long as no key is exhausted the mixture is followed exactly *)
(** A best-effort chunk differs from the mixture only if all rows of some key of the mixture have been delivered with it. *)
Theorem C93_exact_unless_exhausted : forall fuel idx order h0 r0 son ops q os i c m,
  index_ok idx -> Permutation order (map fst idx) -> heap_ok h0 -> Forall (fun o => heap_ok (op_heap o)) ops ->
  qrun (S fuel) ops (qr_init idx order h0 r0 son) = (q, os) ->
  (forall j, (j < i)%nat -> gave_chunk os j) -> nth_error os i = Some (NChunk c) -> nth_error (installed ops r0) i = Some m ->
  m_rows m <> [] -> zsum (map snd (m_rows m)) = m_csize m ->
  (forall k, In k (map fst (m_rows m)) -> exists x, belongs idx k x /\ ~ In x (delivered_rows (firstn (S i) os))) ->
  follows c m.
Proof.
  intros fuel idx order h0 r0 son ops q os i c m Hix Hord Hh Hops Hrun Hb Hi Hm Hne Hfull Hleft.
  assert (Hl : (i < length os)%nat) by (apply nth_error_Some; congruence).
  assert (Hw : nth_error (working ops os r0 None) i = Some m).
  { apply working_installed; auto. intros j ->. destruct (Hb j ltac:(lia)) as [d Hd]. eauto. }
  apply (exact_w fuel idx order h0 r0 son ops q os i c m Hix Hord Hh Hops Hrun Hi Hw Hne Hfull). intros k n Hk.
  destruct (share_w fuel idx order h0 r0 son ops q os i c m Hix Hord Hops Hrun Hb Hi Hw Hne k n Hk) as [G|G]; [exact G|].
  destruct (Hleft k) as (x & X1 & X2); [apply (in_map fst) in Hk; exact Hk|]. exfalso. apply X2, G, X1.
Qed.
Print Assumptions C93_exact_unless_exhausted.

(** ** How long that is *)
(** With one best-effort mixture whose keys share no property combination: the first i+1 chunks follow the mixture exactly, if and only if
    the query has i+1 times what the mixture asks of every key. *)
Theorem C93_exact_while_data_last_partial : forall fuel idx order h0 r0 son ops q os m,
  index_ok idx -> Permutation order (map fst idx) -> heap_ok h0 -> Forall (fun o => heap_ok (op_heap o)) ops ->
  qrun (S fuel) ops (qr_init idx order h0 r0 son) = (q, os) -> (forall w, In w (working ops os r0 None) -> w = m) ->
  m_rows m <> [] -> m_strict m = false -> Forall (fun kv => 0 < snd kv) (m_rows m) -> zsum (map snd (m_rows m)) = m_csize m ->
  keys_apart idx (m_rows m) ->
  forall i, (i < length os)%nat ->
    ((forall j, (j <= i)%nat -> exists c, nth_error os j = Some (NChunk c) /\ follows c m)
     <-> forall k n, In (k, n) (m_rows m) -> (Z.of_nat i + 1) * n <= Z.of_nat (length (available idx k))).
Proof.
  intros fuel idx order h0 r0 son ops q os m Hix Hord Hh Hops Hrun Hm Hne Hst Hpos Hfull Hap i Hi.
  destruct (m_ok fuel idx order h0 r0 son ops q os m Hh Hops Hrun Hm) as [Hnd _]; [intros ->; cbn in Hi; lia|].
  assert (Hr : reachable (S fuel) idx order q os) by (exists h0, r0, son, ops; auto).
  assert (Hask : forall k n, In (k, n) (m_rows m) -> asked (m_rows m) k = n).
  { intros k n Hk. unfold asked. rewrite (in_aget _ mkey_eqb_spec k n _ Hnd Hk). reflexivity. }
  (** rows listed under [k] by a prefix that follows the mixture *)
  assert (Hcount : forall i0 k n, In (k, n) (m_rows m) -> (i0 <= length os)%nat ->
            (forall j, (j < i0)%nat -> exists c, nth_error os j = Some (NChunk c) /\ follows c m) ->
            Z.of_nat (length (flat_map (fun c => rows_under k (rc_index c)) (chunks (firstn i0 os)))) = Z.of_nat i0 * n).
  { intros i0 k n Hk Hl Hf.
    assert (Hg : Forall delivered (firstn i0 os)).
    { apply gave_prefix; [|exact Hl]. intros j Hj. destruct (Hf j Hj) as (c & Hc & _). exists c. exact Hc. }
    rewrite (flat_length _ n).
    - rewrite (chunks_len _ Hg), firstn_length, Nat.min_l by exact Hl. reflexivity.
    - intros c Hc. rewrite <- (Hask k n Hk). assert (G : In (NChunk c) (firstn i0 os)) by (rewrite <- (chunks_all _ Hg); apply in_map, Hc).
      apply In_nth_error in G as [j Hj]. assert (L : (j < length (firstn i0 os))%nat) by (apply nth_error_Some; congruence). rewrite firstn_length in L.
      destruct (Hf j ltac:(lia)) as (c' & Hc' & F). assert (E : nth_error (firstn i0 os) j = nth_error os j).
      { rewrite <- (firstn_skipn i0 os) at 2. symmetry. apply nth_error_app1. rewrite firstn_length. lia. }
      assert (c' = c) by congruence. subst c'. apply F. }
  split.
  - intros Hf k n Hk. rewrite <- (Hask k n Hk). specialize (Hcount (S i) k n Hk ltac:(lia)). rewrite (Hask k n Hk).
    replace ((Z.of_nat i + 1) * n) with (Z.of_nat (S i) * n) by lia. rewrite <- Hcount by (intros j Hj; apply Hf; lia).
    apply inj_le, NoDup_incl_length.
    + apply (listed_nodup fuel idx order h0 r0 son ops q os Hix Hord Hh Hops Hrun (fun c => rows_under k (rc_index c)) (firstn (S i) os) (skipn (S i) os)); [symmetry; apply firstn_skipn| |].
      * apply (under_nodup k).
      * apply (under_incl k).
    + intros x Hx. apply in_available. apply in_flat_map in Hx as (c & Hc & Hx).
      apply (under_belongs fuel idx order h0 r0 son ops q os Hix Hord Hh Hops Hrun k c x); [|exact Hx].
      apply (in_chunks os (firstn (S i) os) (skipn (S i) os)); [symmetry; apply firstn_skipn|exact Hc].
  - intros Hav.
    (** every call up to [i] delivers: the data of all keys together suffice *)
    assert (Hany : (Z.of_nat i + 1) * m_csize m <= Z.of_nat (length (available_any idx (map fst (m_rows m))))).
    { assert (Hflat : NoDup (flat_map (available idx) (map fst (m_rows m))) /\ incl (flat_map (available idx) (map fst (m_rows m))) (available_any idx (map fst (m_rows m)))).
      { split.
        - assert (Hsub : incl (map fst (m_rows m)) (map fst (m_rows m))) by apply incl_refl. revert Hsub Hnd. clear - Hix Hap. generalize (map fst (m_rows m)) at 1 3 4 as K.
          induction K as [|k K IH]; intros Hs Hn; cbn [flat_map]; [constructor|]. inversion Hn as [|? ? N1 N2]; subst. apply NoDup_app_iff.
          split; [apply available_nodup, (ix_rows _ Hix)|]. split; [apply IH; [intros x Hx; apply Hs; right; exact Hx|exact N2]|].
          intros x Hx Hy. apply in_flat_map in Hy as (k' & Hk' & Hy). apply in_available in Hx as (ck & p & A1 & A2 & A3). apply in_available in Hy as (ck' & p' & B1 & B2 & B3).
          assert (E : ck' = ck) by (eapply (idx_rows_disj idx Hix); [exists p'; split; eassumption|exists p; split; eassumption]). subst ck'.
          assert (k = k'); [|subst; contradiction]. apply (Hap ck); auto; [apply (in_map fst) in A1; exact A1|apply Hs; left; reflexivity|apply Hs; right; exact Hk'].
        - intros x Hx. apply in_flat_map in Hx as (k & Hk & Hx). apply in_available_any. exists k. split; [exact Hk|]. apply in_available, Hx. }
      destruct Hflat as [F1 F2]. pose proof (NoDup_incl_length F1 F2) as L. rewrite <- Hfull.
      assert (G : (Z.of_nat i + 1) * zsum (map snd (m_rows m)) <= Z.of_nat (length (flat_map (available idx) (map fst (m_rows m))))).
      { clear - Hav. revert Hav. induction (m_rows m) as [|[k n] l IH]; intros H; cbn [map flat_map fst snd]; [cbn; lia|]. rewrite zsum_cons, app_length, Nat2Z.inj_add.
        assert (G1 := H k n (or_introl eq_refl)). assert (G2 := IH (fun k' n' Hk => H k' n' (or_intror Hk))). lia. }
      lia. }
    assert (Hdel : forall j, (j <= i)%nat -> gave_chunk os j).
    { intros j Hj. destruct (nth_error os j) as [o|] eqn:Eo; [|apply nth_error_None in Eo; lia].
      destruct (C92_best_effort _ _ _ _ _ _ _ _ _ _ Hix Hord Hh Hops Hrun Hm Hne Hst Hpos Hfull j o Eo) as [D _].
      destruct (proj2 D) as [c ->]; [|exists c; exact Eo].
      assert (0 <= m_csize m).
      { rewrite <- Hfull. apply zsum_nonneg. rewrite Forall_map. eapply Forall_impl; [|exact Hpos]. cbn. intros; lia. }
      eapply Z.le_trans; [|exact Hany]. apply Z.mul_le_mono_nonneg_r; lia. }
    assert (Hmain : forall j, (j <= S i)%nat -> forall j', (j' < j)%nat -> exists c, nth_error os j' = Some (NChunk c) /\ follows c m).
    { induction j as [|j IH]; [intros; lia|]. intros Hj j' Hj'. destruct (Nat.eq_dec j' j) as [->|Hn]; [|apply IH; lia].
      destruct (Hdel j ltac:(lia)) as [c Hc]. exists c. split; [exact Hc|].
      assert (Hw : nth_error (working ops os r0 None) j = Some m).
      { eapply working_m; eauto. }
      apply (exact_w fuel idx order h0 r0 son ops q os j c m Hix Hord Hh Hops Hrun Hc Hw Hne Hfull). intros k n Hk.
      assert (Hdj : forall j', (j' < j)%nat -> gave_chunk os j') by (intros j' Hlt; apply Hdel; lia).
      destruct (share_w fuel idx order h0 r0 son ops q os j c m Hix Hord Hops Hrun Hdj Hc Hw Hne k n Hk) as [G|G]; [exact G|].
      pose proof (Hcount j k n Hk ltac:(lia) (IH ltac:(lia))) as Hcj.
      assert (L : (length (available idx k) <= length (flat_map (fun c => rows_under k (rc_index c)) (chunks (firstn (S j) os))))%nat).
      { apply NoDup_incl_length; [apply available_nodup, (ix_rows _ Hix)|]. intros x Hx. apply in_available in Hx. pose proof (G x Hx) as Hd.
        unfold delivered_rows in Hd. apply in_flat_map in Hd as (c' & Hc' & Hx'). apply in_flat_map. exists c'. split; [exact Hc'|].
        assert (Hcos : In c' (chunks os)) by (apply (in_chunks os (firstn (S j) os) (skipn (S j) os)); [symmetry; apply firstn_skipn|exact Hc']).
        unfold all_rows in Hx'. apply in_flat_map in Hx' as ([k' p'] & Hin & Hxp). cbn [snd] in Hxp.
        destruct (C02_rows_from_matching_key _ _ _ _ _ _ _ _ _ Hix Hord Hr Hcos Hin Hxp) as (ck' & p2 & B1 & B2 & B3).
        destruct Hx as (ck & p & A1 & A2 & A3).
        assert (E : ck' = ck) by (eapply (idx_rows_disj idx Hix); [exists p2; split; eassumption|exists p; split; eassumption]). subst ck'.
        assert (Hk'm : In k' (map fst (m_rows m))).
        { assert (Gj : In (NChunk c') (firstn (S j) os)).
          { assert (Hg : Forall delivered (firstn (S j) os)) by (apply gave_prefix; [intros j2 Hj2; apply Hdel; lia|lia]). rewrite <- (chunks_all _ Hg). apply in_map, Hc'. }
          apply In_nth_error in Gj as [j2 Hj2]. assert (L2 : (j2 < length (firstn (S j) os))%nat) by (apply nth_error_Some; congruence).
          assert (E2 : nth_error os j2 = Some (NChunk c')).
          { rewrite <- Hj2. rewrite <- (firstn_skipn (S j) os) at 1. apply nth_error_app1, L2. }
          assert (Hw2 : nth_error (working ops os r0 None) j2 = Some m) by (eapply working_m; eauto).
          destruct (C04_best_effort_full _ _ _ _ _ _ _ _ _ _ _ _ Hix Hord Hh Hops Hrun E2 Hw2 Hne Hfull) as (_ & _ & mix & _ & Hinc & Hmix).
          destruct (in_dec mkey_eq_dec k' (map fst mix)) as [H|H]; [apply Hinc, H|exfalso].
          assert (Z0 : asked mix k' = 0) by exact (lookup0_notin k' mix H). specialize (Hmix k'). rewrite Z0 in Hmix.
          assert (Hx2 : In x (rows_under k' (rc_index c'))) by (unfold rows_under; apply in_flat_map; exists (k', p'); cbn [fst snd]; rewrite mkey_eqb_refl; auto).
          destruct (rows_under k' (rc_index c')); [destruct Hx2|cbn in Hmix; lia]. }
        assert (Ek : k' = k).
        { apply (Hap ck); [apply (in_map fst) in A1; exact A1|exact Hk'm|apply (in_map fst) in Hk; exact Hk|exact B2|exact A2]. }
        subst k'. unfold rows_under. apply in_flat_map. exists (k, p'). split; [exact Hin|]. cbn [fst snd]. rewrite mkey_eqb_refl. exact Hxp. }
      rewrite (firstn_last _ _ _ Hc), chunks_app, flat_map_app, app_length in L. cbn [chunks flat_map] in L. rewrite app_nil_r in L.
      specialize (Hav k n Hk). assert (0 < n). { rewrite Forall_forall in Hpos. exact (Hpos _ Hk). }
      assert ((Z.of_nat j + 1) * n <= (Z.of_nat i + 1) * n) by (apply Z.mul_le_mono_nonneg_r; lia). cbn [flat_map] in L. rewrite app_nil_r in L. clear - L Hcj H0 Hav. lia. }
    intros j Hj. exact (Hmain (S i) ltac:(lia) j ltac:(lia)).
Qed.
Print Assumptions C93_exact_while_data_last_partial.

(** ** Examples: 10 rows of [ka], 6 of [kb], two and three of them per chunk: two chunks follow the mixture, the third is filled up with [ka] *)
Example C93_example : exists q c1 c2 c3,
  qrun 20 (repeat (Next heap51) 4) (qr_init idx_ex order_ex heap51 0 true) = (q, [NChunk c1; NChunk c2; NChunk c3; NStop])
  /\ rc_mix c1 = Some [(ka, 2); (kb, 3)] /\ rc_mix c2 = Some [(ka, 2); (kb, 3)] /\ rc_mix c3 = Some [(ka, 5)]
  /\ length (rows_under ka (rc_index c3)) = 5%nat /\ length (rows_under kb (rc_index c3)) = 0%nat
  /\ (forall w, In w (working (repeat (Next heap51) 4) [NChunk c1; NChunk c2; NChunk c3; NStop] 0 None) -> w = mkMix [(ka, 2); (kb, 3)] false 5)
  /\ keys_apart idx_ex [(ka, 2); (kb, 3)] /\ installed (repeat (Next heap51) 4) 0 = repeat (mkMix [(ka, 2); (kb, 3)] false 5) 4.
Proof.
  do 4 eexists. split; [vm_compute; reflexivity|]. do 5 (split; [reflexivity|]). split; [|split; [|reflexivity]].
  - intros w Hw. cbn in Hw. crush_in; subst; reflexivity.
  - intros ck k k' H1 H2 H3 H4 H5. cbn in H1, H2, H3. crush_in; subst; try reflexivity; vm_compute in H4; vm_compute in H5; (discriminate H4 || discriminate H5).
Qed.

(** ** Keys that share property combinations *)
(** Two rows with the values (10, 20) and two with (10, 21); the mixture asks for two rows with 10 and two with (10, 20).  The query holds
    such a chunk, but the general key takes the rows with (10, 20) and the chunk delivered has no row under the special key. *)
Definition heap93s : heap := fun _ => mkMix [(kg, 2); (ks1, 2)] false 4.
Theorem C93_shared_refuted : exists q d c, index_ok idx92 /\ Permutation order92 (map fst idx92) /\ heap_ok heap93s
  /\ qrun 20 [Next heap93s] (qr_init idx92 order92 heap93s 0 false) = (q, [NChunk d])
  /\ rows_under ks1 (rc_index d) = [] /\ ~ follows d (heap93s 0)
  /\ (forall k n, In (k, n) (m_rows (heap93s 0)) -> 1 * n <= Z.of_nat (length (available idx92 k)))
  /\ NoDup (all_rows c) /\ (forall k p x, In (k, p) c -> In x (rows_of p) -> belongs idx92 k x)
  /\ (forall k n, In (k, n) (m_rows (heap93s 0)) -> Z.of_nat (length (rows_under k c)) = n).
Proof.
  destruct C92_shared_refuted as (_ & c & Hix & Hord & _ & _ & Hnd & Hbel & Hcnt).
  eexists _, _, c. split; [exact Hix|]. split; [exact Hord|]. split.
  { intros r. cbn. split; [split|lia]; repeat constructor; cbn; try lia; unfold kg, ks1; intuition discriminate. }
  split; [vm_compute; reflexivity|]. split; [reflexivity|]. split.
  { intros F. specialize (F ks1). vm_compute in F. discriminate F. }
  split. { intros k n H. cbn in H. crush_in; vm_compute; discriminate. }
  split; [exact Hnd|]. split; [exact Hbel|]. exact Hcnt.
Qed.
Print Assumptions C93_shared_refuted.
