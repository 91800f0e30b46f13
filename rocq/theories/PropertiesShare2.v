(** C93 for mixtures that change between the calls.  Vocabulary as in PropertiesShare.v. *)
From Verif Require Import Base MixtureKeyModel MixtureKeyProofs UtilsModel UtilsProofs ChunkGenModel SpecChunk SpecCount SpecShare ChunkGenProofs1
  ChunkGenProofs2 ChunkGenProofs3 ChunkGenProofs4 ChunkGenProofs5 ChunkGenProofs6 ChunkGenProofs7 ChunkGenProofs9 ChunkGenProofs12
  ChunkGenProofs14 ChunkGenProofs15 PropertiesChunk PropertiesChunk2 PropertiesCount PropertiesShare.
From Coq Require Import ZifyBool ZifyNat.
Open Scope Z_scope.

Lemma installed_len fuel ops : forall q q' os inst, qrun fuel ops q = (q', os) -> length (installed ops inst) = length os.
Proof.
  induction ops as [|[h|h r] ops IH]; intros q q' os inst H; cbn [qrun installed] in *.
  - injection H as _ <-. reflexivity.
  - destruct (qr_next fuel h q) as [q1 o1]. destruct (qrun fuel ops q1) as [q2 os2] eqn:E2. injection H as _ <-. cbn [length]. f_equal. eapply IH, E2.
  - eapply IH, H.
Qed.

Lemma firstn_nth {A} (l : list A) n j : (j < n)%nat -> nth_error (firstn n l) j = nth_error l j.
Proof. revert n j. induction l as [|x l IH]; intros [|n] [|j] H; cbn; auto; try lia. apply IH. lia. Qed.

Lemma zsum_le_len {A} (f : mkey -> list A) l : (forall k n, In (k, n) l -> n <= Z.of_nat (length (f k))) ->
  zsum (map snd l) <= Z.of_nat (length (flat_map f (map fst l))).
Proof.
  induction l as [|[k n] l IH]; intros H; cbn [map flat_map fst snd]; [cbn; lia|]. rewrite zsum_cons, app_length, Nat2Z.inj_add.
  assert (G1 := H k n (or_introl eq_refl)). assert (G2 := IH (fun k' n' Hk => H k' n' (or_intror Hk))). lia.
Qed.

Section Changing.
  Context (fuel : nat) (idx : index) (order : list mkey) (h0 : heap) (r0 : ref) (son : bool) (ops : list qop) (q : qr) (os : list nout).
  Hypothesis Hix : index_ok idx.
  Hypothesis Hord : Permutation order (map fst idx).
  Hypothesis Hh : heap_ok h0.
  Hypothesis Hops : Forall (fun o => heap_ok (op_heap o)) ops.
  Hypothesis Hrun : qrun (S fuel) ops (qr_init idx order h0 r0 son) = (q, os).
  Notation ms := (installed ops r0).
  Hypothesis Hms : forall m, In m ms -> m_rows m <> [] /\ (m_strict m = true \/ (Forall (fun kv => 0 < snd kv) (m_rows m) /\ zsum (map snd (m_rows m)) = m_csize m)).
  Hypothesis Hap : forall ck m m' k k', In ck (map fst idx) -> In m ms -> In m' ms -> In k (map fst (m_rows m)) -> In k' (map fst (m_rows m')) ->
    key_eq k ck = true -> key_eq k' ck = true -> k = k'.

  Definition good (j : nat) : Prop := exists c m, nth_error os j = Some (NChunk c) /\ nth_error ms j = Some m /\ follows c m.
  Notation under k j := (flat_map (fun c => rows_under k (rc_index c)) (chunks (firstn j os))).
  Notation used k j := (zsum (map (fun m => asked (m_rows m) k) (firstn j ms))).

  Lemma inst_ok m : In m ms -> mixture_ok (m_rows m).
  Proof using Hops.
    clear - Hops. revert m. generalize r0. induction ops as [|[h|h r] ops' IH]; intros inst m H; cbn [installed] in H; [destruct H| |]; inversion Hops; subst.
    - destruct H as [<-|H]; [apply (H2 _)|eapply IH; eauto].
    - eapply IH; eauto.
  Qed.

  Lemma goods_gave j : (forall j', (j' < j)%nat -> good j') -> (forall j', (j' < j)%nat -> gave_chunk os j').
  Proof using. intros H j' Hj. destruct (H j' Hj) as (c & m & Hc & _). exists c. exact Hc. Qed.

  Lemma under_count k j : (forall j', (j' < j)%nat -> good j') -> Z.of_nat (length (under k j)) = used k j.
  Proof using Hap Hms idx ops os r0.
    induction j as [|j IH]; intros H; [reflexivity|]. destruct (H j ltac:(lia)) as (c & m & Hc & Hm & F).
    rewrite (firstn_last _ _ _ Hc), (firstn_last _ _ _ Hm), chunks_app, flat_map_app, app_length, Nat2Z.inj_add, IH by (intros; apply H; lia).
    rewrite map_app, zsum_app. change (flat_map (fun c => rows_under k (rc_index c)) (chunks [NChunk c])) with (rows_under k (rc_index c) ++ []). rewrite app_nil_r, F. cbn [map]. change (zsum [asked (m_rows m) k]) with (asked (m_rows m) k + 0). lia.
  Qed.

  Lemma rows_key x c : In c (chunks os) -> In x (all_rows (rc_index c)) -> exists k, In x (rows_under k (rc_index c)) /\ belongs idx k x.
  Proof using Hix Hord Hh Hops Hrun Hms Hap.
    intros Hc Hx. unfold all_rows in Hx. apply in_flat_map in Hx as ([k p] & Hin & Hx). cbn [snd] in Hx.
    pose proof (reach _ _ _ _ _ _ _ _ _ Hh Hops Hrun) as Hr.
    exists k. split; [|exact (C02_rows_from_matching_key _ _ _ _ _ _ _ _ _ Hix Hord Hr Hc Hin Hx)].
    unfold rows_under. apply in_flat_map. exists (k, p). split; [exact Hin|]. cbn [fst snd]. rewrite mkey_eqb_refl. exact Hx.
  Qed.

  (** What is left of a key after calls that followed their mixtures. *)
  Lemma left_over k m j : In m ms -> In k (map fst (m_rows m)) -> (j <= length os)%nat -> (forall j', (j' < j)%nat -> good j') ->
    Z.of_nat (length (available idx k)) - used k j <= Z.of_nat (length (minus (available idx k) (delivered_rows (firstn j os)))).
  Proof using Hix Hord Hh Hops Hrun Hms Hap.
    intros Hm Hk Hl Hg. rewrite <- under_count by exact Hg.
    assert (G := minus_length (available idx k) (delivered_rows (firstn j os)) (under k j) (available_nodup idx k (ix_rows _ Hix))).
    assert (S : forall x, In x (available idx k) -> In x (delivered_rows (firstn j os)) -> In x (under k j)); [|specialize (G S); lia].
    intros x Hx Hd. unfold delivered_rows in Hd. apply in_flat_map in Hd as (c & Hc & Hd). apply in_flat_map. exists c. split; [exact Hc|].
    assert (Hcos : In c (chunks os)) by (apply (in_chunks os (firstn j os) (skipn j os)); [symmetry; apply firstn_skipn|exact Hc]).
    destruct (rows_key x c Hcos Hd) as (k' & Hu & (ck' & p2 & B1 & B2 & B3)). apply in_available in Hx as (ck & p & A1 & A2 & A3).
    assert (E : ck' = ck) by (eapply (idx_rows_disj idx Hix); [exists p2; split; eassumption|exists p; split; eassumption]). subst ck'.
    assert (Hall : Forall delivered (firstn j os)) by (apply gave_prefix; [apply goods_gave, Hg|exact Hl]).
    assert (Gj : In (NChunk c) (firstn j os)) by (rewrite <- (chunks_all _ Hall); apply in_map, Hc).
    apply In_nth_error in Gj as [j2 Hj2]. assert (L2 : (j2 < j)%nat).
    { assert (L2 : (j2 < length (firstn j os))%nat) by (apply nth_error_Some; congruence). rewrite firstn_length in L2. lia. }
    rewrite firstn_nth in Hj2 by exact L2. destruct (Hg j2 L2) as (c2 & m2 & Hc2 & Hm2 & F). assert (c2 = c) by congruence. subst c2.
    assert (Hk' : In k' (map fst (m_rows m2))).
    { destruct (in_dec mkey_eq_dec k' (map fst (m_rows m2))) as [H|H]; [exact H|exfalso]. assert (Z0 : asked (m_rows m2) k' = 0) by exact (lookup0_notin k' _ H).
      specialize (F k'). rewrite Z0 in F. destruct (rows_under k' (rc_index c)); [destruct Hu|cbn in F; lia]. }
    assert (Ek : k' = k) by (apply (Hap ck m2 m); auto; [apply (in_map fst) in A1; exact A1|apply nth_error_In in Hm2; exact Hm2]). subst k'. exact Hu.
  Qed.

  Lemma work_at j m : (j < length os)%nat -> (forall j', (j' < j)%nat -> good j') -> nth_error ms j = Some m -> nth_error (working ops os r0 None) j = Some m.
  Proof using Hms Hap.
    intros Hl Hg Hm. apply working_installed; auto. intros j' ->. destruct (goods_gave _ Hg j' ltac:(lia)) as [d Hd]. eauto.
  Qed.

  Lemma prefix_at j o : nth_error os j = Some o -> exists ops1 q1, qrun (S fuel) ops1 (qr_init idx order h0 r0 son) = (q1, firstn j os ++ [o])
    /\ Forall (fun o => heap_ok (op_heap o)) ops1
    /\ forall i, (i <= j)%nat -> nth_error (working ops1 (firstn j os ++ [o]) r0 None) i = nth_error (working ops os r0 None) i.
  Proof using Hix Hord Hh Hops Hrun Hms Hap.
    intros Ho. pose proof Hrun as R. rewrite <- (firstn_skipn (S j) os) in R. destruct (qrun_prefix _ _ _ _ _ _ R) as (ops1 & q1 & R1 & I & W).
    rewrite (firstn_skipn (S j) os) in W. rewrite (firstn_last _ _ _ Ho) in *. exists ops1, q1. split; [exact R1|]. split.
    - apply Forall_forall. intros x Hx. rewrite Forall_forall in Hops. apply Hops, I, Hx.
    - intros i Hi. apply W. rewrite app_length, firstn_length. assert (L : (j < length os)%nat) by (apply nth_error_Some; congruence). cbn. lia.
  Qed.


  Lemma not_none j m o : nth_error os j = Some o -> o = NNone \/ o = NStop -> (forall j', (j' < j)%nat -> good j') -> nth_error ms j = Some m ->
    (forall k n, In (k, n) (m_rows m) -> n <= Z.of_nat (length (minus (available idx k) (delivered_rows (firstn j os))))) -> False.
  Proof using Hix Hord Hh Hops Hrun Hms Hap.
    intros Ho Hns Hg Hm Hleft. assert (Hl : (j < length os)%nat) by (apply nth_error_Some; congruence).
    pose proof (nth_error_In _ _ Hm) as Hin. destruct (Hms m Hin) as [Hne Hkind]. pose proof (inst_ok m Hin) as Hmok.
    pose proof (work_at j m Hl Hg Hm) as Hw. pose proof (goods_gave _ Hg) as Hgave.
    assert (Hlen : length (firstn j os) = j) by (rewrite firstn_length; lia).
    assert (Hcs : Forall (fun o => exists c, o = NChunk c) (firstn j os)) by (apply gave_prefix; [exact Hgave|lia]).
    destruct (prefix_at j _ Ho) as (ops1 & q1 & R1 & Hops1 & W). pose proof (W j (le_n j)) as Wj. rewrite Hw in Wj. rewrite <- Hlen in Wj at 2.
    destruct (m_strict m) eqn:Hst; [|destruct Hkind as [Hk0|[Hpos Hfull]]; [discriminate|]].
    - destruct (fail_run_strict idx order Hix Hord fuel ops1 _ [] r0 None None 0 q1 (firstn j os) o m Hops1 (qinit_inv idx order Hix Hord h0 r0 son)
              (hist_init idx order h0 r0 son) (chunk_only_init idx order Hix Hord h0 r0 son) Hcs Hns R1 Wj Hne Hst) as (k & Hk & Hfew).
      { intros ck k k' H1 H2 H3. apply (Hap ck m m); auto. }
      cbn [app] in Hfew. apply in_map_iff in Hk as ([k' n] & E & Hk). cbn in E. subst k'.
      assert (Ea : asked (m_rows m) k = n) by (unfold asked; rewrite (in_aget _ mkey_eqb_spec k n _ (proj1 Hmok) Hk); reflexivity).
      specialize (Hleft k n Hk). rewrite <- Ea in Hleft.
      assert (asked (m_rows m) k < asked (m_rows m) k); [|lia]. eapply Z.le_lt_trans; [exact Hleft|]. apply Hfew.
      + apply NoDup_filter, available_nodup, (ix_rows _ Hix).
      + intros x Hx. apply in_minus in Hx as [Hx Hn]. split; [apply in_available, Hx|exact Hn].
    - destruct (fail_run idx order Hix Hord fuel ops1 _ [] r0 None None 0 q1 (firstn j os) o m Hops1 (qinit_inv idx order Hix Hord h0 r0 son)
              (hist_init idx order h0 r0 son) (chunk_only_init idx order Hix Hord h0 r0 son) Hcs Hns R1 Wj Hne) as (ks & _ & _ & Hks & Hfew). rewrite (Hks Hst) in Hfew. clear Hks ks. cbn [app] in Hfew.
      set (f := fun k => minus (available idx k) (delivered_rows (firstn j os))) in *.
      assert (zsum (map snd (m_rows m)) < zsum (map snd (m_rows m))); [|lia].
      eapply Z.le_lt_trans; [apply (zsum_le_len f), Hleft|]. apply Hfew.
      + assert (Hsub : incl (map fst (m_rows m)) (map fst (m_rows m))) by apply incl_refl. pose proof (proj1 Hmok) as Hnd.
        revert Hsub Hnd. generalize (map fst (m_rows m)) at 1 3 4 as K. clear Hleft.
        induction K as [|k K IH]; intros Hs Hn; cbn [flat_map]; [constructor|]. inversion Hn as [|? ? N1 N2]; subst. apply NoDup_app_iff.
        split; [apply NoDup_filter, available_nodup, (ix_rows _ Hix)|]. split; [apply IH; [intros x Hx; apply Hs; right; exact Hx|exact N2]|].
        intros x Hx Hy. apply in_flat_map in Hy as (k' & Hk' & Hy). apply in_minus in Hx as [Hx _]. apply in_minus in Hy as [Hy _].
        apply in_available in Hx as (ck & p & A1 & A2 & A3). apply in_available in Hy as (ck' & p' & B1 & B2 & B3).
        assert (E : ck' = ck) by (eapply (idx_rows_disj idx Hix); [exists p'; split; eassumption|exists p; split; eassumption]). subst ck'.
        assert (k = k'); [|subst; contradiction].
        apply (Hap ck m m); auto; [apply (in_map fst) in A1; exact A1|apply Hs; left; reflexivity|apply Hs; right; exact Hk'].
      + intros x Hx. apply in_flat_map in Hx as (k & Hk & Hx). apply in_minus in Hx as [Hx Hn]. split; [exists k; split; [exact Hk|apply in_available, Hx]|exact Hn].
  Qed.

  Lemma good_next j : (j < length os)%nat -> (forall j', (j' < j)%nat -> good j') ->
    (forall k, used k (S j) <= Z.of_nat (length (available idx k))) -> good j.
  Proof using Hix Hord Hh Hops Hrun Hms Hap.
    intros Hl Hg Hav. destruct (nth_error ms j) as [m|] eqn:Hm; [|apply nth_error_None in Hm; rewrite (installed_len _ _ _ _ _ r0 Hrun) in Hm; lia].
    pose proof (nth_error_In _ _ Hm) as Hin. destruct (Hms m Hin) as [Hne Hkind]. pose proof (inst_ok m Hin) as Hmok.
    pose proof (work_at j m Hl Hg Hm) as Hw. pose proof (goods_gave _ Hg) as Hgave.
    assert (Hleft : forall k n, In (k, n) (m_rows m) -> n <= Z.of_nat (length (minus (available idx k) (delivered_rows (firstn j os))))).
    { intros k n Hk. specialize (Hav k). rewrite (firstn_last _ _ _ Hm), map_app, zsum_app in Hav. cbn [map] in Hav.
      assert (Ea : asked (m_rows m) k = n) by (unfold asked; rewrite (in_aget _ mkey_eqb_spec k n _ (proj1 Hmok) Hk); reflexivity).
      pose proof (left_over k m j Hin (in_map fst _ _ Hk) ltac:(lia) Hg) as L. rewrite Ea in Hav. change (zsum [n]) with (n + 0) in Hav. lia. }
    destruct (nth_error os j) as [o|] eqn:Ho; [|apply nth_error_None in Ho; lia].
    destruct o as [c| | |e].
    - exists c, m. split; [exact Ho|]. split; [exact Hm|]. destruct Hkind as [Hst|[Hpos Hfull]].
      + destruct (C03_strict_exact _ _ _ _ _ _ _ _ _ _ _ _ Hix Hord Hh Hops Hrun Ho Hw Hne Hst) as (_ & F & _). exact F.
      + apply (exact_w fuel idx order h0 r0 son ops q os j c m Hix Hord Hh Hops Hrun Ho Hw Hne Hfull). intros k n Hk.
        destruct (share_w fuel idx order h0 r0 son ops q os j c m Hix Hord Hops Hrun Hgave Ho Hw Hne k n Hk) as [G|G]; [exact G|].
        eapply Z.le_trans; [apply (Hleft k n Hk)|]. apply inj_le. apply NoDup_incl_length; [apply NoDup_filter, available_nodup, (ix_rows _ Hix)|].
        intros x Hx. apply in_minus in Hx as [Hx Hn]. apply in_available in Hx. pose proof (G x Hx) as Hd. unfold delivered_rows in Hd, Hn.
        rewrite (firstn_last _ _ _ Ho), chunks_app, flat_map_app in Hd. apply in_app_or in Hd as [Hd|Hd]; [contradiction|]. cbn [chunks flat_map] in Hd. rewrite app_nil_r in Hd.
        cbn [flat_map] in Hd. rewrite app_nil_r in Hd.
        assert (Hcos : In c (chunks os)) by (apply in_flat_map; exists (NChunk c); split; [exact (nth_error_In _ _ Ho)|left; reflexivity]).
        destruct (rows_key x c Hcos Hd) as (k' & Hu & (ck' & p2 & B1 & B2 & B3)). destruct Hx as (ck & p & A1 & A2 & A3).
        assert (E : ck' = ck) by (eapply (idx_rows_disj idx Hix); [exists p2; split; eassumption|exists p; split; eassumption]). subst ck'.
        assert (Hk' : In k' (map fst (m_rows m))).
        { destruct (C04_best_effort_full _ _ _ _ _ _ _ _ _ _ _ _ Hix Hord Hh Hops Hrun Ho Hw Hne Hfull) as (_ & _ & mix & _ & Hinc & Hmix).
          destruct (in_dec mkey_eq_dec k' (map fst mix)) as [H|H]; [apply Hinc, H|exfalso]. assert (Z0 : asked mix k' = 0) by exact (lookup0_notin k' mix H).
          specialize (Hmix k'). rewrite Z0 in Hmix. destruct (rows_under k' (rc_index c)); [destruct Hu|cbn in Hmix; lia]. }
        assert (Ek : k' = k).
        { apply (Hap ck m m); auto; [apply (in_map fst) in A1; exact A1|apply (in_map fst) in Hk; exact Hk]. }
        subst k'. exact Hu.
    - exfalso. exact (not_none j m NNone Ho (or_introl eq_refl) Hg Hm Hleft).
    - exfalso. exact (not_none j m NStop Ho (or_intror eq_refl) Hg Hm Hleft).
    - exfalso. destruct (prefix_at j _ Ho) as (ops1 & q1 & R1 & Hops1 & W). assert (Hlen : length (firstn j os) = j) by (rewrite firstn_length; lia).
      assert (Hmi : forall i w, nth_error (working ops1 (firstn j os ++ [NErr e]) r0 None) i = Some w -> (i <= j)%nat /\ In w ms).
      { intros i w Hwi. assert (Hi : (i <= j)%nat).
        { assert (L : (i < length (working ops1 (firstn j os ++ [NErr e]) r0 None))%nat) by (apply nth_error_Some; congruence).
          rewrite (working_len _ _ _ _ _ r0 None R1), app_length, Hlen in L. cbn in L. lia. }
        split; [exact Hi|]. rewrite (W i Hi) in Hwi. destruct (nth_error ms i) as [m'|] eqn:Em.
        - rewrite (work_at i m' ltac:(lia) (fun j' L => Hg j' ltac:(lia)) Em) in Hwi. injection Hwi as <-. exact (nth_error_In _ _ Em).
        - apply nth_error_None in Em. rewrite (installed_len _ _ _ _ _ r0 Hrun) in Em. lia. }
      destruct (C50_no_errors_partial _ _ _ _ _ _ _ _ _ Hix Hord Hh Hops1 R1) with (i := j) (e := e) (m := m) as [E _].
      + intros w Hwi. apply In_nth_error in Hwi as [i Hwi]. destruct (Hmi i w Hwi) as [_ Hi]. destruct (Hms w Hi) as [_ [S|[S _]]]; auto.
      + intros i w w' Hno H1 H2. destruct (Hmi _ _ H2) as [Hi _]. exfalso. destruct (Hgave i ltac:(lia)) as [c Hc]. apply (Hno c).
        rewrite nth_error_app1 by (rewrite Hlen; lia). rewrite firstn_nth by lia. exact Hc.
      + rewrite nth_error_app2, Hlen, Nat.sub_diag by (rewrite Hlen; lia). reflexivity.
      + rewrite W by lia. exact Hw.
      + contradiction.
  Qed.

  Lemma changing i : (i < length os)%nat ->
    ((forall j, (j <= i)%nat -> good j) <-> forall k, used k (S i) <= Z.of_nat (length (available idx k))).
  Proof using Hix Hord Hh Hops Hrun Hms Hap.
    intros Hi. split.
    - intros Hg k. rewrite <- under_count by (intros j Hj; apply Hg; lia). apply inj_le, NoDup_incl_length.
      + apply (listed_nodup fuel idx order h0 r0 son ops q os Hix Hord Hh Hops Hrun (fun c => rows_under k (rc_index c)) (firstn (S i) os) (skipn (S i) os)); [symmetry; apply firstn_skipn| |].
        * apply (under_nodup k).
        * apply (under_incl k).
      + intros x Hx. apply in_available. apply in_flat_map in Hx as (c & Hc & Hx).
        apply (under_belongs fuel idx order h0 r0 son ops q os Hix Hord Hh Hops Hrun k c x); [|exact Hx].
        apply (in_chunks os (firstn (S i) os) (skipn (S i) os)); [symmetry; apply firstn_skipn|exact Hc].
    - intros Hav. assert (Hmono : forall k j, (j <= S i)%nat -> used k j <= used k (S i)).
      { intros k j Hj. rewrite <- (firstn_skipn j (firstn (S i) ms)) at 1. rewrite firstn_firstn, Nat.min_l by exact Hj. rewrite map_app, zsum_app.
        assert (0 <= zsum (map (fun m => asked (m_rows m) k) (skipn j (firstn (S i) ms)))); [|lia]. apply zsum_nonneg. rewrite Forall_map. apply Forall_forall.
        intros m Hm. assert (Hin : In m ms).
        { rewrite <- (firstn_skipn (S i) ms). apply in_or_app. left. rewrite <- (firstn_skipn j (firstn (S i) ms)). apply in_or_app. right. exact Hm. }
        destruct (inst_ok m Hin) as [Hnd Hpos]. unfold asked. destruct (aget mkey_eqb k (m_rows m)) as [n|] eqn:E; [|lia].
        apply (aget_in _ mkey_eqb_spec) in E. rewrite Forall_forall in Hpos. exact (Hpos _ E). }
      assert (Hmain : forall j, (j <= S i)%nat -> forall j', (j' < j)%nat -> good j').
      { induction j as [|j IH]; [intros; lia|]. intros Hj j' Hj'. destruct (Nat.eq_dec j' j) as [->|Hn]; [|apply IH; lia].
        apply good_next; [lia|apply IH; lia|]. intros k. eapply Z.le_trans; [apply Hmono, Hj|apply Hav]. }
      intros j Hj. exact (Hmain (S i) (le_n _) j ltac:(lia)).
  Qed.
End Changing.

(** Any history of mixtures, strict or best-effort, replaced at any call, whose keys share no property combination: the first i+1 calls give
    chunks that follow the mixture installed at each of them exactly, if and only if for every key the query has as many rows as these
    mixtures ask of it together. *)
Theorem C93_changing_partial : forall fuel idx order h0 r0 son ops q os,
  index_ok idx -> Permutation order (map fst idx) -> heap_ok h0 -> Forall (fun o => heap_ok (op_heap o)) ops ->
  qrun (S fuel) ops (qr_init idx order h0 r0 son) = (q, os) ->
  (forall m, In m (installed ops r0) ->
     m_rows m <> [] /\ (m_strict m = true \/ (Forall (fun kv => 0 < snd kv) (m_rows m) /\ zsum (map snd (m_rows m)) = m_csize m))) ->
  (forall ck m m' k k', In ck (map fst idx) -> In m (installed ops r0) -> In m' (installed ops r0) ->
     In k (map fst (m_rows m)) -> In k' (map fst (m_rows m')) -> key_eq k ck = true -> key_eq k' ck = true -> k = k') ->
  forall i, (i < length os)%nat ->
    ((forall j, (j <= i)%nat -> exists c m, nth_error os j = Some (NChunk c) /\ nth_error (installed ops r0) j = Some m /\ follows c m)
     <-> forall k, zsum (map (fun m => asked (m_rows m) k) (firstn (S i) (installed ops r0))) <= Z.of_nat (length (available idx k))).
Proof.
  intros fuel idx order h0 r0 son ops q os Hix Hord Hh Hops Hrun Hms Hap i Hi.
  exact (changing fuel idx order h0 r0 son ops q os Hix Hord Hh Hops Hrun Hms Hap i Hi).
Qed.
Print Assumptions C93_changing_partial.

(** A best-effort mixture is replaced by a strict one after the first call; 10 rows of [ka], 6 of [kb]: the first three calls follow their mixtures,
    the data do not hold the fourth. *)
Definition heap93 : heap := fun r => if r =? 0 then mkMix [(ka, 2); (kb, 3)] false 5 else mkMix [(kb, 1); (ka, 4)] true 5.
Definition ops93 : list qop := [Next heap93; Update heap93 1; Next heap93; Next heap93; Next heap93].
Example C93_changing_example : exists q c1 c2 c3,
  qrun 20 ops93 (qr_init idx_ex order_ex heap93 0 true) = (q, [NChunk c1; NChunk c2; NChunk c3; NStop])
  /\ map m_strict (installed ops93 0) = [false; true; true; true]
  /\ (forall m, In m (installed ops93 0) ->
       m_rows m <> [] /\ (m_strict m = true \/ (Forall (fun kv => 0 < snd kv) (m_rows m) /\ zsum (map snd (m_rows m)) = m_csize m)))
  /\ (forall ck m m' k k', In ck (map fst idx_ex) -> In m (installed ops93 0) -> In m' (installed ops93 0) ->
       In k (map fst (m_rows m)) -> In k' (map fst (m_rows m')) -> key_eq k ck = true -> key_eq k' ck = true -> k = k')
  /\ map (fun i => zsum (map (fun m => asked (m_rows m) ka) (firstn (S i) (installed ops93 0)))) [0; 1; 2; 3]%nat = [2; 6; 10; 14]
  /\ length (available idx_ex ka) = 10%nat /\ length (available idx_ex kb) = 6%nat
  /\ length (rows_under ka (rc_index c3)) = 4%nat /\ length (rows_under kb (rc_index c3)) = 1%nat.
Proof.
  do 4 eexists. split; [vm_compute; reflexivity|]. split; [reflexivity|]. split; [|split].
  - intros m Hm. cbn in Hm. crush_in; subst; (split; [discriminate|]); [right; split; [repeat constructor|reflexivity]|left; reflexivity..].
  - intros ck m m' k k' H1 H2 H3 H4 H5 H6 H7.
    assert (K : forall m k, In m (installed ops93 0) -> In k (map fst (m_rows m)) -> k = ka \/ k = kb).
    { clear. intros m k Hm Hk. destruct Hm as [<-|[<-|[<-|[<-|[]]]]]; destruct Hk as [<-|[<-|[]]]; auto. }
    assert (K4 := K m k H2 H4). assert (K5 := K m' k' H3 H5). clear K H2 H3 H4 H5 m m'. cbn in H1.
    destruct K4 as [-> | ->], K5 as [-> | ->]; try reflexivity; destruct H1 as [<-|[<-|[]]]; vm_compute in H6; vm_compute in H7; (discriminate H6 || discriminate H7).
  - vm_compute. repeat split.
Qed.
