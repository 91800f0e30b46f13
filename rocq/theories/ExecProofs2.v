(** Proofs about the execution of a query (C72): from the selected samples to the index. *)
From Coq Require Import String.
From Verif Require Import Base MixtureKeyModel MixtureKeyProofs ParserModel MdcModel SqlModel SpecSql IntervalModel SpecInterval IntervalProofs PropertiesInterval
  ChunkerModel SpecChunker ChunkGenModel DistributorProofs3 PropertiesChunker ExecModel SpecChunk SpecExec ExecProofs.
Open Scope Z_scope.

Lemma filter_map_ {A B} (p : B -> bool) (f : A -> B) l : filter p (map f l) = map f (filter (fun x => p (f x)) l).
Proof. induction l as [|x l IH]; [reflexivity|]. cbn. destruct (p (f x)); cbn; rewrite IH; reflexivity. Qed.
Lemma sorted_filter {A} (R : A -> A -> Prop) p l : StronglySorted R l -> StronglySorted R (filter p l).
Proof.
  induction 1 as [|x l H IH Hf]; [constructor|]. cbn. destruct (p x); [|exact IH]. constructor; [exact IH|]. rewrite Forall_forall in *. intros y Hy. apply filter_In in Hy as [Hy _]. apply Hf, Hy.
Qed.

Lemma in_rows_of d f i (p : part) : In (d, f, i) (rows_of p) <-> exists fs rs r, In (d, fs) p /\ In (f, rs) fs /\ In r rs /\ fst r <= i < snd r.
Proof.
  unfold rows_of. rewrite in_flat_map. split.
  - intros ([d' fs] & H1 & H2). apply in_flat_map in H2 as ([f' rs] & H2 & H3). apply in_flat_map in H3 as (r & H3 & H4). apply in_map_iff in H4 as (j & E & H4). injection E as <- <- <-.
    apply in_zrange in H4. exists fs, rs, r. auto.
  - intros (fs & rs & r & H1 & H2 & H3 & H4). exists (d, fs). split; [exact H1|]. apply in_flat_map. exists (f, rs). split; [exact H2|]. apply in_flat_map. exists r. split; [exact H3|].
    apply in_map_iff. exists i. split; [reflexivity|apply in_zrange, H4].
Qed.
Lemma in_rows_under k d f i (idx : index) : In (d, f, i) (rows_under k idx) <-> exists p, In (k, p) idx /\ In (d, f, i) (rows_of p).
Proof.
  unfold rows_under. rewrite in_flat_map. split.
  - intros ([k' p] & H1 & H2). cbn [fst snd] in H2. destruct (mkey_eqb k' k) eqn:E; [|destruct H2]. apply mkey_eqb_spec in E. subst k'. eauto.
  - intros (p & H1 & H2). exists (k, p). split; [exact H1|]. cbn [fst snd]. rewrite (eqb_refl_ _ mkey_eqb_spec). exact H2.
Qed.

Section FromWf.
  (** An index with unique keys at all levels: what is stored is what is looked up. *)
  Variable p : pindex.
  Hypothesis Hwf : wf_i p.
  Lemma stored_is_looked_up k ds d fs f rs : In (k, ds) p -> In (d, fs) ds -> In (f, rs) fs -> index_at p k d f = rs.
  Proof using Hwf.
    intros H1 H2 H3. destruct Hwf as [N W]. destruct (W k ds H1) as [_ [Nd Wd]]. destruct (Wd d fs H2) as [_ [Nf _]].
    unfold index_at, getd. rewrite (in_aget _ mkey_eqb_spec _ _ _ N H1), (in_aget _ Z.eqb_eq _ _ _ Nd H2), (in_aget _ Z.eqb_eq _ _ _ Nf H3). reflexivity.
  Qed.
  Lemma looked_up_is_stored k d f r : In r (index_at p k d f) -> exists ds fs rs, In (k, ds) p /\ In (d, fs) ds /\ In (f, rs) fs /\ In r rs.
  Proof using.
    unfold index_at, getd. destruct (aget mkey_eqb k p) as [ds|] eqn:E1; [|intros []]. destruct (aget Z.eqb d ds) as [fs|] eqn:E2; [|intros []]. destruct (aget Z.eqb f fs) as [rs|] eqn:E3; [|intros []].
    intros H. exists ds, fs, rs. split; [apply (aget_in _ mkey_eqb_spec), E1|]. split; [apply (aget_in _ Z.eqb_eq), E2|]. split; [apply (aget_in _ Z.eqb_eq), E3|exact H].
  Qed.
  Lemma rows_under_lookup k d f i : In (d, f, i) (rows_under k p) <-> exists r, In r (index_at p k d f) /\ fst r <= i < snd r.
  Proof using Hwf.
    rewrite in_rows_under. split.
    - intros (ds & H1 & H2). apply in_rows_of in H2 as (fs & rs & r & H2 & H3 & H4 & H5). exists r. rewrite (stored_is_looked_up _ _ _ _ _ _ H1 H2 H3). auto.
    - intros (r & H1 & H2). destruct (looked_up_is_stored k d f r H1) as (ds & fs & rs & A1 & A2 & A3 & A4). exists ds. split; [exact A1|]. apply in_rows_of. exists fs, rs, r. auto.
  Qed.
  (** Disjoint sorted ranges in every file, and no row under two keys: the index is well-formed. *)
  Lemma index_ok_of : (forall k d f, ranges_sorted (index_at p k d f)) -> (forall k ds, In (k, ds) p -> NoDup (map fst k)) ->
    (forall k k' d f i, In (d, f, i) (rows_under k p) -> In (d, f, i) (rows_under k' p) -> k = k') -> index_ok p.
  Proof using Hwf.
    intros Hs Hd Hu. assert (W := Hwf). destruct W as [N W]. constructor; [exact N|exact Hd| | | |].
    - intros k ds H. apply (W k ds H).
    - intros k ds d fs H H2. apply (proj2 (proj2 (W k ds H)) d fs H2).
    - intros k ds d fs f rs H1 H2 H3. rewrite <- (stored_is_looked_up _ _ _ _ _ _ H1 H2 H3). apply Hs.
    - assert (NR : forall rs, ranges_sorted rs -> NoDup (flat_map (fun r => zrange (fst r) (snd r)) rs)).
      { induction rs as [|r rs IH]; [constructor|]. intros (H1 & H2 & H3). cbn [flat_map]. apply NoDup_app_iff. split; [apply NoDup_zrange|]. split; [apply IH, H3|].
        intros x Hx Hy. apply in_flat_map in Hy as (r' & Hr' & Hy). apply in_zrange in Hx, Hy. rewrite Forall_forall in H2. specialize (H2 r' Hr'). lia. }
      assert (NP : forall k ds, In (k, ds) p -> NoDup (rows_of ds)).
      { intros k ds H1. destruct (W k ds H1) as [_ [Nd Wd]]. unfold rows_of. apply NoDup_flat_map.
        - exact (NoDup_map_inv _ _ Nd).
        - intros [d fs] H2. destruct (Wd d fs H2) as [_ [Nf _]]. apply NoDup_flat_map; [exact (NoDup_map_inv _ _ Nf)| |].
          + intros [f rs] H3. cbn [fst snd] in *. assert (Q := NR rs ltac:(rewrite <- (stored_is_looked_up _ _ _ _ _ _ H1 H2 H3); apply Hs)).
            assert (E : flat_map (range_rows d f) rs = map (fun i => (d, f, i)) (flat_map (fun r => zrange (fst r) (snd r)) rs)).
            { clear. induction rs as [|r rs IH]; [reflexivity|]. cbn [flat_map]. rewrite map_app, IH. reflexivity. }
            rewrite E. apply FinFun.Injective_map_NoDup; [intros a b X; congruence|exact Q].
          + intros [f rs] [f' rs'] [[d1 f1] i1] H3 H4 A B. cbn [fst snd] in *. apply in_flat_map in A as (? & _ & A), B as (? & _ & B). apply in_map_iff in A as (? & A & _), B as (? & B & _).
            assert (f = f') by congruence. subst f'. f_equal. rewrite <- (stored_is_looked_up _ _ _ _ _ _ H1 H2 H3). apply (stored_is_looked_up _ _ _ _ _ _ H1 H2 H4).
        - intros [d fs] [d' fs'] [[d1 f1] i1] H2 H2' A B. cbn [fst snd] in *. apply in_flat_map in A as (? & _ & A), B as (? & _ & B). apply in_flat_map in A as (? & _ & A), B as (? & _ & B).
          apply in_map_iff in A as (? & A & _), B as (? & B & _). assert (d = d') by congruence. subst d'. f_equal.
          assert (X := in_aget _ Z.eqb_eq _ _ _ Nd H2). rewrite (in_aget _ Z.eqb_eq _ _ _ Nd H2') in X. congruence. }
      unfold all_rows. apply NoDup_flat_map; [exact (NoDup_map_inv _ _ N)|intros [k ds] H; apply (NP k ds H)|].
      intros [k ds] [k' ds'] [[d f] i] H H' A B. cbn [fst snd] in *. assert (k = k') by (apply (Hu k k' d f i); apply in_rows_under; eauto). subst k'. f_equal.
      assert (X := in_aget _ mkey_eqb_spec _ _ _ N H). rewrite (in_aget _ mkey_eqb_spec _ _ _ N H') in X. congruence.
  Qed.
End FromWf.

Section Index.
  Variable glt : group -> group -> bool.
  Hypothesis Hlt : strict_total glt.
  Variable cols : list (str * bool).
  Variable xs : list sample.   (* the selected samples *)
  Hypothesis Hok : table_ok cols xs.
  Hypothesis Htx : text_ok cols xs.

  Let gs : list (group * Z) := map (fun x => (the_group cols x, the_id x)) xs.
  Let qi := query_intervals group_eqb glt gs.
  Let T := map table_row qi.

  Lemma xs_ok x : In x xs -> sample_ok cols x.
  Proof using Hok. intros H. assert (F := to_values _ _ Hok). rewrite Forall_forall in F. apply F, H. Qed.
  Lemma in_gs d f l i : In ((d, f, l), i) gs <-> exists r, In ((d, f, i), r) xs /\ the_cells cols r = l.
  Proof using.
    unfold gs. rewrite in_map_iff. split.
    - intros ([[[d' f'] i'] r] & E & H). injection E as <- <- <- E. unfold the_id in E. cbn in E. subst i'. exists r. auto.
    - intros (r & H & <-). exists ((d, f, i), r). auto.
  Qed.
  Lemma gs_nodup : NoDup gs.
  Proof using Hok.
    assert (N := to_keys _ _ Hok). apply (NoDup_map_inv (fun g : group * Z => (fst (fst (fst g)), snd (fst (fst g)), snd g))). unfold gs. rewrite map_map.
    erewrite map_ext; [exact N|]. intros [[[d f] i] r]. reflexivity.
  Qed.
  Lemma gs_unique d f i l l' : In ((d, f, l), i) gs -> In ((d, f, l'), i) gs -> l = l'.
  Proof using Hok.
    intros H H'. apply in_gs in H as (r & H & <-), H' as (r' & H' & <-). f_equal.
    assert (E : Some r = Some r'); [|congruence].
    assert (N := to_keys _ _ Hok). clear - N H H'. induction xs as [|[k v] l IH]; [destruct H|]. cbn [map fst] in N. inversion N as [|? ? Hn N']; subst.
    destruct H as [H|H], H' as [H'|H'].
    - congruence.
    - injection H as -> ->. exfalso. apply Hn. apply in_map_iff. exists ((d, f, i), r'). auto.
    - injection H' as -> ->. exfalso. apply Hn. apply in_map_iff. exists ((d, f, i), r). auto.
    - apply IH; assumption.
  Qed.
  (** An interval of the result belongs to a selected sample. *)
  Lemma qi_sample d f l a b : In ((d, f, l), (a, b)) qi -> a < b /\ exists r, In ((d, f, a), r) xs /\ the_cells cols r = l.
  Proof using Hok.
    intros H. apply (C31_exact _ _ group_eqb_spec gs gs_nodup) in H as (H1 & H2 & _). split; [exact H1|]. apply in_gs. apply H2. lia.
  Qed.
  Lemma T_row r : In r T -> exists x, In x xs /\ tr_cells r = map vcell_of (the_cells cols (snd x)) /\ tr_s r < tr_e r
     /\ combo (group_cols cols) (tr_cells r) = properties cols (snd x).
  Proof using Hok.
    intros H. apply in_map_iff in H as ([[[d f] l] [a b]] & <- & H). apply qi_sample in H as (H1 & r & H2 & <-). exists ((d, f, a), r). cbn [table_row tr_cells tr_s tr_e snd].
    split; [exact H2|]. split; [reflexivity|]. split; [exact H1|]. apply (combo_properties cols (to_cols _ _ Hok) (to_reserved _ _ Hok) ((d, f, a), r)). apply xs_ok, H2.
  Qed.
  Lemma T_rectangular : rectangular (group_cols cols) T.
  Proof using Hok. apply Forall_forall. intros r H. apply T_row in H as (x & _ & -> & _). unfold the_cells. rewrite !map_length. reflexivity. Qed.
  Lemma T_rows_ok : Forall row_ok T.
  Proof using Hok.
    apply Forall_forall. intros r H. apply T_row in H as (x & _ & E & L & _). split; [|lia]. rewrite E. unfold the_cells. intros Hb. rewrite map_map in Hb. apply in_map_iff in Hb as (c & Hb & _).
    exact (not_bad _ _ Hb).
  Qed.
  Lemma T_clean : clean (group_cols cols) T.
  Proof using Hok Htx.
    split; [apply group_cols_nodup, (to_cols _ _ Hok)|]. split.
    - apply Forall_forall. intros c H. apply (tx_names _ _ Htx). apply group_cols_in in H as (m & H). apply in_map_iff. exists (c, m). auto.
    - apply Forall_forall. intros r H. apply T_row in H as (x & Hx & _ & _ & ->). apply Forall_forall. intros [c vs] H. cbn [snd]. unfold properties in H. apply in_flat_map in H as (c' & Hc' & H).
      destruct (values_of (value_of (snd x) c')) as [vs'|] eqn:E; [|destruct H]. destruct H as [H|[]]. injection H as -> ->. apply (tx_values _ _ Htx x c vs Hx); [|exact E]. rewrite in_isort in Hc'. exact Hc'.
  Qed.
  Lemma T_one_order : one_order (group_cols cols) T.
  Proof using Hok Htx. intros r r' H H'. apply T_row in H as (x & Hx & _ & _ & ->), H' as (x' & Hx' & _ & _ & ->). apply (tx_order _ _ Htx); assumption. Qed.

  (** The intervals of a combination in the table. *)
  Lemma table_intervals_in k d f a b : In (a, b) (table_intervals (group_cols cols) T k d f) <-> exists l, In ((d, f, l), (a, b)) qi /\ combo (group_cols cols) (map vcell_of l) = k.
  Proof using.
    unfold table_intervals. rewrite in_map_iff. split.
    - intros (r & E & H). apply filter_In in H as [H Q]. rewrite !andb_true_iff in Q. destruct Q as [[Q1 Q2] Q3]. apply mkey_eqb_spec in Q1. apply Z.eqb_eq in Q2, Q3.
      apply in_map_iff in H as ([[[d' f'] l] [a' b']] & <- & H). cbn in *. injection E as <- <-. subst. exists l. auto.
    - intros (l & H & <-). exists (TRow (map vcell_of l) d f a b). split; [reflexivity|]. apply filter_In. split; [apply in_map_iff; exists ((d, f, l), (a, b)); auto|].
      cbn. rewrite (eqb_refl_ _ mkey_eqb_spec), !Z.eqb_refl. reflexivity.
  Qed.
  Lemma combo_cells l l' d f d' f' i i' : In ((d, f, l), i) gs -> In ((d', f', l'), i') gs -> combo (group_cols cols) (map vcell_of l) = combo (group_cols cols) (map vcell_of l') -> l = l'.
  Proof using Hok.
    intros H H' E. apply in_gs in H as (r & H & <-), H' as (r' & H' & <-). assert (O := xs_ok _ H). assert (O' := xs_ok _ H').
    apply (same_properties cols (to_cols _ _ Hok) ((d, f, i), r) ((d', f', i'), r') O O').
    rewrite <- !(combo_properties cols (to_cols _ _ Hok) (to_reserved _ _ Hok)) by assumption. exact E.
  Qed.
  Lemma table_intervals_sorted k d f : StronglySorted iv_le (table_intervals (group_cols cols) T k d f) /\ ranges_sorted (table_intervals (group_cols cols) T k d f).
  Proof using Hok Hlt.
    destruct Hlt as (L1 & L2 & L3). destruct (C31_ordered _ _ group_eqb_spec L1 L2 L3 gs gs_nodup) as [S _]. fold qi in S.
    unfold table_intervals, T. rewrite filter_map_, map_map. set (F := filter _ qi).
    assert (SF : StronglySorted (before glt) F) by (apply sorted_filter, S).
    assert (Q : forall x, In x F -> fst (snd x) < snd (snd x) /\ exists l, fst x = (d, f, l) /\ combo (group_cols cols) (map vcell_of l) = k /\ In (fst x, fst (snd x)) gs).
    { intros [[[d' f'] l] [a b]] H. apply filter_In in H as [H E]. cbn [table_row tr_cells tr_d tr_f] in E. rewrite !andb_true_iff in E. destruct E as [[E1 E2] E3]. apply mkey_eqb_spec in E1. apply Z.eqb_eq in E2, E3. subst d' f'.
      assert (X := qi_sample _ _ _ _ _ H). destruct X as (X1 & r & X2 & X3). cbn [fst snd]. split; [exact X1|]. exists l. split; [reflexivity|]. split; [exact E1|]. apply in_gs. eauto. }
    assert (D : forall x y, In x F -> In y F -> before glt x y -> snd (snd x) < fst (snd y)).
    { intros x y Hx Hy [B|[_ B]]; [|exact B]. exfalso. destruct (Q x Hx) as (_ & l & E & C & G), (Q y Hy) as (_ & l' & E' & C' & G').
      rewrite E in G, B. rewrite E' in G', B. assert (l = l') by (eapply combo_cells; [exact G|exact G'|congruence]). subst l'. rewrite (L1 _ _ B) in B. discriminate. }
    clear S. induction SF as [|x l SF IH Hf]; [split; [constructor|exact I]|].
    destruct IH as [IH1 IH2]; [intros y Hy; apply Q; right; exact Hy|intros y z Hy Hz; apply D; right; assumption|]. rewrite Forall_forall in Hf.
    destruct (Q x (or_introl eq_refl)) as (X & _).
    assert (N : forall i, In i (map (fun y => (tr_s (table_row y), tr_e (table_row y))) l) -> snd (snd x) < fst i).
    { intros i Hi. apply in_map_iff in Hi as (y & <- & Hy). assert (Z1 := D x y (or_introl eq_refl) (or_intror Hy) (Hf y Hy)). destruct y as [[[? ?] ?] [? ?]]. exact Z1. }
    destruct x as [[[dx fx] lx] [a b]]. cbn [fst snd] in X, N. cbn [map table_row tr_s tr_e]. split.
    - constructor; [exact IH1|]. apply Forall_forall. intros i Hi. specialize (N i Hi). left. cbn [fst]. lia.
    - cbn [ranges_sorted fst snd]. split; [lia|]. split; [|exact IH2]. apply Forall_forall. intros i Hi. specialize (N i Hi). lia.
  Qed.

  Variable itk : cindex -> cindex.
  Variable itd : list (Z * list (Z * list interval)) -> list (Z * list (Z * list interval)).
  Variable itf : list (Z * list interval) -> list (Z * list interval).
  Hypothesis Hk : permutes itk.
  Hypothesis Hd : permutes itd.
  Hypothesis Hf : permutes itf.
  Lemma index_of_samples batches n res : concat batches = T -> 0 <= n -> creates itk itd itf (group_cols cols) batches n res ->
    exists idx, res = Some idx /\ wf_i idx /\ index_ok idx /\ (forall k, In k (map fst idx) -> exists x, In x xs /\ properties cols (snd x) = k) /\
      forall k d f i, In (d, f, i) (rows_under k idx) <-> exists r, In ((d, f, i), r) xs /\ properties cols r = k.
  Proof using Hok Htx Hlt Hk Hd Hf.
    intros Eb Hn H. assert (R := T_rectangular). assert (O := T_rows_ok). assert (C := T_clean). assert (U := T_one_order). rewrite <- Eb in R, O, C, U.
    destruct (C32_index_partial itk itd itf Hk Hd Hf _ _ _ _ H Hn R O C U) as (p & -> & W & K & A). rewrite Eb in K, A.
    assert (E : forall k d f, index_at p k d f = table_intervals (group_cols cols) T k d f) by (intros k d f; apply (A k d f), table_intervals_sorted).
    assert (M : forall k d f i, In (d, f, i) (rows_under k p) <-> exists r, In ((d, f, i), r) xs /\ properties cols r = k).
    { intros k d f i. rewrite (rows_under_lookup p W). rewrite E. split.
      - intros ([a b] & Hi & B). apply table_intervals_in in Hi as (l & Hi & Ck). cbn [fst snd] in B. apply (C31_exact _ _ group_eqb_spec gs gs_nodup) in Hi as (_ & Hi & _).
        specialize (Hi i B). apply in_gs in Hi as (r & Hr & <-). exists r. split; [exact Hr|]. rewrite <- Ck. symmetry.
        apply (combo_properties cols (to_cols _ _ Hok) (to_reserved _ _ Hok) ((d, f, i), r)). apply xs_ok, Hr.
      - intros (r & Hr & <-). assert (G : In ((d, f, the_cells cols r), i) gs) by (apply in_gs; eauto).
        apply (C31_cover _ glt group_eqb_spec gs gs_nodup) in G as ([a b] & [Hi B] & _). exists (a, b). split; [|exact B]. apply table_intervals_in. exists (the_cells cols r). split; [exact Hi|].
        apply (combo_properties cols (to_cols _ _ Hok) (to_reserved _ _ Hok) ((d, f, i), r)). apply xs_ok, Hr. }
    exists p. split; [reflexivity|]. split; [exact W|]. split; [|split; [|exact M]].
    - apply (index_ok_of p W).
      + intros k d f. rewrite E. apply table_intervals_sorted.
      + intros k ds Hi. assert (Hi' : In k (map fst p)) by (apply in_map_iff; exists (k, ds); auto). apply K in Hi' as (r & Hr & <-). apply T_row in Hr as (x & _ & _ & _ & ->).
        apply (properties_keys cols (to_cols _ _ Hok)).
      + intros k k' d f i H1 H2. apply M in H1 as (r & H1 & <-), H2 as (r' & H2 & <-).
        assert (G1 : In ((d, f, the_cells cols r), i) gs) by (apply in_gs; eauto). assert (G2 : In ((d, f, the_cells cols r'), i) gs) by (apply in_gs; eauto).
        assert (X := gs_unique _ _ _ _ _ G1 G2). assert (C1 := combo_properties cols (to_cols _ _ Hok) (to_reserved _ _ Hok) ((d, f, i), r) (xs_ok _ H1)).
        assert (C2 := combo_properties cols (to_cols _ _ Hok) (to_reserved _ _ Hok) ((d, f, i), r') (xs_ok _ H2)). cbn [snd] in C1, C2. rewrite X in C1. congruence.
    - intros k Hi. apply K in Hi as (r & Hr & <-). apply T_row in Hr as (x & Hx & _ & _ & ->). eauto.
  Qed.
End Index.
