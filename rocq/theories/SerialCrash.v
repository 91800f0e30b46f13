(** Loading an index whose saving was cut off by a crash. *)
From Verif Require Import Base MixtureKeyModel MixtureKeyProofs ChunkerModel SpecChunker ChunkerProofs ChunkerProofs2 IntervalModel IntervalProofs SerialModel SpecSerial SerialProofs SerialProofs2 PropertiesSerial.
Open Scope Z_scope.

(** ** The index restricted to some files *)
Definition keep_t := mkey -> Z -> Z -> bool.
Definition restrict (keep : keep_t) (idx : pindex) : pindex :=
  map (fun e => (fst e, map (fun df => (fst df, filter (fun fi => keep (fst e) (fst df) (fst fi)) (snd df))) (snd e))) idx.
Lemma akeys_restrict keep idx : akeys (restrict keep idx) = akeys idx.
Proof. unfold restrict. now rewrite map_map. Qed.
Lemma is_index_restrict keep idx : is_index idx -> is_index (restrict keep idx).
Proof.
  intros (W1 & W2 & W3 & W4). unfold is_index. rewrite akeys_restrict. split; [exact W1|]. split; [exact W2|]. split; [exact W3|].
  intros k ds I. unfold restrict in I. apply in_map_iff in I as ([k' ds'] & [= <- <-] & I). destruct (W4 k' ds' I) as [A B]. cbn [fst snd].
  split; [now rewrite map_map|]. intros d fs J. apply in_map_iff in J as ([d' fs'] & [= <- <-] & J). specialize (B d' fs' J). cbn [fst snd].
  clear - B. induction fs' as [|[f iv] l IH]; [constructor|]. cbn in *. inversion B; subst. destruct (keep k' d' f); [|auto].
  cbn. constructor; [|auto]. intros I. apply H1. apply in_map_iff in I as (x & <- & I). apply filter_In in I. apply in_map. tauto.
Qed.
Lemma at_kdf_restrict keep idx k d f : is_index idx ->
  at_kdf (restrict keep idx) k d f = if keep k d f then at_kdf idx k d f else None.
Proof.
  intros (W1 & W2 & W3 & W4). unfold at_kdf, at_kd, at_k.
  assert (E : aget mkey_eqb k (restrict keep idx) = option_map (map (fun df => (fst df, filter (fun fi => keep k (fst df) (fst fi)) (snd df)))) (aget mkey_eqb k idx)).
  { clear. induction idx as [|[k' ds] l IH]; [reflexivity|]. cbn. destruct (mkey_eqb k k') eqn:E; [|exact IH]. apply mkey_eqb_spec in E. now subst. }
  rewrite E. destruct (aget mkey_eqb k idx) as [ds|] eqn:K; cbn [option_map]; [|now destruct (keep k d f)].
  assert (E2 : aget Z.eqb d (map (fun df : Z * list (Z * list interval) => (fst df, filter (fun fi => keep k (fst df) (fst fi)) (snd df))) ds) =
               option_map (filter (fun fi : Z * list interval => keep k d (fst fi))) (aget Z.eqb d ds)).
  { clear. induction ds as [|[d' fs] l IH]; [reflexivity|]. cbn. destruct (Z.eqb_spec d d'); [now subst|exact IH]. }
  rewrite E2. destruct (aget Z.eqb d ds) as [fs|]; cbn [option_map]; [|now destruct (keep k d f)].
  clear. induction fs as [|[f' iv] l IH]; cbn [filter aget fst]; [now destruct (keep k d f)|].
  destruct (keep k d f') eqn:K'; cbn [aget]; destruct (Z.eqb_spec f f') as [<-|N].
  - now rewrite K'.
  - exact IH.
  - rewrite K' in *. exact IH.
  - exact IH.
Qed.

(** ** Whole files only: exactly the written files are there *)
Definition kept (idx : pindex) (written : list task) : keep_t := fun k d f =>
  existsb (fun t => mkey_eqb k (nth (t_i t) (akeys idx) []) && (t_d t =? d) && (t_f t =? f)) written.
Lemma written_tasks idx written rest : is_index idx -> Permutation (written ++ rest) (save_tasks idx) ->
  Permutation written (save_tasks (restrict (kept idx written) idx)).
Proof.
  intros W P. assert (W' := is_index_restrict (kept idx written) idx W).
  assert (N := NoDup_tids idx W). apply (Permutation_NoDup (Permutation_map tid (Permutation_sym P))) in N.
  apply NoDup_Permutation.
  - apply (NoDup_of_map tid). rewrite map_app in N. clear - N. induction (map tid written) as [|x l IH]; [constructor|]. cbn in N. inversion N; subst.
    constructor; [intros I; apply H1; apply in_or_app; now left|auto].
  - apply (NoDup_of_map tid), NoDup_tids, W'.
  - intros [[[i d] f] iv]. rewrite (in_save_tasks _ _ _ _ _ W'), akeys_restrict. split.
    + intros I. assert (J : In (i, d, f, iv) (save_tasks idx)) by (apply (Permutation_in _ P), in_or_app; now left).
      apply (in_save_tasks _ _ _ _ _ W) in J as (k & J1 & J2). exists k. split; [exact J1|]. rewrite at_kdf_restrict by exact W.
      assert (K : kept idx written k d f = true); [|now rewrite K].
      unfold kept. apply existsb_exists. exists (i, d, f, iv). split; [exact I|]. cbn [t_i t_d t_f]. rewrite (nth_error_nth _ _ _ J1), mkey_eqb_refl, !Z.eqb_refl. reflexivity.
    + intros (k & J1 & J2). rewrite at_kdf_restrict in J2 by exact W. destruct (kept idx written k d f) eqn:K; [|discriminate].
      unfold kept in K. apply existsb_exists in K as ([[[i' d'] f'] iv'] & I & K). cbn [t_i t_d t_f] in K.
      apply andb_true_iff in K as [K K3]. apply andb_true_iff in K as [K1 K2]. apply mkey_eqb_spec in K1. apply Z.eqb_eq in K2, K3. subst d' f'.
      assert (J : In (i', d, f, iv') (save_tasks idx)) by (apply (Permutation_in _ P), in_or_app; now left).
      apply (in_save_tasks _ _ _ _ _ W) in J as (k' & J3 & J4). rewrite (nth_error_nth _ _ _ J3) in K1. subst k'. rewrite J4 in J2. injection J2 as ->.
      assert (Q : i' = i); [|now subst].
      destruct W as (W1 & _). apply (proj1 (NoDup_nth_error (akeys idx)) W1); [apply nth_error_Some; congruence|congruence].
Qed.
Theorem load_written idx written rest res : is_index idx -> Permutation (written ++ rest) (save_tasks idx) ->
  loaded (fold_left serialize_file written (save_keys idx)) res ->
  exists p, res = Some p /\ (forall k d f iv, at_kdf p k d f = Some iv <->
    at_kdf idx k d f = Some iv /\ exists i, nth_error (akeys idx) i = Some k /\ In (i, d, f, iv) written).
Proof.
  intros W P L. assert (W' := is_index_restrict (kept idx written) idx W).
  assert (S : saved (restrict (kept idx written) idx) None (Some (fold_left serialize_file written (save_keys idx)))).
  { replace (save_keys idx) with (save_keys (restrict (kept idx written) idx)) by (rewrite !save_keys_eq, akeys_restrict; reflexivity).
    apply SavedNew. now apply (written_tasks idx written rest). }
  destruct (C33_any _ _ _ W' S L) as (p & -> & _ & _ & _ & At). exists p. split; [reflexivity|].
  intros k d f iv. rewrite At, at_kdf_restrict by exact W.
  assert (PW := written_tasks idx written rest W P).
  destruct (kept idx written k d f) eqn:K.
  - split; [|tauto]. intros H. split; [exact H|].
    assert (X : exists i, nth_error (akeys idx) i = Some k).
    { apply In_nth_error. unfold at_kdf, at_kd, at_k in H. destruct (aget mkey_eqb k idx) eqn:E; [|discriminate].
      apply (aget_in _ mkey_eqb_spec) in E. apply (in_map fst) in E. exact E. }
    destruct X as [i Hi]. exists i. split; [exact Hi|]. apply (Permutation_in _ (Permutation_sym PW)).
    apply (in_save_tasks _ _ _ _ _ W'). exists k. rewrite akeys_restrict, at_kdf_restrict, K by exact W. auto.
  - split; [discriminate|]. intros (H & i & Hi & I). exfalso. apply (Permutation_in _ PW) in I. apply (in_save_tasks _ _ _ _ _ W') in I as (k' & I1 & I2).
    rewrite akeys_restrict, Hi in I1. injection I1 as <-. rewrite at_kdf_restrict, K in I2 by exact W. discriminate.
Qed.

(** ** Half-written files: loading raises *)
Lemma collect_none {A B} (g : A -> option B) l x : In x l -> g x = None -> collect g l = None.
Proof.
  induction l as [|y l IH]; intros I E; [destruct I|]. cbn. destruct I as [->|I]; [now rewrite E|]. rewrite (IH I E). now destruct (g y).
Qed.
Lemma torn_array fs i d f n : In ([kdir i; ddir d; fname f], CTorn) fs -> (i < n)%nat -> load_tasks fs n = None.
Proof.
  intros I Hi. unfold load_tasks.
  assert (E : collect (fun i => option_map (@concat task) (collect (load_dataset fs i) (filter (starts_with dataset_pre) (subdirs fs [kdir i])))) (seq 0 n) = None).
  { apply collect_none with (x := i); [apply in_seq; lia|].
    assert (E : collect (load_dataset fs i) (filter (starts_with dataset_pre) (subdirs fs [kdir i])) = None); [|now rewrite E].
    apply collect_none with (x := ddir d).
    - apply filter_In. split; [|apply ddir_starts]. unfold subdirs. rewrite in_dedup by exact str_eqb_spec. apply in_flat_map.
      eexists. split; [exact I|]. cbn [fst length firstn skipn]. rewrite (proj2 (path_eqb_spec [kdir i] [kdir i]) eq_refl). now left.
    - unfold load_dataset. rewrite second_part_ddir. apply collect_none with (x := (fname f, CTorn)).
      + apply filter_In. split; [|apply fname_glob]. unfold files_in. apply in_flat_map. eexists. split; [exact I|].
        cbn [fst snd length firstn skipn]. rewrite (proj2 (path_eqb_spec [kdir i; ddir d] [kdir i; ddir d]) eq_refl). now left.
      + unfold load_file. cbn [fst snd]. now destruct (second_part _). }
  now rewrite E.
Qed.
Lemma in_tear torn : forall fs, (exists t, In t torn) -> exists i d f iv, In (i, d, f, iv) torn /\ In ([kdir i; ddir d; fname f], CTorn) (fold_left tear_file torn fs).
Proof.
  induction torn as [|t torn IH] using rev_ind; intros fs [x Hx]; [destruct Hx|]. destruct t as [[[i d] f] iv].
  exists i, d, f, iv. split; [apply in_or_app; right; now left|]. rewrite fold_left_app. cbn [fold_left tear_file].
  apply (aget_in _ path_eqb_spec). apply (aget_aset_same _ path_eqb_spec).
Qed.
Lemma aget_tear_other torn : forall fs p, (forall a b c, p <> [a; b; c]) -> aget path_eqb p (fold_left tear_file torn fs) = aget path_eqb p fs.
Proof.
  induction torn as [|[[[i d] f] iv] torn IH]; intros fs p H; [reflexivity|]. cbn [fold_left tear_file]. rewrite IH by exact H.
  apply (aget_aset_other _ path_eqb_spec). intros E. apply (H (kdir i) (ddir d) (fname f)). now symmetry.
Qed.
Lemma aget_written_other written : forall fs p, (forall a b c, p <> [a; b; c]) -> aget path_eqb p (fold_left serialize_file written fs) = aget path_eqb p fs.
Proof.
  induction written as [|[[[i d] f] iv] l IH]; intros fs p H; [reflexivity|]. cbn [fold_left serialize_file]. rewrite IH by exact H.
  apply (aget_aset_other _ path_eqb_spec). intros E. apply (H (kdir i) (ddir d) (fname f)). now symmetry.
Qed.
Lemma firstn_enumerate_get n (l : list mkey) i : (n <= i)%nat -> aget path_eqb [kdir i; key_pkl] (firstn n (map kent (enumerate l))) = None.
Proof.
  intros H. apply (aget_none _ path_eqb_spec). intros I. apply in_map_iff in I as (e & E & I). rewrite firstn_map in I.
  apply in_map_iff in I as ([j k] & <- & I). cbn [kent fst] in E. apply cons_inj in E as [E _]. apply kdir_inj in E. subst j.
  assert (X : In i (map fst (firstn n (enumerate l)))) by (apply in_map_iff; exists (i, k); auto).
  rewrite <- firstn_map in X. change (map fst (enumerate l)) with (akeys (enumerate l)) in X. rewrite akeys_enumerate in X.
  assert (Y : firstn n (seq 0 (length l)) = seq 0 (Nat.min n (length l))).
  { clear. generalize 0%nat as s. revert n. induction (length l) as [|m IH]; intros n s; destruct n; cbn; try reflexivity. now rewrite IH. }
  rewrite Y in X. apply in_seq in X. lia.
Qed.
Lemma load_plan_no_key (fs : dir) (idx : pindex) i : aget path_eqb [order_pkl] fs = Some (CKeys (akeys idx)) -> (i < length (akeys idx))%nat ->
  load_key fs i = None -> load_plan fs = None.
Proof.
  intros E Hi H. unfold load_plan. rewrite E. rewrite (collect_none (load_key fs) _ i); [reflexivity|apply in_seq; lia|exact H].
Qed.
Lemma crash_keys_fail idx fs n : (n < length (save_keys idx))%nat ->
  fs = firstn n (save_keys idx) \/ (exists p c, nth_error (save_keys idx) n = Some (p, c) /\ fs = firstn n (save_keys idx) ++ [(p, CTorn)]) ->
  load_plan fs = None.
Proof.
  rewrite save_keys_eq. cbn [length]. rewrite map_length. intros Hn H. destruct n as [|n].
  - destruct H as [->|(p & c & E & ->)]; [reflexivity|]. cbn in E. injection E as <- <-. cbn [firstn app]. unfold load_plan. cbn [aget].
    rewrite (proj2 (path_eqb_spec [order_pkl] [order_pkl]) eq_refl). reflexivity.
  - assert (L : length (enumerate (akeys idx)) = length (akeys idx)) by (unfold enumerate; rewrite combine_length, seq_length; lia).
    apply (load_plan_no_key _ idx n); [|lia|].
    + destruct H as [->|(p & c & E & ->)]; cbn [firstn app aget]; rewrite (proj2 (path_eqb_spec [order_pkl] [order_pkl]) eq_refl); reflexivity.
    + assert (G : forall m, (m = [] \/ exists p c, nth_error (map kent (enumerate (akeys idx))) n = Some (p, c) /\ m = [(p, CTorn)]) ->
        load_key (([order_pkl], CKeys (akeys idx)) :: firstn n (map kent (enumerate (akeys idx))) ++ m) n = None).
      { intros m Hm. unfold load_key. cbn [aget].
        destruct (path_eqb [kdir n; key_pkl] [order_pkl]) eqn:E; [reflexivity|].
        assert (N := firstn_enumerate_get n (akeys idx) n (le_n n)).
        assert (A : forall l m : dir, aget path_eqb [kdir n; key_pkl] l = None -> aget path_eqb [kdir n; key_pkl] (l ++ m) = aget path_eqb [kdir n; key_pkl] m).
        { clear. intros l m. induction l as [|[p c] l IH]; [reflexivity|]. cbn [app aget]. destruct (path_eqb _ p); [discriminate|exact IH]. }
        rewrite (A _ _ N). destruct Hm as [->|(p & c & _ & ->)]; [reflexivity|]. cbn [aget]. now destruct (path_eqb _ p). }
      destruct H as [->|(p & c & E & ->)]; cbn [firstn app].
      * rewrite <- (app_nil_r (firstn n _)). apply G. now left.
      * apply G. right. exists p, c. split; [exact E|reflexivity].
Qed.
Lemma loaded_none fs res : load_plan fs = None -> loaded fs res -> res = None.
Proof. intros E L. inversion L; subst; [congruence|reflexivity]. Qed.
(** Loading after a crash: an exception, or an index all of whose entries are entries of the saved one.  It is the
    exception unless all pickles and no half-written array are there. *)
Theorem load_crashed idx fs res : is_index idx -> crashed_save idx fs -> loaded fs res ->
  res = None \/ exists p, res = Some p /\ forall k d f iv, at_kdf p k d f = Some iv -> at_kdf idx k d f = Some iv.
Proof.
  intros W C L. destruct C as [n H|n p c H|written torn rest P].
  - left. apply (loaded_none _ _ (crash_keys_fail idx _ n H (or_introl eq_refl)) L).
  - left. refine (loaded_none _ _ (crash_keys_fail idx _ n _ (or_intror _)) L); [apply nth_error_Some; congruence|eauto].
  - destruct torn as [|t torn].
    + right. cbn [fold_left app] in *. destruct (load_written idx written rest res W P L) as (p & -> & H). exists p. split; [reflexivity|].
      intros k d f iv A. apply H in A. tauto.
    + left. refine (loaded_none _ _ _ L). set (fs := fold_left tear_file (t :: torn) _).
      assert (E : aget path_eqb [order_pkl] fs = Some (CKeys (akeys idx))).
      { unfold fs. rewrite aget_tear_other, aget_written_other by (intros; discriminate). rewrite save_keys_eq. cbn [aget].
        rewrite (proj2 (path_eqb_spec [order_pkl] [order_pkl]) eq_refl). reflexivity. }
      unfold load_plan. rewrite E.
      destruct (in_tear (t :: torn) (fold_left serialize_file written (save_keys idx))) as (i & d & f & iv & I1 & I2); [exists t; now left|].
      rewrite (torn_array fs i d f) by
        (try exact I2; assert (J : In (i, d, f, iv) (save_tasks idx)) by (apply (Permutation_in _ P), in_or_app; right; apply in_or_app; now left);
         apply (in_save_tasks _ _ _ _ _ W) in J as (k & J & _); apply nth_error_Some; congruence).
      now destruct (collect _ _).
Qed.
