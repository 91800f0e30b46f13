(** C72: executing a query indexes exactly the matching samples, and iterating it delivers them. *)
From Coq Require Import String.
From Verif Require Import Base MixtureKeyModel MixtureKeyProofs ParserModel MdcModel SpecMdc PropertiesMdc SqlModel SpecSql PropertiesSql IntervalModel SpecInterval PropertiesInterval
  ChunkerModel SpecChunker ChunkerProofs ChunkerProofs2 UtilsModel ChunkGenModel PropertiesChunker SerialModel SpecSerial CacheModel SpecCache PropertiesCache ExecModel SpecChunk PropertiesChunk SpecExec ExecProofs ExecProofs2 SpecBalance ChunkGenProofs13 PropertiesBalance.
Open Scope Z_scope.

Section C72.
  Variable glt : group -> group -> bool.
  Variable na : option bool.
  Variable itk : cindex -> cindex.
  Variable itd : list (Z * list (Z * list interval)) -> list (Z * list (Z * list interval)).
  Variable itf : list (Z * list interval) -> list (Z * list interval).
  (** ORDER BY is a total order; the array functions give NULL or false for NULL; hash maps iterate in any order. *)
  Hypothesis Hlt : strict_total glt.
  Hypothesis Hna : na <> Some true.
  Hypothesis Hk : permutes itk.
  Hypothesis Hd : permutes itd.
  Hypothesis Hf : permutes itf.
  Notation executes := (executes glt na itk itd itf).

  Lemma result_table_matching cols sels xs : table_ok cols xs -> query_ok cols sels ->
    exists ys, selects (matches na cols sels) xs ys /\
      result_table glt na cols sels xs = Some (map table_row (query_intervals group_eqb glt (map (fun x => (the_group cols x, the_id x)) ys))).
  Proof using Hna.
    intros T Q. assert (Ty : Forall (typed (schema_of cols)) (map (row_of cols) xs)) by (apply Forall_forall; intros r Hr; apply in_map_iff in Hr as (x & <- & _); apply typed_row).
    destruct (C30_matching_partial sval_cmp na sval_cmp_eq Hna (schema_of cols) sels _ (qo_some _ _ Q) Ty (qo_order _ _ Q) (qo_effective _ _ Q)) as (res & E & S).
    apply selects_map in S as (ys & -> & S). exists ys. split.
    - assert (V := to_values _ _ T). assert (A := to_cols _ _ T). assert (B := to_reserved _ _ T). clear - S V A B. revert V. induction S as [|x l r Hx S IH|x l r Hx S IH]; intros V; [constructor| |];
        inversion V as [|? ? V1 V2]; subst; assert (MR := matches_row cols A B na sels x V1).
      + constructor; [apply MR, Hx|apply IH, V2].
      + apply sel_out; [intros Hm; apply Hx, MR, Hm|apply IH, V2].
    - unfold result_table. rewrite E. do 3 f_equal. rewrite map_map. apply map_ext. intros x. apply group_row_eq; [exact (to_cols _ _ T)|exact (to_reserved _ _ T)].
  Qed.
  Lemma sub_table_ok cols xs ys P : selects P xs ys -> table_ok cols xs -> table_ok cols ys.
  Proof using.
    intros S T. constructor; [exact (to_cols _ _ T)|exact (to_reserved _ _ T)|exact (selects_nodup _ _ _ _ S (to_keys _ _ T))|].
    assert (V := to_values _ _ T). rewrite Forall_forall in *. intros x Hx. apply V. apply (selects_in P xs ys x S) in Hx. tauto.
  Qed.
  Lemma sub_text_ok cols xs ys P : selects P xs ys -> text_ok cols xs -> text_ok cols ys.
  Proof using.
    intros S T. assert (I : incl ys xs) by (intros x Hx; apply (selects_in P xs ys x S) in Hx; tauto).
    constructor; [exact (tx_names _ _ T)|intros; eapply (tx_values _ _ T); eauto|intros; apply (tx_order _ _ T); auto].
  Qed.
  Lemma num_workers_pos cores in_test : 0 <= num_workers cores in_test.
  Proof using. unfold num_workers. destruct in_test; lia. Qed.

  Lemma executed cols sels xs res : table_ok cols xs -> text_ok cols xs -> query_ok cols sels -> executes cols sels xs res ->
    exists idx, res = Some idx /\ wf_i idx /\ index_ok idx /\ (forall k, In k (map fst idx) -> exists x, In x xs /\ properties cols (snd x) = k) /\ indexes_matching na cols sels xs idx.
  Proof using Hlt Hna Hk Hd Hf.
    intros T X Q E. destruct (result_table_matching cols sels xs T Q) as (ys & S & R).
    destruct E as [E|table batches cores in_test res E Eb C]; rewrite R in E; [discriminate|]. injection E as <-.
    assert (Ty := sub_table_ok _ _ _ _ S T). assert (Xy := sub_text_ok _ _ _ _ S X).
    destruct (index_of_samples glt Hlt cols ys Ty Xy itk itd itf Hk Hd Hf batches _ res Eb (num_workers_pos cores in_test) C) as (idx & -> & W & I & K & M).
    exists idx. split; [reflexivity|]. split; [exact W|]. split; [exact I|]. split.
    - intros k Hi. destruct (K k Hi) as (x & Hx & Ex). exists x. split; [|exact Ex]. apply (selects_in _ _ _ x S) in Hx. tauto.
    - intros k d f i. rewrite M. split; intros (r & H1 & H2).
      + apply (selects_in _ _ _ _ S) in H1 as [H0 H1]. exists r. auto.
      + destruct H2 as [H2 H3]. exists r. split; [apply (selects_in _ _ _ _ S); auto|exact H3].
  Qed.

  (** Executing a query on any table succeeds -- for every way Arrow cuts the result into batches, every number of
      cores, every interleaving of the worker threads -- and gives an index that lists the matching samples, each
      exactly once (the index is well-formed: no row twice), under the sample's properties, and nothing else.
      Partial: texts with separators, or the same values in different orders, are excluded (C32 shows they break it),
      as are order comparisons on array columns and chains mixing selects with and without effective conditions (C30). *)
  Theorem C72_execute_partial cols sels xs : table_ok cols xs -> text_ok cols xs -> query_ok cols sels ->
    (exists res, executes cols sels xs res) /\
    forall res, executes cols sels xs res -> exists idx, res = Some idx /\ index_ok idx /\ indexes_matching na cols sels xs idx.
  Proof using Hlt Hna Hk Hd Hf.
    intros T X Q. split.
    - destruct (result_table_matching cols sels xs T Q) as (ys & S & R).
      destruct (C32_terminates itk itd itf (group_cols cols) [map table_row (query_intervals group_eqb glt (map (fun x => (the_group cols x, the_id x)) ys))] (num_workers 8 false)) as (res & C).
      exists res. eapply ExIndex; [exact R| |exact C]. cbn. apply app_nil_r.
    - intros res E. destruct (executed cols sels xs res T X Q E) as (idx & E1 & _ & E2 & _ & E3). exists idx. auto.
  Qed.
  (** An order comparison on an array column: the call raises, whatever the samples are. *)
  Theorem C72_array_order_raises cols sels xs res cs c : In cs sels -> In c cs -> array_order (schema_of_table cols) c ->
    executes cols sels xs res -> res = None.
  Proof using Hna.
    intros H1 H2 H3 E. destruct E as [E|table batches cores in_test res E Eb C]; [reflexivity|]. exfalso. unfold result_table in E.
    rewrite (C30_array_order_raises sval_cmp na sval_cmp_eq Hna (schema_of cols) sels _ cs c) in E; [discriminate| |exact H1|exact H2|exact H3].
    apply Forall_forall. intros r Hr. apply in_map_iff in Hr as (x & <- & _). apply typed_row.
  Qed.

  (** Iterating the result, with any mixtures and any updates of them: only matching samples come, none twice, each
      under a mixture key equal to the sample's properties. *)
  Theorem C72_delivers_matching_partial cols sels xs idx fuel order q os : table_ok cols xs -> text_ok cols xs -> query_ok cols sels ->
    executes cols sels xs (Some idx) -> Permutation order (map fst idx) -> reachable fuel idx order q os ->
    NoDup (flat_map (fun c => all_rows (rc_index c)) (chunks os)) /\
    forall c k p d f i, In c (chunks os) -> In (k, p) (rc_index c) -> In (d, f, i) (rows_of p) ->
      exists r, In ((d, f, i), r) xs /\ matches na cols sels ((d, f, i), r) /\ key_eq k (properties cols r) = true.
  Proof using Hlt Hna Hk Hd Hf.
    intros T X Q E Ho Hr. destruct (executed cols sels xs _ T X Q E) as (idx' & [= <-] & W & Ix & _ & M). split; [apply (C01_no_sample_twice _ _ _ _ _ Ix Ho Hr)|].
    intros c k p d f i Hc Hp Hi. destruct (C02_rows_from_matching_key _ _ _ _ _ _ _ _ _ Ix Ho Hr Hc Hp Hi) as (ck & p' & A & B & C).
    assert (R : In (d, f, i) (rows_under ck idx)) by (apply in_rows_under; eauto). apply M in R as (r & R1 & R2 & R3). exists r. rewrite R3. auto.
  Qed.
  (** Iterating with arbitrary mixtures until the end: exactly the matching samples have been delivered, each once.
      Partial as C05: with an even number of property combinations the iteration may not end. *)
  Theorem C72_delivers_everything_partial cols sels xs idx fuel order h0 r0 son ops q os : table_ok cols xs -> text_ok cols xs -> query_ok cols sels ->
    executes cols sels xs (Some idx) -> Permutation order (map fst idx) -> Forall (fun o => arbitrary_heap (op_heap o)) ops ->
    qrun (S fuel) ops (qr_init idx order h0 r0 son) = (q, os) -> In NStop os -> ~ In (NErr OutOfFuel) os ->
    NoDup (flat_map (fun c => all_rows (rc_index c)) (chunks os)) /\
    forall d f i, In (d, f, i) (flat_map (fun c => all_rows (rc_index c)) (chunks os)) <-> exists r, In ((d, f, i), r) xs /\ matches na cols sels ((d, f, i), r).
  Proof using Hlt Hna Hk Hd Hf.
    intros T X Q E Ho Ha Hrun Hs Hn. destruct (executed cols sels xs _ T X Q E) as (idx' & [= <-] & W & Ix & _ & M).
    destruct (C05_arbitrary_everything_partial fuel idx order h0 r0 son ops q os Ix Ho Ha Hrun) as (_ & _ & _ & P & _). specialize (P Hs Hn).
    split; [exact (Permutation_NoDup P (ix_rows _ Ix))|]. intros d f i. split.
    - intros H. apply (Permutation_in _ (Permutation_sym P)) in H. unfold all_rows in H. apply in_flat_map in H as ([k p] & H1 & H2). cbn [snd] in H2.
      assert (R : In (d, f, i) (rows_under k idx)) by (apply in_rows_under; eauto). apply M in R as (r & R1 & R2 & _). eauto.
    - intros (r & R1 & R2). apply (Permutation_in _ P). assert (R : In (d, f, i) (rows_under (properties cols r) idx)) by (apply M; eauto).
      apply in_rows_under in R as (p & H1 & H2). unfold all_rows. apply in_flat_map. exists (properties cols r, p). auto.
  Qed.

  (** With a fixed chunk size the iteration does end, and everything has been delivered after at most one call more than the table
      has samples, if the number of property combinations is odd or the shuffled combinations are balanced (C05_even_exact); it
      never ends if their number is even and they are not. *)
  Theorem C72_ends_partial cols sels xs idx c fuel order h0 r0 son ops q os : table_ok cols xs -> text_ok cols xs -> query_ok cols sels ->
    executes cols sels xs (Some idx) -> Permutation order (map fst idx) -> 1 <= c -> Forall (fun o => fixed_size c (op_heap o)) ops ->
    qrun (S fuel) ops (qr_init idx order h0 r0 son) = (q, os) -> (length idx * length idx <= S fuel)%nat -> (length xs < length os)%nat ->
    (Z.odd (Z.of_nat (length idx)) = true \/ balanced c idx order ->
      In NStop os /\ ~ In (NErr OutOfFuel) os /\ NoDup (flat_map (fun c => all_rows (rc_index c)) (chunks os)) /\
      forall d f i, In (d, f, i) (flat_map (fun c => all_rows (rc_index c)) (chunks os)) <-> exists r, In ((d, f, i), r) xs /\ matches na cols sels ((d, f, i), r))
    /\ (Z.odd (Z.of_nat (length idx)) = false -> ~ balanced c idx order -> In (NErr OutOfFuel) os).
  Proof using Hlt Hna Hk Hd Hf.
    intros T X Q E Ho Hc Hops Hrun Hfu Hl. destruct (executed cols sels xs _ T X Q E) as (idx' & [= <-] & W & Ix & _ & M).
    assert (Ha : Forall (fun o => arbitrary_heap (op_heap o)) ops) by (eapply Forall_impl; [|exact Hops]; intros o Ho'; eapply const_arbitrary; eauto).
    assert (Hl' : (length (all_rows idx) < length os)%nat).
    { assert (In_ : incl (all_rows idx) (map fst xs)).
      { intros [[d f] i] H. unfold all_rows in H. apply in_flat_map in H as ([k p] & H1 & H2). cbn [snd] in H2.
        assert (R : In (d, f, i) (rows_under k idx)) by (apply in_rows_under; eauto). apply M in R as (r & R1 & _). apply (in_map fst) in R1. exact R1. }
      pose proof (NoDup_incl_length (ix_rows _ Ix) In_) as L. rewrite map_length in L. exact (Nat.le_lt_trans _ _ _ L Hl). }
    split.
    - intros H. assert (G : In NStop os /\ ~ In (NErr OutOfFuel) os).
      { destruct (Z.odd (Z.of_nat (length idx))) eqn:Od.
        - destruct (C05_arbitrary_everything_partial fuel idx order h0 r0 son ops q os Ix Ho Ha Hrun) as (_ & _ & _ & _ & P). destruct (P Od Hfu). auto.
        - destruct H as [H|H]; [discriminate|]. assert (Ev : Z.even (Z.of_nat (length idx)) = true) by (rewrite <- Z.negb_odd, Od; reflexivity).
          destruct (C05_even_exact c fuel idx order h0 r0 son ops q os Ix Ho Ev Hc Hops Hrun) as [P _]. destruct (P H Hfu) as [P1 P2]. destruct (P2 Hl'). auto. }
      destruct G as [G1 G2]. split; [exact G1|]. split; [exact G2|].
      exact (C72_delivers_everything_partial cols sels xs idx fuel order h0 r0 son ops q os T X Q E Ho Ha Hrun G1 G2).
    - intros Od Nb. assert (Ev : Z.even (Z.of_nat (length idx)) = true) by (rewrite <- Z.negb_odd, Od; reflexivity).
      destruct (C05_even_exact c fuel idx order h0 r0 son ops q os Ix Ho Ev Hc Hops Hrun) as [_ P]. destruct (P Nb) as [_ P2]. exact (P2 Hl').
  Qed.

  (** ** With the catalogue and the cache (C34, C35, C61)
      The columns of the catalogue and which of them are arrays; a query and its selects. *)
  Variable multi : str -> bool.
  Context {query : Type}.
  Variable meaning : query -> list (list (cond sval)).
  Definition catalogue_cols (v : view_t) : list (str * bool) := map (fun c => (c, multi c)) (fst v).
  Definition catalogue_samples (v : view_t) : list sample := map (fun x => fst (fst x)) (snd v).
  (** Executions on catalogues whose values and texts are as above. *)
  Definition runs (v : view_t) (q : query) (r : unit * pindex) : Prop :=
    table_ok (catalogue_cols v) (catalogue_samples v) /\ text_ok (catalogue_cols v) (catalogue_samples v) /\ query_ok (catalogue_cols v) (meaning q)
    /\ executes (catalogue_cols v) (meaning q) (catalogue_samples v) (Some (snd r)).
  Lemma runs_returns_indexes : returns_indexes runs.
  Proof using Hlt Hna Hk Hd Hf.
    intros v q [] idx (T & X & Q & E). destruct (executed _ _ _ _ T X Q E) as (idx' & [= <-] & [W1 W2] & Ix & K & _). split.
    - split; [exact W1|]. split; [|split].
      + intros k k' H H' C. destruct (K k H) as (x & Hx & <-), (K k' H') as (x' & Hx' & <-). apply (tx_order _ _ X x x' Hx Hx' C).
      + intros k H. destruct (K k H) as (x & Hx & <-). apply properties_keys, (to_cols _ _ T).
      + intros k ds H. destruct (W2 k ds H) as [_ [W3 W4]]. split; [exact W3|]. intros d fs H'. apply (W4 d fs H').
    - intros k ds H. destruct (W2 k ds H) as [W3 [_ W4]]. split; [exact W3|]. intros d fs H'. apply (W4 d fs H').
  Qed.
  (** The index served has sample i of file f of dataset d under key k. *)
  Definition listed (p : pindex) (k : mkey) (d f i : Z) : Prop := exists rs r, at_kdf p k d f = Some rs /\ In r rs /\ fst r <= i < snd r.
  (** Over every history of registrations, removals, queries and crashes that C34 covers: what is served from the cache
      lists exactly the samples that match the query in the catalogue as it is now, under their properties. *)
  Theorem C72_cached_partial text sha castable metadata_of k q c' p :
    (forall a b : query, text a = text b -> a = b) -> hist text sha runs castable metadata_of false false false k ->
    gets sha (c_cache k) (version (c_db k)) (text q) c' (Some (Served (tt, p))) ->
    forall kk d f i, listed p kk d f i <->
      exists r, In ((d, f, i), r) (samples (c_db k)) /\ matches na (map (fun c => (c, multi c)) (columns (c_db k))) (meaning q) ((d, f, i), r)
                /\ properties (map (fun c => (c, multi c)) (columns (c_db k))) r = kk.
  Proof using Hlt Hna Hk Hd Hf.
    intros Inj H G kk d f i.
    destruct (C34_served_exact_partial text sha runs castable metadata_of k q c' tt p runs_returns_indexes Inj H G) as (idx & (T & X & Q & E) & _ & (_ & _ & S)).
    destruct (executed _ _ _ _ T X Q E) as (idx' & [= <-] & W & _ & _ & M).
    assert (Ec : catalogue_samples (view (c_db k)) = samples (c_db k)) by (unfold catalogue_samples, view; cbn [snd]; rewrite map_map; cbn [fst]; apply map_id).
    unfold catalogue_cols in *. cbn [view fst] in *. rewrite Ec in M. unfold indexes_matching in M. rewrite <- (M kk d f i). rewrite (rows_under_lookup idx W). unfold listed. split.
    - intros (rs & r & H1 & H2). exists r. split; [|apply H2]. rewrite S in H1. unfold at_kdf, at_kd, at_k in H1. unfold index_at, getd.
      destruct (aget mkey_eqb kk idx) as [ds|]; [|discriminate]. destruct (aget Z.eqb d ds) as [fs|]; [|discriminate]. rewrite H1. apply H2.
    - intros (r & H1 & H2). unfold index_at, getd in H1. destruct (aget mkey_eqb kk idx) as [ds|] eqn:E1; [|destruct H1]. destruct (aget Z.eqb d ds) as [fs|] eqn:E2; [|destruct H1].
      destruct (aget Z.eqb f fs) as [rs|] eqn:E3; [|destruct H1]. exists rs, r. split; [|auto]. rewrite S. unfold at_kdf, at_kd, at_k. rewrite E1, E2. exact E3.
  Qed.
End C72.

(** ** An order as the database's: integers, texts and arrays in lexicographic order, NULLs last *)
Definition lawful {A} (cmp : A -> A -> comparison) : Prop :=
  (forall a b, cmp a b = Eq <-> a = b) /\ (forall a b, cmp b a = CompOpp (cmp a b)) /\ (forall a b c, cmp a b = Lt -> cmp b c = Lt -> cmp a c = Lt).
Definition opt_cmp {A} (cmp : A -> A -> comparison) (a b : option A) : comparison :=
  match a, b with Some x, Some y => cmp x y | None, None => Eq | Some _, None => Lt | None, Some _ => Gt end.
Definition pair_cmp {A B} (ca : A -> A -> comparison) (cb : B -> B -> comparison) (a b : A * B) : comparison :=
  match ca (fst a) (fst b) with Eq => cb (snd a) (snd b) | c => c end.
Definition cell_cmp (a b : cell sval) : comparison :=
  match a, b with
  | CScalar x, CScalar y => opt_cmp sval_cmp x y
  | CArray x, CArray y => opt_cmp (lex (opt_cmp sval_cmp)) x y
  | CScalar _, CArray _ => Lt
  | CArray _, CScalar _ => Gt
  end.
Definition group_cmp : group -> group -> comparison := pair_cmp (pair_cmp Z.compare Z.compare) (lex cell_cmp).
Definition db_lt (a b : group) : bool := match group_cmp a b with Lt => true | _ => false end.
Lemma lawful_Z : lawful Z.compare.
Proof. split; [apply Z.compare_eq_iff|]. split; [intros; apply Z.compare_antisym|]. intros a b c H1 H2. exact (Z.lt_trans a b c H1 H2). Qed.
Lemma lawful_lex {A} (cmp : A -> A -> comparison) : lawful cmp -> lawful (lex cmp).
Proof. intros (H1 & H2 & H3). split; [apply lex_eq, H1|]. split; [apply lex_antisym, H2|apply lex_trans; assumption]. Qed.
Lemma lawful_sval : lawful sval_cmp.
Proof.
  split; [apply sval_cmp_eq|]. split.
  - intros [x|x] [y|y]; cbn; [apply Z.compare_antisym|reflexivity|reflexivity|apply str_cmp_anti].
  - intros [x|x] [y|y] [z|z]; cbn; try congruence; [apply lawful_Z|apply str_cmp_trans].
Qed.
Lemma lawful_opt {A} (cmp : A -> A -> comparison) : lawful cmp -> lawful (opt_cmp cmp).
Proof.
  intros (H1 & H2 & H3). split; [|split].
  - intros [a|] [b|]; cbn; rewrite ?H1; split; congruence.
  - intros [a|] [b|]; cbn; try reflexivity. apply H2.
  - intros [a|] [b|] [c|]; cbn; try congruence. apply H3.
Qed.
Lemma lawful_pair {A B} (ca : A -> A -> comparison) (cb : B -> B -> comparison) : lawful ca -> lawful cb -> lawful (pair_cmp ca cb).
Proof.
  intros (A1 & A2 & A3) (B1 & B2 & B3). unfold pair_cmp. split; [|split].
  - intros [a b] [a' b']. cbn. destruct (ca a a') eqn:E; [apply A1 in E; subst; rewrite B1; split; congruence| |]; (split; [discriminate|]; intros [= -> ->]; rewrite (proj2 (A1 a' a') eq_refl) in E; discriminate).
  - intros [a b] [a' b']. cbn. rewrite (A2 a a'). destruct (ca a a'); cbn; auto.
  - intros [a b] [a' b'] [a'' b'']. cbn. destruct (ca a a') eqn:E1, (ca a' a'') eqn:E2; try discriminate; intros X Y.
    + apply A1 in E1, E2. subst. rewrite (proj2 (A1 a'' a'') eq_refl). eauto.
    + apply A1 in E1. subst. rewrite E2. reflexivity.
    + apply A1 in E2. subst. rewrite E1. reflexivity.
    + rewrite (A3 _ _ _ E1 E2). reflexivity.
Qed.
Lemma lawful_cell : lawful cell_cmp.
Proof.
  assert (S := lawful_opt _ lawful_sval). assert (L := lawful_opt _ (lawful_lex _ S)). destruct S as (S1 & S2 & S3), L as (L1 & L2 & L3). split; [|split].
  - intros [x|x] [y|y]; cbn; rewrite ?S1, ?L1; split; congruence.
  - intros [x|x] [y|y]; cbn; try reflexivity; [apply S2|apply L2].
  - intros [x|x] [y|y] [z|z]; cbn; try congruence; [apply S3|apply L3].
Qed.
Lemma db_lt_total : strict_total db_lt.
Proof.
  destruct (lawful_pair _ _ (lawful_pair _ _ lawful_Z lawful_Z) (lawful_lex _ lawful_cell)) as (H1 & H2 & H3). fold group_cmp in H1, H2, H3.
  unfold strict_total, db_lt. split; [|split].
  - intros a b. rewrite (H2 a b). destruct (group_cmp a b); cbn; congruence.
  - intros a b c. destruct (group_cmp a b) eqn:E1; try discriminate. destruct (group_cmp b c) eqn:E2; try discriminate. rewrite (H3 _ _ _ E1 E2). reflexivity.
  - intros a b N. rewrite (H2 a b). destruct (group_cmp a b) eqn:E; cbn; auto. apply H1 in E. contradiction.
Qed.

(** ** The hypotheses are met: four samples in two files, a text column and an array column with NULLs; the query asks
    for English samples tagged x or y. *)
Definition c72_cols : list (str * bool) := [(lit "tag", true); (lit "lang", false)].
Definition c72_samples : list sample :=
  [((1, 1, 0), [(lit "lang", PStr (lit "en")); (lit "tag", ParserModel.PList [PStr (lit "x"); PStr (lit "z")])]);
   ((1, 1, 1), [(lit "lang", PStr (lit "en")); (lit "tag", ParserModel.PList [PStr (lit "x"); PStr (lit "z")])]);
   ((1, 2, 0), [(lit "lang", PStr (lit "fr")); (lit "tag", ParserModel.PList [PStr (lit "y")])]);
   ((1, 2, 1), [(lit "lang", PStr (lit "en")); (lit "tag", ParserModel.PNone)])].
Definition c72_query : list (list (cond sval)) :=
  [[(lit "lang", lit "==", PScalar (SText (lit "en"))); (lit "tag", lit "==", PList [Some (SText (lit "x")); Some (SText (lit "y"))])]].
Example C72_hypotheses_hold : table_ok c72_cols c72_samples /\ text_ok c72_cols c72_samples /\ query_ok c72_cols c72_query /\ strict_total db_lt.
Proof.
  split; [|split; [|split; [|exact db_lt_total]]].
  - constructor.
    + repeat constructor; cbn; intuition discriminate.
    + intros c [<-|[<-|[]]]; vm_compute; intuition discriminate.
    + repeat constructor; cbn; intuition discriminate.
    + repeat constructor; intros c m [[= <- <-]|[[= <- <-]|[]]]; vm_compute; try exact I; try reflexivity; (split; [reflexivity|]); intros e He; repeat destruct He as [<-|He]; try contradiction; eexists; reflexivity.
  - constructor.
    + intros c [<-|[<-|[]]]; split; vm_compute; intuition discriminate.
    + intros x c vs Hx [<-|[<-|[]]]; repeat (destruct Hx as [<-|Hx]); try contradiction; vm_compute; (try discriminate); intros [= <-]; (split; [intros v Hv; repeat destruct Hv as [<-|Hv]; try contradiction; split; vm_compute; intuition discriminate|discriminate]).
    + intros x y Hx Hy; repeat (destruct Hx as [<-|Hx]); try contradiction; repeat (destruct Hy as [<-|Hy]); try contradiction; vm_compute; congruence.
  - constructor.
    + discriminate.
    + intros cs c [<-|[]] [<-|[<-|[]]]; vm_compute; intros (_ & _ & _ & o & [= <-] & H & H'); congruence.
    + left. intros cs [<-|[]]. exists (lit "lang", lit "==", PScalar (SText (lit "en"))). split; [left; reflexivity|]. split; [vm_compute; reflexivity|]. split; [|discriminate].
      exists OEq. split; [vm_compute; reflexivity|]. discriminate.
Qed.
Example C72_table : result_table db_lt None c72_cols c72_query c72_samples = Some [TRow [VStr (lit "en"); VList [Some (lit "x"); Some (lit "z")]] 1 1 0 2].
Proof. vm_compute. reflexivity. Qed.

(** ** Where it fails *)
(** A value with separators: the query matches one sample, whose property a is "x;b:y"; it is listed under a = x, b = y. *)
Definition sep_samples : list sample := [((0, 0, 0), [(lit "a", PStr (lit "x;b:y"))])].
Definition all_query : list (list (cond sval)) := [[]].
Theorem C72_separator_refuted itk itd itf : permutes itk ->
  exists idx, executes db_lt None itk itd itf [(lit "a", false); (lit "b", false)] all_query sep_samples (Some idx)
    /\ table_ok [(lit "a", false); (lit "b", false)] sep_samples /\ query_ok [(lit "a", false); (lit "b", false)] all_query
    /\ ~ indexes_matching None [(lit "a", false); (lit "b", false)] all_query sep_samples idx.
Proof.
  intros I. destruct (C32_separator_refuted itk itd itf I) as (p & C & _ & L1 & L2). exists p. split; [|split; [|split]].
  - eapply (ExIndex _ _ _ _ _ _ _ _ sep_rows [sep_rows] 8 true); [vm_compute; reflexivity|reflexivity|exact C].
  - constructor.
    + repeat constructor; cbn; intuition discriminate.
    + intros c [<-|[<-|[]]]; vm_compute; intuition discriminate.
    + repeat constructor. intros [].
    + repeat constructor. intros c m [[= <- <-]|[[= <- <-]|[]]]; vm_compute; exact I || reflexivity.
  - constructor; [discriminate|intros cs c [<-|[]] []|]. right. intros cs [<-|[]] (c & [] & _).
  - intros M. specialize (M [([97], [[120]]); ([98], [[121]])] 0 0 0).
    assert (H : In (0, 0, 0) (rows_under [([97], [[120]]); ([98], [[121]])] p)).
    { apply in_rows_under. assert (X : In (0, 1) (index_at p [([97], [[120]]); ([98], [[121]])] 0 0)) by (rewrite L1; left; reflexivity).
      destruct (looked_up_is_stored p _ _ _ _ X) as (ds & fs & rs & A1 & A2 & A3 & A4). exists ds. split; [exact A1|]. apply in_rows_of. exists fs, rs, (0, 1). cbn. repeat split; auto; lia. }
    apply M in H as (r & [H|[]] & _ & E). injection H as <-. vm_compute in E. discriminate.
Qed.
(** Two samples tagged (x, y) and (y, x): one of them is missing from the index. *)
Definition swap_samples : list sample :=
  [((0, 0, 0), [(lit "a", ParserModel.PList [PStr (lit "x"); PStr (lit "y")])]); ((0, 0, 1), [(lit "a", ParserModel.PList [PStr (lit "y"); PStr (lit "x")])])].
Theorem C72_value_order_refuted itk itd itf : permutes itk ->
  exists idx, executes db_lt None itk itd itf [(lit "a", true)] all_query swap_samples (Some idx)
    /\ table_ok [(lit "a", true)] swap_samples /\ query_ok [(lit "a", true)] all_query
    /\ ~ ((exists k, In (0, 0, 0) (rows_under k idx)) /\ (exists k, In (0, 0, 1) (rows_under k idx))).
Proof.
  intros I. destruct (C32_terminates itk itd itf [[97]] [swap_rows] 1) as (res & H). assert (V := creates_value _ _ _ _ _ _ _ H ltac:(lia)).
  set (L := all_some _) in V. vm_compute in L. subst L. cbn [merge_indices] in V. unfold build_py in V.
  match type of V with context [itk ?m] => destruct (perm_two itk _ _ I : itk m = _ \/ itk m = _) as [E|E] end; rewrite E in V; clear E;
    (match type of V with _ = Some ?x => set (p := x) in V; vm_compute in p end); exists p; (split; [|split; [|split]]).
  1, 5: eapply (ExIndex _ _ _ _ _ _ _ _ swap_rows [swap_rows] 8 true); [vm_compute; reflexivity|reflexivity|rewrite <- V; exact H].
  1, 4: (constructor;
    [repeat constructor; cbn; intuition discriminate
    |intros c [<-|[]]; vm_compute; intuition discriminate
    |repeat constructor; cbn; intuition discriminate
    |repeat constructor; intros c m [[= <- <-]|[]]; vm_compute; (split; [reflexivity|]); intros e He; repeat destruct He as [<-|He]; try contradiction; eexists; reflexivity]).
  1, 3: (constructor; [discriminate|intros cs c [<-|[]] []|right; intros cs [<-|[]] (c & [] & _)]).
  all: intros [(k & A) (k' & B)]; apply in_rows_under in A as (ds & A1 & A2), B as (ds' & B1 & B2); destruct A1 as [A1|[]], B1 as [B1|[]];
    injection A1 as <- <-; injection B1 as <- <-; vm_compute in A2, B2; intuition discriminate.
Qed.
Print Assumptions C72_execute_partial.
Print Assumptions C72_array_order_raises.
Print Assumptions C72_delivers_matching_partial.
Print Assumptions C72_delivers_everything_partial.
Print Assumptions C72_ends_partial.
Print Assumptions C72_cached_partial.
Print Assumptions C72_separator_refuted.
Print Assumptions C72_value_order_refuted.
