(** C93 in terms of the samples: how long a best-effort query on a table of samples follows its mixture. *)
From Coq Require Import String.
From Verif Require Import Base MixtureKeyModel MixtureKeyProofs ParserModel MdcModel SpecMdc PropertiesMdc SqlModel SpecSql PropertiesSql IntervalModel SpecInterval PropertiesInterval
  ChunkerModel SpecChunker ChunkerProofs ChunkerProofs2 UtilsModel ChunkGenModel PropertiesChunker SerialModel SpecSerial ExecModel SpecChunk PropertiesChunk PropertiesChunk2
  ChunkGenProofs5 SpecExec ExecProofs ExecProofs2 PropertiesExec SpecCount SpecShare PropertiesCount PropertiesCountExec PropertiesShare PropertiesShare2 ChunkGenProofs2.
Open Scope Z_scope.

Section C93.
  Variable glt : group -> group -> bool.
  Variable na : option bool.
  Variable itk : cindex -> cindex.
  Variable itd : list (Z * list (Z * list interval)) -> list (Z * list (Z * list interval)).
  Variable itf : list (Z * list interval) -> list (Z * list interval).
  (** ORDER BY is a total order; the array functions give NULL or false for NULL; hash maps iterate in any order. *)
  Hypothesis Hlt : strict_total glt.
  Hypothesis Hna : na <> Some true.
  Hypothesis Hk : permutes itk.
  Hypothesis Hd : permutes itd.
  Hypothesis Hf : permutes itf.
  Notation executes := (executes glt na itk itd itf).

  (** One best-effort mixture whose keys no sample has together: the first i+1 chunks follow it exactly, if and only if for every key (i+1) times
      its number of samples match the query and have the key's properties. [_partial]: as C93_exact_while_data_last_partial and C72. *)
  Theorem C93_samples_partial cols sels xs idx fuel order h0 r0 son ops q os m : table_ok cols xs -> text_ok cols xs -> query_ok cols sels ->
    executes cols sels xs (Some idx) -> Permutation order (map fst idx) -> heap_ok h0 -> Forall (fun o => heap_ok (op_heap o)) ops ->
    qrun (S fuel) ops (qr_init idx order h0 r0 son) = (q, os) -> (forall w, In w (working ops os r0 None) -> w = m) ->
    m_rows m <> [] -> m_strict m = false -> Forall (fun kv => 0 < snd kv) (m_rows m) -> zsum (map snd (m_rows m)) = m_csize m ->
    (forall x k k', In x xs -> In k (map fst (m_rows m)) -> In k' (map fst (m_rows m)) ->
       key_eq k (properties cols (snd x)) = true -> key_eq k' (properties cols (snd x)) = true -> k = k') ->
    forall have i, (i < List.length os)%nat ->
      (forall k, In k (map fst (m_rows m)) -> selects (fun x => matches na cols sels x /\ key_eq k (properties cols (snd x)) = true) xs (have k)) ->
      ((forall j, (j <= i)%nat -> exists c, nth_error os j = Some (NChunk c) /\ follows c m)
       <-> forall k n, In (k, n) (m_rows m) -> (Z.of_nat i + 1) * n <= Z.of_nat (List.length (have k))).
  Proof using Hlt Hna Hk Hd Hf.
    intros T X Q E Ho Hh Hops Hrun Hm Hne Hst Hpos Hfull Hap have i Hi Hsel.
    destruct (executed glt na itk itd itf Hlt Hna Hk Hd Hf cols sels xs _ T X Q E) as (idx' & [= <-] & W & Ix & K & M).
    assert (Hap' : keys_apart idx (m_rows m)).
    { intros ck k k' H1 H2 H3 H4 H5. destruct (K ck H1) as (x & Hx & <-). exact (Hap x k k' Hx H2 H3 H4 H5). }
    rewrite (C93_exact_while_data_last_partial _ _ _ _ _ _ _ _ _ _ Ix Ho Hh Hops Hrun Hm Hne Hst Hpos Hfull Hap' i Hi).
    assert (L : forall k n, In (k, n) (m_rows m) -> List.length (available idx k) = List.length (have k)).
    { intros k n H. apply (in_map fst) in H. exact (available_samples na cols sels xs idx (key_eq k) (have k) T Ix M (Hsel k H)). }
    split; intros H k n Hkn; specialize (H k n Hkn); rewrite (L k n Hkn) in *; exact H.
  Qed.

  (** Any history of mixtures whose keys no sample has together: the first i+1 chunks follow the mixtures installed at them exactly, if and only if
      for every key as many samples match the query and have the key's properties as these mixtures ask of it together.
      [_partial]: as C93_changing_partial and C72. *)
  Theorem C93_samples_changing_partial cols sels xs idx fuel order h0 r0 son ops q os : table_ok cols xs -> text_ok cols xs -> query_ok cols sels ->
    executes cols sels xs (Some idx) -> Permutation order (map fst idx) -> heap_ok h0 -> Forall (fun o => heap_ok (op_heap o)) ops ->
    qrun (S fuel) ops (qr_init idx order h0 r0 son) = (q, os) ->
    (forall m, In m (installed ops r0) ->
       m_rows m <> [] /\ (m_strict m = true \/ (Forall (fun kv => 0 < snd kv) (m_rows m) /\ zsum (map snd (m_rows m)) = m_csize m))) ->
    (forall x m m' k k', In x xs -> In m (installed ops r0) -> In m' (installed ops r0) -> In k (map fst (m_rows m)) -> In k' (map fst (m_rows m')) ->
       key_eq k (properties cols (snd x)) = true -> key_eq k' (properties cols (snd x)) = true -> k = k') ->
    forall have i, (i < List.length os)%nat ->
      (forall m k, In m (installed ops r0) -> In k (map fst (m_rows m)) ->
         selects (fun x => matches na cols sels x /\ key_eq k (properties cols (snd x)) = true) xs (have k)) ->
      ((forall j, (j <= i)%nat -> exists c m, nth_error os j = Some (NChunk c) /\ nth_error (installed ops r0) j = Some m /\ follows c m)
       <-> forall m k, In m (installed ops r0) -> In k (map fst (m_rows m)) -> zsum (map (fun m' => asked (m_rows m') k) (firstn (S i) (installed ops r0))) <= Z.of_nat (List.length (have k))).
  Proof using Hlt Hna Hk Hd Hf.
    intros T X Q E Ho Hh Hops Hrun Hms Hap have i Hi Hsel.
    destruct (executed glt na itk itd itf Hlt Hna Hk Hd Hf cols sels xs _ T X Q E) as (idx' & [= <-] & W & Ix & K & M).
    assert (Hap' : forall ck m m' k k', In ck (map fst idx) -> In m (installed ops r0) -> In m' (installed ops r0) ->
      In k (map fst (m_rows m)) -> In k' (map fst (m_rows m')) -> key_eq k ck = true -> key_eq k' ck = true -> k = k').
    { intros ck m m' k k' H1 H2 H3 H4 H5 H6 H7. destruct (K ck H1) as (x & Hx & <-). exact (Hap x m m' k k' Hx H2 H3 H4 H5 H6 H7). }
    rewrite (C93_changing_partial _ _ _ _ _ _ _ _ _ Ix Ho Hh Hops Hrun Hms Hap' i Hi).
    assert (L : forall m k, In m (installed ops r0) -> In k (map fst (m_rows m)) -> List.length (available idx k) = List.length (have k)).
    { intros m k H1 H2. exact (available_samples na cols sels xs idx (key_eq k) (have k) T Ix M (Hsel m k H1 H2)). }
    split; intros H.
    - intros m k H1 H2. rewrite <- (L m k H1 H2). apply H.
    - intros k. destruct (in_dec mkey_eq_dec k (flat_map (fun m => map fst (m_rows m)) (installed ops r0))) as [Hin|Hn].
      + apply in_flat_map in Hin as (m & H1 & H2). rewrite (L m k H1 H2). exact (H m k H1 H2).
      + assert (Z0 : forall l, incl l (installed ops r0) -> zsum (map (fun m => asked (m_rows m) k) l) = 0).
        { induction l as [|m l IH]; intros Hi'; cbn [map]; [reflexivity|]. change (zsum (asked (m_rows m) k :: map (fun m => asked (m_rows m) k) l))
            with (asked (m_rows m) k + zsum (map (fun m => asked (m_rows m) k) l)).
          rewrite IH by (intros y Hy; apply Hi'; right; exact Hy).
          assert (E0 : asked (m_rows m) k = 0); [|lia]. apply (lookup0_notin k). intros Hk'. apply Hn, in_flat_map. exists m. split; [apply Hi'; left; reflexivity|exact Hk']. }
        rewrite Z0; [lia|]. intros y Hy. rewrite <- (firstn_skipn (S i) (installed ops r0)). apply in_or_app. left. exact Hy.
  Qed.
End C93.
Print Assumptions C93_samples_partial.
Print Assumptions C93_samples_changing_partial.

(** Non-vacuity: the hypotheses on table, query, keys and calls are those of C92_samples_best_effort; C92_samples_example (PropertiesCountExec.v) meets
    them, and C93_example (PropertiesShare.v) is a run whose third call exhausts a key. *)
