(** C92 in terms of the samples: how many chunks a query on a table of samples delivers. *)
From Coq Require Import String.
From Verif Require Import Base MixtureKeyModel MixtureKeyProofs ParserModel MdcModel SpecMdc PropertiesMdc SqlModel SpecSql PropertiesSql IntervalModel SpecInterval PropertiesInterval
  ChunkerModel SpecChunker ChunkerProofs ChunkerProofs2 UtilsModel ChunkGenModel PropertiesChunker SerialModel SpecSerial ExecModel SpecChunk PropertiesChunk PropertiesChunk2
  ChunkGenProofs5 SpecExec ExecProofs ExecProofs2 PropertiesExec SpecCount PropertiesCount.
Open Scope Z_scope.

Section C92.
  Variable glt : group -> group -> bool.
  Variable na : option bool.
  Variable itk : cindex -> cindex.
  Variable itd : list (Z * list (Z * list interval)) -> list (Z * list (Z * list interval)).
  Variable itf : list (Z * list interval) -> list (Z * list interval).
  (** ORDER BY is a total order; the array functions give NULL or false for NULL; hash maps iterate in any order. *)
  Hypothesis Hlt : strict_total glt.
  Hypothesis Hna : na <> Some true.
  Hypothesis Hk : permutes itk.
  Hypothesis Hd : permutes itd.
  Hypothesis Hf : permutes itf.
  Notation executes := (executes glt na itk itd itf).

  (** A list of distinct rows and a list of distinct samples that are the same. *)
  Lemma same_length (xs ys : list sample) (l : list row) : NoDup (map fst xs) -> NoDup (map fst ys) -> incl ys xs -> NoDup l ->
    (forall d f i, In (d, f, i) l <-> exists r, In ((d, f, i), r) ys) -> List.length l = List.length ys.
  Proof using.
    intros _ Hy _ Hl H. transitivity (List.length (map fst ys)); [|apply map_length]. apply PeanoNat.Nat.le_antisymm; apply NoDup_incl_length; try assumption.
    - intros [[d f] i] Hx. apply H in Hx as (r & Hr). apply (in_map fst) in Hr. exact Hr.
    - intros [[d f] i] Hx. apply in_map_iff in Hx as ([y r] & E & Hr). cbn in E. subst y. apply H. eauto.
  Qed.

  Lemma available_samples cols sels xs idx (c : mkey -> bool) ys : table_ok cols xs -> index_ok idx -> indexes_matching na cols sels xs idx ->
    selects (fun x => matches na cols sels x /\ c (properties cols (snd x)) = true) xs ys ->
    List.length (flat_map (fun kp => if c (fst kp) then rows_of (snd kp) else []) idx) = List.length ys.
  Proof using.
    intros T Ix M S. apply (same_length xs); [apply (to_keys _ _ T)|exact (selects_nodup _ _ _ _ S (to_keys _ _ T))| |apply sub_nodup, (ix_rows _ Ix)|].
    - intros x Hx. apply (selects_in _ _ _ _ S) in Hx. tauto.
    - intros d f i. rewrite in_flat_map. split.
      + intros ([k p] & H1 & H2). cbn [fst snd] in H2. destruct (c k) eqn:E; [|destruct H2].
        assert (R : In (d, f, i) (rows_under k idx)) by (apply in_rows_under; eauto). apply M in R as (r & R1 & R2 & <-). exists r. apply (selects_in _ _ _ _ S). auto.
      + intros (r & Hr). apply (selects_in _ _ _ _ S) in Hr as (H1 & H2 & H3). assert (R : In (d, f, i) (rows_under (properties cols r) idx)) by (apply M; eauto).
        apply in_rows_under in R as (p & R1 & R2). exists (properties cols r, p). cbn [fst snd] in *. rewrite H3. auto.
  Qed.

  (** Strict: call number i of a query on the samples [xs] gives a chunk exactly if for every key of the mixture, (i+1) times
      its number of samples match the query and have the key's properties. [_partial]: as C92_strict_partial and C72. *)
  Theorem C92_samples_strict_partial cols sels xs idx fuel order h0 r0 son ops q os m : table_ok cols xs -> text_ok cols xs -> query_ok cols sels ->
    executes cols sels xs (Some idx) -> Permutation order (map fst idx) -> heap_ok h0 -> Forall (fun o => heap_ok (op_heap o)) ops ->
    qrun (S fuel) ops (qr_init idx order h0 r0 son) = (q, os) -> (forall w, In w (working ops os r0 None) -> w = m) ->
    m_rows m <> [] -> m_strict m = true ->
    (forall x k k', In x xs -> In k (map fst (m_rows m)) -> In k' (map fst (m_rows m)) ->
       key_eq k (properties cols (snd x)) = true -> key_eq k' (properties cols (snd x)) = true -> k = k') ->
    forall have i o, nth_error os i = Some o ->
      (forall k, In k (map fst (m_rows m)) -> selects (fun x => matches na cols sels x /\ key_eq k (properties cols (snd x)) = true) xs (have k)) ->
      (delivered o <-> forall k n, In (k, n) (m_rows m) -> (Z.of_nat i + 1) * n <= Z.of_nat (List.length (have k))).
  Proof using Hlt Hna Hk Hd Hf.
    intros T X Q E Ho Hh Hops Hrun Hm Hne Hst Hap have i o Hi Hsel. destruct (executed glt na itk itd itf Hlt Hna Hk Hd Hf cols sels xs _ T X Q E) as (idx' & [= <-] & W & Ix & K & M).
    assert (Hap' : keys_apart idx (m_rows m)).
    { intros ck k k' H1 H2 H3 H4 H5. destruct (K ck H1) as (x & Hx & <-). exact (Hap x k k' Hx H2 H3 H4 H5). }
    destruct (C92_strict_partial _ _ _ _ _ _ _ _ _ _ Ix Ho Hh Hops Hrun Hm Hne Hst Hap' i o Hi) as [P _]. rewrite P.
    assert (L : forall k n, In (k, n) (m_rows m) -> List.length (available idx k) = List.length (have k)).
    { intros k n H. apply (in_map fst) in H. exact (available_samples cols sels xs idx (key_eq k) (have k) T Ix M (Hsel k H)). }
    split; intros H k n Hkn; specialize (H k n Hkn); rewrite (L k n Hkn) in *; exact H.
  Qed.
  (** Best effort: call number i gives a chunk exactly if (i+1) chunks fit into the matching samples that have the properties of some key. *)
  Theorem C92_samples_best_effort_partial cols sels xs idx fuel order h0 r0 son ops q os m : table_ok cols xs -> text_ok cols xs -> query_ok cols sels ->
    executes cols sels xs (Some idx) -> Permutation order (map fst idx) -> heap_ok h0 -> Forall (fun o => heap_ok (op_heap o)) ops ->
    qrun (S fuel) ops (qr_init idx order h0 r0 son) = (q, os) -> (forall w, In w (working ops os r0 None) -> w = m) ->
    m_rows m <> [] -> m_strict m = false -> Forall (fun kv => 0 < snd kv) (m_rows m) -> zsum (map snd (m_rows m)) = m_csize m ->
    forall have i o, nth_error os i = Some o ->
      selects (fun x => matches na cols sels x /\ existsb (fun k => key_eq k (properties cols (snd x))) (map fst (m_rows m)) = true) xs have ->
      (delivered o <-> (Z.of_nat i + 1) * m_csize m <= Z.of_nat (List.length have)).
  Proof using Hlt Hna Hk Hd Hf.
    intros T X Q E Ho Hh Hops Hrun Hm Hne Hst Hpos Hfull have i o Hi Hsel. destruct (executed glt na itk itd itf Hlt Hna Hk Hd Hf cols sels xs _ T X Q E) as (idx' & [= <-] & W & Ix & K & M).
    destruct (C92_best_effort _ _ _ _ _ _ _ _ _ _ Ix Ho Hh Hops Hrun Hm Hne Hst Hpos Hfull i o Hi) as [P _]. rewrite P.
    pose proof (available_samples cols sels xs idx (fun ck => existsb (fun k => key_eq k ck) (map fst (m_rows m))) have T Ix M Hsel) as L.
    unfold available_any. rewrite L. reflexivity.
  Qed.
  (** The samples that count exist as a list. *)
  Lemma C92_selectable cols sels xs (c : mkey -> bool) : table_ok cols xs -> query_ok cols sels ->
    exists ys, selects (fun x => matches na cols sels x /\ c (properties cols (snd x)) = true) xs ys.
  Proof using Hna glt na.
    intros T Q. destruct (result_table_matching glt na Hna cols sels xs T Q) as (ys & S & _).
    exists (filter (fun x => c (properties cols (snd x))) ys). clear T. induction S as [|x l r Hx S IH|x l r Hx S IH].
    - constructor.
    - cbn. destruct (c (properties cols (snd x))) eqn:E; [apply sel_in; auto|apply sel_out; [intros [_ H]; congruence|auto]].
    - apply sel_out; [tauto|auto].
  Qed.
End C92.
Print Assumptions C92_samples_strict_partial.
Print Assumptions C92_samples_best_effort_partial.

(** ** The hypotheses are met: the four samples of C72, a mixture of English and French texts *)
Definition k_en : mkey := [(lit "lang", [lit "en"])].
Definition k_fr : mkey := [(lit "lang", [lit "fr"])].
Example C92_samples_example itk itd itf : permutes itk -> permutes itd -> permutes itf ->
  exists idx, ExecModel.executes db_lt None itk itd itf c72_cols c72_query c72_samples (Some idx)
    /\ table_ok c72_cols c72_samples /\ text_ok c72_cols c72_samples /\ query_ok c72_cols c72_query
    /\ (forall x k k', In x c72_samples -> In k [k_en; k_fr] -> In k' [k_en; k_fr] ->
          key_eq k (properties c72_cols (snd x)) = true -> key_eq k' (properties c72_cols (snd x)) = true -> k = k')
    /\ map (fun x => key_eq k_en (properties c72_cols (snd x))) c72_samples = [true; true; false; true]
    /\ exists have, forall k, In k [k_en; k_fr] -> selects (fun x => matches None c72_cols c72_query x /\ key_eq k (properties c72_cols (snd x)) = true) c72_samples (have k).
Proof.
  intros I1 I2 I3. destruct C72_hypotheses_hold as (T & X & Q & L). assert (N : @None bool <> Some true) by discriminate.
  destruct (C72_execute_partial db_lt None itk itd itf L N I1 I2 I3 _ _ _ T X Q) as [(res & E) F]. destruct (F res E) as (idx & -> & _).
  exists idx. split; [exact E|]. split; [exact T|]. split; [exact X|]. split; [exact Q|]. split; [|split].
  - intros x k k' Hx Hk Hk' A B. cbn in Hx, Hk, Hk'. repeat destruct Hx as [<-|Hx]; try contradiction; repeat destruct Hk as [<-|Hk]; try contradiction;
      repeat destruct Hk' as [<-|Hk']; try contradiction; try reflexivity; vm_compute in A; vm_compute in B; (discriminate A || discriminate B).
  - vm_compute. reflexivity.
  - destruct (C92_selectable db_lt None N c72_cols c72_query c72_samples (key_eq k_en) T Q) as (h1 & H1).
    destruct (C92_selectable db_lt None N c72_cols c72_query c72_samples (key_eq k_fr) T Q) as (h2 & H2).
    exists (fun k => if key_eq k k_en then h1 else h2). intros k [<-|[<-|[]]]; [exact H1|exact H2].
Qed.
