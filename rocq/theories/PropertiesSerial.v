(** C33: a saved index loads as the same index. *)
From Verif Require Import Base MixtureKeyModel MixtureKeyProofs ChunkerModel SpecChunker ChunkerProofs ChunkerProofs2 IntervalModel SerialModel SpecSerial SerialProofs SerialProofs2 PropertiesChunker.
Open Scope Z_scope.

(** Any index, whatever the order in which the workers write and read: loading succeeds and returns an index with
    exactly the same intervals under each combination, dataset and file.  Keys keep their order.  The only thing that
    is lost are empty inner dicts. *)
Theorem C33_any idx fs res : is_index idx -> saved idx None (Some fs) -> loaded fs res ->
  exists p, res = Some p /\ is_index p /\ no_empty p /\
    akeys p = akeys (filter (fun e => has_file (snd e)) idx) /\ (forall k d f, at_kdf p k d f = at_kdf idx k d f).
Proof.
  intros W S L. inversion S as [order P E|]; subst. clear S.
  assert (Hd : fold_left serialize_file order (save_keys idx) = save_keys idx ++ map tent order).
  { apply saved_dir. apply (Permutation_NoDup (Permutation_map tid (Permutation_sym P))), NoDup_tids, W. }
  rewrite Hd in L. destruct (load_plan_eq idx order) as (l & L1 & L2).
  { intros [[[i d] f] iv] Ht. apply (Permutation_in _ P), in_save_tasks in Ht as (k & Hk & _); [|exact W]. rewrite <- (map_length fst). apply nth_error_Some. cbn. rewrite Hk. discriminate. }
  inversion L as [keys tasks results E1 E2 E3|E1]; subst; [|rewrite L1 in E1; discriminate E1]. rewrite L1 in E1. injection E1 as <- <-.
  eexists. split; [reflexivity|]. apply (roundtrip idx order results W P). rewrite E2. exact L2.
Qed.
(** Where no inner dict is empty -- as in each index the chunker builds -- the loaded index equals the saved one. *)
Theorem C33_roundtrip idx fs res : is_index idx -> no_empty idx -> saved idx None (Some fs) -> loaded fs res ->
  exists p, res = Some p /\ akeys p = akeys idx /\ same_index p idx.
Proof.
  intros W E S L. destruct (C33_any idx fs res W S L) as (p & -> & Wp & Ep & Ak & At). exists p. split; [reflexivity|].
  assert (A : akeys p = akeys idx).
  { rewrite Ak. f_equal. clear - E. induction idx as [|[k ds] l IH]; [reflexivity|]. cbn [filter snd].
    assert (X : has_file ds = true).
    { destruct (E k ds (or_introl eq_refl)) as [E1 E2]. destruct ds as [|[d fs] ds]; [contradiction|]. cbn. destruct fs; [exfalso; apply (E2 d [] (or_introl eq_refl)); reflexivity|reflexivity]. }
    rewrite X. f_equal. apply IH. intros k' ds' Hi. apply (E k' ds'). right. exact Hi. }
  split; [exact A|].
  assert (G : forall q : pindex, is_index q -> no_empty q -> (forall k d, at_kd q k d = None <-> forall f, at_kdf q k d f = None) /\ (forall k, at_k q k = None <-> forall d, at_kd q k d = None)).
  { clear. intros q (N & _ & _ & W) E. split.
    - intros k d. unfold at_kdf. split; [intros ->; reflexivity|]. intros H. unfold at_kd in *. destruct (at_k q k) as [ds|] eqn:Ek; [|reflexivity]. apply (aget_in _ mkey_eqb_spec) in Ek. destruct (E k ds Ek) as [_ E2].
      destruct (aget Z.eqb d ds) as [fs|] eqn:Ed; [|reflexivity]. apply (aget_in _ Z.eqb_eq) in Ed. specialize (E2 d fs Ed). destruct fs as [|[f iv] fs]; [contradiction|]. specialize (H f). cbn in H. rewrite Z.eqb_refl in H. discriminate H.
    - intros k. unfold at_kd. split; [intros ->; reflexivity|]. intros H. destruct (at_k q k) as [ds|] eqn:Ek; [|reflexivity]. apply (aget_in _ mkey_eqb_spec) in Ek. destruct (E k ds Ek) as [E1 _].
      destruct ds as [|[d fs] ds]; [contradiction|]. specialize (H d). cbn in H. rewrite Z.eqb_refl in H. discriminate H. }
  destruct (G p Wp Ep) as [P1 P2]. destruct (G idx W E) as [I1 I2].
  assert (D : forall k d, at_kd p k d = None <-> at_kd idx k d = None) by (intros k d; rewrite P1, I1; split; intros H f; [rewrite <- At|rewrite At]; apply H).
  split; [|split; [exact D|exact At]]. intros k. rewrite P2, I2. split; intros H d; apply D, H.
Qed.
(** In particular the index of a query (C32), which is what QueryResult saves, is such an index. *)
Theorem C33_query_index itk itd itf cols batches n p fs res : permutes itk -> permutes itd -> permutes itf ->
  creates itk itd itf cols batches n (Some p) -> rectangular cols (concat batches) -> Forall row_ok (concat batches) ->
  clean cols (concat batches) -> one_order cols (concat batches) -> 0 <= n ->
  saved p None (Some fs) -> loaded fs res -> exists q, res = Some q /\ akeys q = akeys p /\ same_index q p.
Proof.
  intros I1 I2 I3 H R Ok C O Hn. destruct (C32_index_partial itk itd itf I1 I2 I3 cols batches n _ H Hn R Ok C O) as (q & [= <-] & [W1 W2] & K & _).
  apply C33_roundtrip.
  - split; [exact W1|]. split; [|split].
    + intros k k' Hk Hk' E. apply K in Hk as (r & Hr & <-), Hk' as (r' & Hr' & <-). apply (O r r' Hr Hr' E).
    + intros k Hk. apply K in Hk as (r & Hr & <-). apply combo_nodup, C.
    + intros k ds Hi. destruct (W2 k ds Hi) as [_ [W3 W4]]. split; [exact W3|]. intros d f Hd. apply (W4 d f Hd).
  - intros k ds Hi. destruct (W2 k ds Hi) as [W3 [_ W4]]. split; [exact W3|]. intros d f Hd. apply (W4 d f Hd).
Qed.

(** Saving and loading never get stuck, and a non-trivial index meets the hypotheses: two keys, two datasets, ids
    with several digits. *)
Definition ex_idx : pindex :=
  [([([97], [[120]])], [(10, [(123, [(0, 2); (5, 7)]); (0, [(1, 2)])]); (3, [(7, [(0, 1)])])]); ([([98], [[121]; [120]])], [(10, [(123, [(2, 5)])])])].
Example C33_hypotheses_hold : is_index ex_idx /\ no_empty ex_idx /\ exists fs res, saved ex_idx None (Some fs) /\ loaded fs res.
Proof.
  assert (W : is_index ex_idx).
  { split; [repeat constructor; cbn; intuition discriminate|]. split; [|split].
    - cbn. intros k k' [<-|[<-|[]]] [<-|[<-|[]]] E; try reflexivity; vm_compute in E; discriminate E.
    - cbn. intros k [<-|[<-|[]]]; repeat constructor; cbn; intuition.
    - cbn. intros k ds [[= <- <-]|[[= <- <-]|[]]]; (split; [repeat constructor; cbn; intuition discriminate|]); intros d fs Hd; cbn in Hd; intuition (match goal with H : (_, _) = (_, _) |- _ => injection H as <- <- end; repeat constructor; cbn; intuition discriminate). }
  split; [exact W|]. split.
  - intros k ds Hi. cbn in Hi. destruct Hi as [[= <- <-]|[[= <- <-]|[]]]; (split; [discriminate|]); intros d fs Hd; cbn in Hd; intuition (match goal with H : (_, _) = (_, _) |- _ => injection H as <- <- end; discriminate).
  - eexists. destruct (load_plan (fold_left serialize_file (save_tasks ex_idx) (save_keys ex_idx))) as [[keys tasks]|] eqn:E.
    + eexists. split; [apply SavedNew, Permutation_refl|]. eapply LoadedOk; [exact E|apply Permutation_refl].
    + exists None. split; [apply SavedNew, Permutation_refl|]. apply LoadedErr, E.
Qed.
(** An empty dataset entry is dropped (no such index is built by the chunker). *)
Example C33_empty_dropped : exists fs p, saved [([([97], [[120]])], [(1, [])])] None (Some fs) /\ loaded fs (Some p) /\ p = [].
Proof. eexists. exists []. split; [apply SavedNew, Permutation_refl|]. split; [|reflexivity].
  apply (LoadedOk _ [[([97], [[120]])]] [] []); [vm_compute; reflexivity|apply Permutation_refl]. Qed.
Print Assumptions C33_any.
Print Assumptions C33_roundtrip.
Print Assumptions C33_query_index.
