(** C74: re-running a query is reproducible. *)
From Coq Require Import String QArith Qround.
From Verif Require Import Base MixtureKeyModel MixtureKeyProofs ParserModel MdcModel SqlModel SpecSql IntervalModel SpecInterval
  ChunkerModel SpecChunker ChunkGenModel PropertiesChunker SerialModel SpecSerial PropertiesSerial ExecModel SpecChunk SpecExec ExecProofs ExecProofs2 PropertiesExec
  UtilsModel ReplayModel ReplayProofs ChunkGenProofs1 ChunkGenProofs11 PropertiesReplay PropertiesChunk MixtureModel SpecMixture MixtureProofs2 PropertiesMixture ReproModel SpecRepro ReproProofs ReproProofs2 ReproProofs3.
Open Scope Z_scope.

Section Run.
  (** The hash of the keys' texts and the seeded shuffle. *)
  Variable xxh64 : str -> Z.
  Variable shuffle : Z -> list mkey -> list mkey.
  Notation start idx h r son := (qr_init idx (key_order xxh64 shuffle idx) h r son).

  Lemma start_on idx idx' h r son : is_index idx -> is_index idx' -> same_index idx idx' -> spelled h idx -> start idx' h r son = on (start idx h r son) idx' (key_order xxh64 shuffle idx).
  Proof using. intros I I' S O. unfold qr_init, on. cbn [q_idx q_order q_self q_count q_gen q_nret q_son]. rewrite (order_same idx idx' I I' S), (kid_same idx idx' I I' S) by apply O. reflexivity. Qed.

  (** Two queries over indexes that are equal as Python dicts -- the same ranges for each key, dataset and file, in any
      order -- give the same outcomes: chunk for chunk the same, for every sequence of requests and mixture updates. *)
  Theorem C74_chunks idx idx' h r son fuel ops : is_index idx -> is_index idx' -> same_index idx idx' ->
    spelled h idx -> Forall (fun o => spelled (op_heap o) idx) ops ->
    snd (qrun fuel ops (start idx h r son)) = snd (qrun fuel ops (start idx' h r son)).
  Proof using.
    intros I I' S O F. rewrite (start_on idx idx' h r son I I' S O). destruct (qrun fuel ops (start idx h r son)) as [q os] eqn:E.
    destruct (run_same idx idx' I I' S (key_order xxh64 shuffle idx) fuel ops F (start idx h r son) eq_refl eq_refl _ _ E) as (-> & _). reflexivity.
  Qed.
  (** The order in which mixtures list their keys does not matter either: the chunks have the same rows, sizes, key ids
      and mixture ids (their mixtures list the same counts). *)
  Theorem C74_mixture_order idx h h' r son fuel ops ops' : spelled h idx -> Forall (fun o => spelled (op_heap o) idx) ops ->
    (forall r, same_mixture (h r) (h' r)) -> Forall2 same_call ops ops' ->
    Forall2 same_outcome (snd (qrun fuel ops (start idx h r son))) (snd (qrun fuel ops' (start idx h' r son))).
  Proof using.
    intros O F H C. apply (runs_sim fuel ops ops' idx C F); [reflexivity|]. unfold qr_sim, qr_init, self_sim. cbn [q_idx q_order q_self q_count q_gen q_nret q_son s_log s_kid s_mix s_replay]. split; [reflexivity|]. split; [reflexivity|].
    split; [|auto]. split; [constructor|]. split; [|auto]. apply kid_sim; [apply O|apply H].
  Qed.

  (** Executing a query twice on the same samples -- rows in any order, any batches, cores, thread interleavings, any
      iteration order of the hash maps, any order of the groups -- and iterating both with the same requests gives the
      same outcomes.  Partial: texts as in C32 and C72. *)
  Theorem C74_executions_partial glt glt' na itk itk' itd itd' itf itf' cols sels xs xs' idx idx' h r son fuel ops :
    strict_total glt -> strict_total glt' -> na <> Some true -> permutes itk -> permutes itd -> permutes itf -> permutes itk' -> permutes itd' -> permutes itf' ->
    table_ok cols xs -> text_ok cols xs -> query_ok cols sels -> Permutation xs xs' ->
    executes glt na itk itd itf cols sels xs (Some idx) -> executes glt' na itk' itd' itf' cols sels xs' (Some idx') ->
    spelled h idx -> Forall (fun o => spelled (op_heap o) idx) ops ->
    same_index idx idx' /\ snd (qrun fuel ops (start idx h r son)) = snd (qrun fuel ops (start idx' h r son)).
  Proof using.
    intros L L' N K D F K' D' F' T X Q P E E' O Fo.
    destruct (exec_same glt glt' na itk itk' itd itd' itf itf' L L' N K D F K' D' F' cols sels xs xs' idx idx' T X Q P E E') as (I & I' & S).
    split; [exact S|]. apply C74_chunks; assumption.
  Qed.
  (** An index saved to disk and loaded gives the same outcomes. *)
  Theorem C74_saved idx fs res h r son fuel ops : is_index idx -> no_empty idx -> SerialModel.saved idx None (Some fs) -> SerialModel.loaded fs res ->
    spelled h idx -> Forall (fun o => spelled (op_heap o) idx) ops ->
    exists p, res = Some p /\ snd (qrun fuel ops (start p h r son)) = snd (qrun fuel ops (start idx h r son)).
  Proof using.
    intros I N S L O F. destruct (C33_any idx fs res I S L) as (p & -> & Ip & _). destruct (C33_roundtrip idx fs _ I N S L) as (p' & [= <-] & _ & Sm). exists p. split; [reflexivity|]. symmetry. apply C74_chunks; try assumption.
    destruct Sm as (A & B & C). split; [intros k; symmetry; apply A|]. split; [intros k d; symmetry; apply B|intros k d f; symmetry; apply C].
  Qed.
  (** A server that stops after a query has delivered any number of chunks, and loads index and query state from disk,
      goes on exactly as the server that did not stop.  Partial as C11. *)
  Theorem C74_restart_partial idx fs p h0 r0 son F ops q os hs fuel h r ops2 : is_index idx -> no_empty idx -> SerialModel.saved idx None (Some fs) -> SerialModel.loaded fs (Some p) ->
    spelled h0 idx -> Forall (fun o => spelled (op_heap o) idx) (ops ++ Update h r :: ops2) ->
    heap_ok h0 -> Forall (fun o => heap_ok (op_heap o)) ops ->
    qrun (S F) ops (start idx h0 r0 son) = (q, os) -> Forall is_chunk os -> consistent (working ops os r0 None) ->
    Forall (fun o => match o with Next h => forall r, m_rows (h r) = [] -> hs r = h r | Update _ _ => True end) ops ->
    exists q1 q', qrun (S F) ops (start p h0 r0 son) = (q1, os) /\ from_cache (S F) (to_cache hs q1) = Loaded q'
      /\ snd (qrun fuel (Update h r :: ops2) q') = snd (qrun fuel (Update h r :: ops2) q).
  Proof using.
    intros I N Sv L O Fo Hh Hops R Hc Hw Hz. apply Forall_app in Fo as [Fo1 Fo2]. destruct (C33_any idx fs _ I Sv L) as (p' & [= <-] & Ip & _). destruct (C33_roundtrip idx fs _ I N Sv L) as (p' & [= <-] & _ & Sm).
    assert (Sm' : same_index idx p) by (destruct Sm as (A & B & C); split; [intros k; symmetry; apply A|]; split; [intros k d; symmetry; apply B|intros k d f; symmetry; apply C]).
    set (order := key_order xxh64 shuffle idx) in *. destruct (run_same idx p I Ip Sm' order (S F) ops Fo1 (start idx h0 r0 son) eq_refl eq_refl _ _ R) as (R1 & Q1 & Q2). assert (ST := start_on idx p h0 r0 son I Ip Sm' O). fold order in ST, R1. rewrite <- ST in R1.
    destruct (C11_resume_partial F p (key_order xxh64 shuffle p) h0 r0 son ops _ os hs Hh Hops R1 Hc Hw Hz) as (q' & E & _ & _ & _ & _ & _ & _ & G).
    exists (on q p order), q'. split; [exact R1|]. split; [exact E|]. rewrite (G fuel h r ops2). destruct (qrun fuel (Update h r :: ops2) q) as [q3 os3] eqn:E3.
    destruct (run_same idx p I Ip Sm' order fuel _ Fo2 q Q1 Q2 _ _ E3) as (-> & _). reflexivity.
  Qed.
  (** A job whose query an earlier job [h0, r0] has executed and cached gets, from the cached result, exactly the outcomes
      it would get by executing the query itself: nothing of the earlier job is left. *)
  Theorem C74_cached idx fs p hs h0 r0 son F h r fuel ops : is_index idx -> no_empty idx -> SerialModel.saved idx None (Some fs) -> SerialModel.loaded fs (Some p) ->
    spelled h idx -> Forall (fun o => spelled (op_heap o) idx) ops ->
    exists q1 q2, from_cache F (to_cache hs (start p h0 r0 son)) = Loaded q1 /\ cache_hit h r q1 = Some q2
      /\ snd (qrun fuel ops q2) = snd (qrun fuel ops (start idx h r son)).
  Proof using.
    intros I N Sv L O Fo. destruct (C74_saved idx fs (Some p) h r son fuel ops I N Sv L O Fo) as (p' & [= <-] & E).
    eexists. eexists. split; [reflexivity|]. split; [reflexivity|]. rewrite <- E. reflexivity.
  Qed.
End Run.

(** ** Inferred mixtures *)
Lemma same_mass (idx idx' : index) k p p' : is_index idx -> is_index idx' -> same_index idx idx' -> In (k, p) idx -> In (k, p') idx' -> length (rows_of p) = length (rows_of p').
Proof.
  intros I I' S H H'. assert (E := comps_same idx idx' I I' S k). assert (G : aget mkey_eqb k idx = Some p) by exact (in_aget _ mkey_eqb_spec _ _ _ (proj1 I) H). assert (G' : aget mkey_eqb k idx' = Some p') by exact (in_aget _ mkey_eqb_spec _ _ _ (proj1 I') H').
  rewrite G, G' in E. rewrite <- (Permutation_length (flatten_rows p)), <- (Permutation_length (flatten_rows p')), E. reflexivity.
Qed.
Lemma same_total (idx idx' : index) : is_index idx -> is_index idx' -> same_index idx idx' -> length (all_rows idx) = length (all_rows idx').
Proof.
  intros I I' S. assert (P := keys_perm idx idx' I I' S). set (m := fun k => Z.of_nat (length (match aget mkey_eqb k idx with Some p => rows_of p | None => [] end))).
  assert (A : forall j : index, is_index j -> (forall k p, In (k, p) j -> Z.of_nat (length (rows_of p)) = m k) -> Z.of_nat (length (all_rows j)) = zsum (map m (map fst j))).
  { intros j _ H. rewrite <- zsum_len_rows, map_map. f_equal. apply map_ext_in. intros [k p] Hk. cbn [fst snd]. apply H, Hk. }
  apply Nat2Z.inj. rewrite (A idx I), (A idx' I').
  - apply zsum_perm, Permutation_map, P.
  - intros k p' H'. unfold m. assert (H : In k (map fst idx)) by (apply (Permutation_in _ (Permutation_sym P)); eapply in_fst_of, H'). apply (aget_some_in _ mkey_eqb_spec) in H as (p & H).
    assert (G : aget mkey_eqb k idx = Some p) by exact H. rewrite G. f_equal. symmetry. apply (aget_in _ mkey_eqb_spec) in H. apply (same_mass idx idx' k p p'); assumption.
  - intros k p H. unfold m. assert (G : aget mkey_eqb k idx = Some p) by exact (in_aget _ mkey_eqb_spec _ _ _ (proj1 I) H). rewrite G. reflexivity.
Qed.
(** Inferring a mixture from two indexes that are equal as dicts gives counts that differ by at most one per key. *)
Theorem C74_inferred_partial c (idx idx' : index) : 0 <= c -> index_ok idx -> index_ok idx' -> is_index idx -> is_index idx' -> same_index idx idx' -> all_rows idx <> [] ->
  exists rows rows', infer_rows exactly c idx = Ok rows /\ infer_rows exactly c idx' = Ok rows' /\
    (forall k, In k (map fst rows) <-> In k (map fst rows')) /\
    forall k v v', In (k, v) rows -> In (k, v') rows' -> v' - 1 <= v <= v' + 1.
Proof.
  intros Hc X X' I I' S N. assert (T := same_total idx idx' I I' S). assert (N' : all_rows idx' <> []) by (intros Z; rewrite Z in T; destruct (all_rows idx); [contradiction|discriminate]).
  destruct (C46_inferred c idx Hc X N) as (um & rows & _ & Ku & _ & Hw & E & Kr & _ & Hr). destruct (C46_inferred c idx' Hc X' N') as (um' & rows' & _ & Ku' & _ & Hw' & E' & Kr' & _ & Hr').
  exists rows, rows'. split; [exact E|]. split; [exact E'|]. split.
  - intros k. rewrite Kr, Kr'. split; apply Permutation_in; [apply keys_perm; assumption|apply Permutation_sym, keys_perm; assumption].
  - assert (V : forall (j : index) umj rj, map fst rj = map fst j -> is_index j ->
      (forall i k p, nth_error j i = Some (k, p) -> exists w, nth_error umj i = Some (k, w) /\ (w * inject_Z (Z.of_nat (length (all_rows j))) == inject_Z (Z.of_nat (length (rows_of p))))%Q /\ (rows_of p <> [] -> (0 < w)%Q)) ->
      (forall i k w, nth_error umj i = Some (k, w) -> exists v, nth_error rj i = Some (k, v) /\ 0 <= v /\ (v = Qfloor (inject_Z c * w) \/ v = Qceiling (inject_Z c * w))) ->
      forall k v, In (k, v) rj -> exists p w, In (k, p) j /\ (w * inject_Z (Z.of_nat (length (all_rows j))) == inject_Z (Z.of_nat (length (rows_of p))))%Q /\ (v = Qfloor (inject_Z c * w) \/ v = Qceiling (inject_Z c * w))).
    { intros j umj rj Kj Ij A B k v H. apply In_nth_error in H as (i & H). assert (Kn : nth_error (map fst j) i = Some k) by (rewrite <- Kj, nth_error_map, H; reflexivity).
      rewrite nth_error_map in Kn. destruct (nth_error j i) as [[k' p]|] eqn:Ej; [|discriminate]. cbn in Kn. injection Kn as ->. destruct (A i k p Ej) as (w & Wu & W1 & _). destruct (B i k w Wu) as (v' & Bv & _ & Bw).
      rewrite H in Bv. injection Bv as <-. exists p, w. split; [eapply nth_error_In, Ej|]. auto. }
    intros k v v' H H'. destruct (V idx um rows Kr I Hw Hr k v H) as (p & w & P1 & P2 & P3). destruct (V idx' um' rows' Kr' I' Hw' Hr' k v' H') as (p' & w' & P1' & P2' & P3').
    rewrite <- T, <- (same_mass idx idx' k p p' I I' S P1 P1') in P2'.
    assert (Tp : ~ (inject_Z (Z.of_nat (length (all_rows idx))) == 0)%Q).
    { intros Z. change 0%Q with (inject_Z 0) in Z. apply (proj1 (inject_Z_injective _ _)) in Z. destruct (all_rows idx); [contradiction|cbn [length] in Z; lia]. }
    assert (W : (w == w')%Q) by (apply (Qmult_inj_r _ _ _ Tp); rewrite P2, P2'; reflexivity).
    assert (Y : (inject_Z c * w == inject_Z c * w')%Q) by (rewrite W; reflexivity). rewrite <- (Qfloor_comp _ _ Y), <- (Qceiling_comp _ _ Y) in P3'.
    set (fl := Qfloor (inject_Z c * w)) in *. set (ce := Qceiling (inject_Z c * w)) in *.
    assert (G : fl <= ce <= fl + 1).
    { assert (A1 : (inject_Z fl <= inject_Z ce)%Q) by (eapply Qle_trans; [apply Qfloor_le|apply Qle_ceiling]). rewrite <- Zle_Qle in A1.
      assert (A2 : (inject_Z (ce - 1) < inject_Z (fl + 1))%Q) by (eapply Qlt_trans; [apply Qceiling_lt|apply Qlt_floor]). rewrite <- Zlt_Qlt in A2. lia. }
    destruct P3, P3'; lia.
Qed.

(** ** Where it fails: inferred mixtures
    One query over two samples of two languages, executed twice; the hash map of the second execution iterates the other
    way round.  The indexes are equal as dicts, but the mixtures inferred for chunks of one row differ: ties between
    equally large keys go to the key the index lists first. *)
Definition c74_cols : list (str * bool) := [(lit "l", false)].
Definition c74_samples : list sample := [((0, 0, 0), [(lit "l", PStr (lit "a"))]); ((0, 0, 1), [(lit "l", PStr (lit "b"))])].
Definition c74_rows : list trow := [TRow [VStr (lit "a")] 0 0 0 1; TRow [VStr (lit "b")] 0 0 1 2].
Definition c74_a : mkey := [(lit "l", [lit "a"])].
Definition c74_b : mkey := [(lit "l", [lit "b"])].
Definition c74_idx1 : index := [(c74_a, [(0, [(0, [(0, 1)])])]); (c74_b, [(0, [(0, [(1, 2)])])])].
Definition c74_idx2 : index := [(c74_b, [(0, [(0, [(1, 2)])])]); (c74_a, [(0, [(0, [(0, 1)])])])].
Lemma c74_exec1 : executes db_lt None (fun x => x) (fun x => x) (fun x => x) c74_cols all_query c74_samples (Some c74_idx1).
Proof.
  destruct (C32_terminates (fun x => x) (fun x => x) (fun x => x) [lit "l"] [c74_rows] 1) as (res & H). assert (V := creates_value _ _ _ _ _ _ _ H ltac:(lia)).
  match type of V with _ = ?x => let y := eval vm_compute in x in change x with y in V end. subst res.
  eapply (ExIndex _ _ _ _ _ _ _ _ c74_rows [c74_rows] 8 true); [vm_compute; reflexivity|reflexivity|exact H].
Qed.
Lemma c74_exec2 : executes db_lt None (@rev _) (fun x => x) (fun x => x) c74_cols all_query c74_samples (Some c74_idx2).
Proof.
  destruct (C32_terminates (@rev _) (fun x => x) (fun x => x) [lit "l"] [c74_rows] 1) as (res & H). assert (V := creates_value _ _ _ _ _ _ _ H ltac:(lia)).
  match type of V with _ = ?x => let y := eval vm_compute in x in change x with y in V end. subst res.
  eapply (ExIndex _ _ _ _ _ _ _ _ c74_rows [c74_rows] 8 true); [vm_compute; reflexivity|reflexivity|exact H].
Qed.
Lemma c74_ok : table_ok c74_cols c74_samples /\ text_ok c74_cols c74_samples /\ query_ok c74_cols all_query.
Proof.
  split; [|split].
  - constructor.
    + repeat constructor; cbn; intuition discriminate.
    + intros c [<-|[]]; vm_compute; intuition discriminate.
    + repeat constructor; cbn; intuition discriminate.
    + repeat constructor; intros c m [[= <- <-]|[]]; vm_compute; reflexivity.
  - constructor.
    + intros c [<-|[]]; split; vm_compute; intuition discriminate.
    + intros x c vs Hx [<-|[]]; repeat (destruct Hx as [<-|Hx]); try contradiction; vm_compute; intros [= <-]; (split; [intros v Hv; repeat destruct Hv as [<-|Hv]; try contradiction; split; vm_compute; intuition discriminate|discriminate]).
    + intros x y Hx Hy; repeat (destruct Hx as [<-|Hx]); try contradiction; repeat (destruct Hy as [<-|Hy]); try contradiction; vm_compute; congruence.
  - constructor; [discriminate|intros cs c [<-|[]] []|]. right. intros cs [<-|[]] (c & [] & _).
Qed.
Lemma rev_permutes {A} : permutes (@rev A).
Proof. intros l. symmetry. apply Permutation_rev. Qed.
Lemma id_permutes {A} : permutes (fun x : list A => x).
Proof. intros l. reflexivity. Qed.
Lemma c74_same : is_index c74_idx1 /\ is_index c74_idx2 /\ same_index c74_idx1 c74_idx2.
Proof.
  destruct c74_ok as (T & X & Q). apply (exec_same db_lt db_lt None (fun x => x) (@rev _) (fun x => x) (fun x => x) (fun x => x) (fun x => x) db_lt_total db_lt_total ltac:(discriminate)
    id_permutes id_permutes id_permutes rev_permutes id_permutes id_permutes c74_cols all_query c74_samples c74_samples); [exact T|exact X|exact Q|reflexivity|exact c74_exec1|exact c74_exec2].
Qed.
Theorem C74_inferred_refuted :
  table_ok c74_cols c74_samples /\ text_ok c74_cols c74_samples /\ query_ok c74_cols all_query /\
  exists itk itk' idx idx', permutes itk /\ permutes itk' /\ executes db_lt None itk (fun x => x) (fun x => x) c74_cols all_query c74_samples (Some idx) /\
    executes db_lt None itk' (fun x => x) (fun x => x) c74_cols all_query c74_samples (Some idx') /\ same_index idx idx' /\
    exists rows rows', infer_rows exactly 1 idx = Ok rows /\ infer_rows exactly 1 idx' = Ok rows' /\ In (c74_a, 1) rows /\ In (c74_a, 0) rows'.
Proof.
  destruct c74_ok as (T & X & Q). split; [exact T|]. split; [exact X|]. split; [exact Q|]. exists (fun x => x), (@rev _), c74_idx1, c74_idx2.
  split; [apply id_permutes|]. split; [apply rev_permutes|]. split; [exact c74_exec1|]. split; [exact c74_exec2|]. split; [apply c74_same|].
  exists [(c74_a, 1); (c74_b, 0)], [(c74_b, 1); (c74_a, 0)]. split; [vm_compute; reflexivity|]. split; [vm_compute; reflexivity|]. split; [left; reflexivity|right; left; reflexivity].
Qed.

(** ** The hypotheses are met
    The two indexes above, mixtures listing their keys in different orders, a request, an update, a request. *)
Definition c74_h (rows : list (mkey * Z)) : heap := fun r => if r =? 0 then mkMix rows true 2 else mkMix [] true 1.
Definition c74_m : list (mkey * Z) := [(c74_a, 1); (c74_b, 1)].
Definition c74_m' : list (mkey * Z) := [(c74_b, 1); (c74_a, 1)].
Example C74_hypotheses_hold : is_index c74_idx1 /\ is_index c74_idx2 /\ same_index c74_idx1 c74_idx2 /\ index_ok c74_idx1 /\ index_ok c74_idx2 /\ spelled (c74_h c74_m) c74_idx1 /\
  (forall r, same_mixture (c74_h c74_m r) (c74_h c74_m' r)) /\
  exists c, snd (qrun 20 [Next (c74_h c74_m)] (qr_init c74_idx1 (key_order (fun _ => 0) (fun _ l => l) c74_idx1) (c74_h c74_m) 0 false)) = [NChunk c] /\ length (all_rows (rc_index c)) = 2%nat.
Proof.
  destruct c74_same as (I & I' & S). destruct c74_ok as (T & X & Q). split; [exact I|]. split; [exact I'|]. split; [exact S|].
  split; [destruct (executed db_lt None (fun x => x) (fun x => x) (fun x => x) db_lt_total ltac:(discriminate) id_permutes id_permutes id_permutes _ _ _ _ T X Q c74_exec1) as (i & [= <-] & _ & O & _); exact O|].
  split; [destruct (executed db_lt None (@rev _) (fun x => x) (fun x => x) db_lt_total ltac:(discriminate) rev_permutes id_permutes id_permutes _ _ _ _ T X Q c74_exec2) as (i & [= <-] & _ & O & _); exact O|].
  split; [|split].
  - intros r. unfold c74_h. destruct (r =? 0); intros k k' H H'; cbn in H, H'; repeat (destruct H as [<-|H]); try contradiction; repeat (destruct H' as [<-|H']); try contradiction; vm_compute; congruence.
  - intros r. unfold c74_h. destruct (r =? 0); (split; [|split; reflexivity]); cbn.
    + split; [repeat constructor; vm_compute; intuition discriminate|apply perm_swap].
    + split; constructor.
  - eexists. split; [vm_compute; reflexivity|]. vm_compute. reflexivity.
Qed.

Print Assumptions C74_chunks.
Print Assumptions C74_mixture_order.
Print Assumptions C74_executions_partial.
Print Assumptions C74_saved.
Print Assumptions C74_cached.
Print Assumptions C74_restart_partial.
Print Assumptions C74_inferred_partial.
Print Assumptions C74_inferred_refuted.
