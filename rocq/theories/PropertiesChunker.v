(** C32: the index over a query's intervals does not depend on how the table is cut into batches, on the number of
    threads, on how the threads interleave or on the iteration order of the hash maps. *)
From Verif Require Import Base MixtureKeyModel MixtureKeyProofs ChunkerModel SpecChunker ChunkerProofs ChunkerProofs2.
Open Scope Z_scope.

Definition permutes {A} (it : list A -> list A) : Prop := forall l, Permutation (it l) l.

(** The call always ends: whatever the threads have done so far, they can run to the end. *)
Lemma one_thread_runs cols pre post bs : forall idx, exists t', fst t' = [] /\ tsteps cols (pre ++ (bs, Some idx) :: post) (pre ++ t' :: post).
Proof.
  induction bs as [|b bs IH]; intros idx; [exists ([], Some idx); split; [reflexivity|constructor]|].
  destruct (process_batch cols b idx) as [idx'|] eqn:E.
  - destruct (IH idx') as (t' & H1 & H2). exists t'. split; [exact H1|]. eapply Tmore; [apply Tstep|]. rewrite E. exact H2.
  - exists ([], None). split; [reflexivity|]. eapply Tmore; [apply Tstep|]. rewrite E. constructor.
Qed.
Lemma tsteps_trans cols a b c : tsteps cols a b -> tsteps cols b c -> tsteps cols a c.
Proof. induction 1 as [|a a1 b H _ IH]; [auto|]. intros X. eapply Tmore; [exact H|apply IH, X]. Qed.
Lemma all_threads_run cols l : forall pre, Forall (fun t => snd t <> None) l -> exists l', tsteps cols (pre ++ l) (pre ++ l') /\ Forall (fun t => fst t = []) l'.
Proof.
  induction l as [|[bs o] l IH]; intros pre H; [exists []; split; constructor|]. inversion H as [|? ? H1 H2]; subst. destruct o as [idx|]; [|exfalso; apply H1; reflexivity].
  destruct (one_thread_runs cols pre l bs idx) as (t' & T1 & T2). destruct (IH (pre ++ [t']) H2) as (l' & L1 & L2). exists (t' :: l').
  split; [|constructor; assumption]. eapply tsteps_trans; [exact T2|]. rewrite <- !app_assoc in L1. exact L1.
Qed.
Theorem C32_terminates itk itd itf cols batches n : exists res, creates itk itd itf cols batches n res.
Proof.
  destruct (num_threads n) as [nt|] eqn:E; [|exists None; apply CrBad, E].
  destruct (all_threads_run cols (threads_start nt batches) []) as (s & H1 & H2).
  - unfold threads_start. apply Forall_forall. intros t Ht. apply in_map_iff in Ht as (? & <- & _). discriminate.
  - eexists. eapply CrRun; [exact E|exact H1|exact H2].
Qed.

Section C32.
  Variable itk : cindex -> cindex.
  Variable itd : list (Z * list (Z * list interval)) -> list (Z * list (Z * list interval)).
  Variable itf : list (Z * list interval) -> list (Z * list interval).
  Hypothesis itk_perm : permutes itk.
  Hypothesis itd_perm : permutes itd.
  Hypothesis itf_perm : permutes itf.

  (** The call raises exactly when the thread count is negative or some row cannot be stored, and does so for every
      thread count, batch layout and interleaving: never does it return an index that misses the bad rows. *)
  Theorem C32_errors cols batches n res : creates itk itd itf cols batches n res -> rectangular cols (concat batches) ->
    (res = None <-> n < 0 \/ ~ Forall row_ok (concat batches)).
  Proof using itk_perm itd_perm itf_perm.
    intros H R. apply (creates_cpp itk itd itf itk_perm itd_perm itf_perm) in H.
    assert (E : forallb (row_fine cols) (concat batches) = true <-> Forall row_ok (concat batches)).
    { rewrite forallb_forall, Forall_forall. unfold rectangular in R. rewrite Forall_forall in R. split; intros X r Hr; apply (row_fine_iff cols r (R r Hr)), X, Hr. }
    destruct (0 <=? n) eqn:En; cbn [andb] in H.
    - destruct (forallb (row_fine cols) (concat batches)).
      + destruct H as (m & -> & _). split; [discriminate|]. intros [X|X]; [lia|]. exfalso. apply X, E. reflexivity.
      + split; [|intros _; exact H]. intros _. right. intros X. apply E in X. discriminate.
    - split; [intros _; left; lia|intros _; exact H].
  Qed.

  (** The property.  The index has exactly the property combinations of the rows as keys, nothing empty, and under
      each combination, dataset and file exactly the table's intervals, each as often as in the table; in the
      table's order where the table lists them in ascending order (as the query does, C31).
      Partial: separators in names or values, an empty last value, and rows that list the same values in different
      orders are excluded; see the refutations below. *)
  Theorem C32_index_partial cols batches n res : creates itk itd itf cols batches n res -> 0 <= n ->
    let rows := concat batches in
    rectangular cols rows -> Forall row_ok rows -> clean cols rows -> one_order cols rows ->
    exists p, res = Some p /\ wf_i p /\ (forall k, In k (akeys p) <-> exists r, In r rows /\ combo cols (tr_cells r) = k) /\
      forall k d f, Permutation (index_at p k d f) (table_intervals cols rows k d f) /\
        (StronglySorted iv_le (table_intervals cols rows k d f) ->
         index_at p k d f = table_intervals cols rows k d f /\ StronglySorted iv_le (index_at p k d f)).
  Proof using itk_perm itd_perm itf_perm.
    intros H Hn rows H1 H2 H3 H4. destruct (creates_index itk itd itf itk_perm itd_perm itf_perm cols batches n res H Hn H1 H2 H3 H4) as (p & A1 & A2 & A3 & A4).
    exists p. split; [exact A1|]. split; [exact A2|]. split; [exact A3|]. intros k d f. destruct (A4 k d f) as [P S]. split; [exact P|]. intros X. rewrite (S X). split; [reflexivity|exact X].
  Qed.
End C32.

(** Two calls on the same table return the same index up to dict order, whatever the parallelism. *)
Theorem C32_parallelism cols batches batches' n n' itk itd itf itk' itd' itf' p p' :
  permutes itk -> permutes itd -> permutes itf -> permutes itk' -> permutes itd' -> permutes itf' ->
  concat batches = concat batches' ->
  creates itk itd itf cols batches n (Some p) -> creates itk' itd' itf' cols batches' n' (Some p') ->
  let rows := concat batches in
  rectangular cols rows -> clean cols rows -> one_order cols rows ->
  (forall k d f, StronglySorted iv_le (table_intervals cols rows k d f)) ->
  (forall k d f, index_at p k d f = index_at p' k d f) /\ (forall k, In k (akeys p) <-> In k (akeys p')).
Proof.
  intros I1 I2 I3 I1' I2' I3' Eb H H' rows R C O S.
  assert (R' : rectangular cols (concat batches')) by (rewrite <- Eb; exact R).
  assert (N := C32_errors itk itd itf I1 I2 I3 cols batches n (Some p) H R). assert (N' := C32_errors itk' itd' itf' I1' I2' I3' cols batches' n' (Some p') H' R').
  assert (K : 0 <= n /\ Forall row_ok rows).
  { split; [destruct (Z.lt_ge_cases n 0); [exfalso; destruct N as [_ N]; discriminate N; left; assumption|lia]|].
    assert (D : forall r, row_ok r \/ ~ row_ok r).
    { intros r. unfold row_ok. destruct (VBad_dec (tr_cells r)); [right; intros [X _]; contradiction|]. destruct (Z_le_dec (tr_s r) (tr_e r)); [left; auto|right; intros [_ X]; contradiction]. }
    assert (DF : Forall row_ok rows \/ ~ Forall row_ok rows).
    { clear - D. induction rows as [|r l IH]; [left; constructor|]. destruct (D r) as [X|X]; [|right; intros Y; inversion Y; contradiction]. destruct IH as [Y|Y]; [left; constructor; assumption|right; intros Z0; inversion Z0; contradiction]. }
    destruct DF as [X|X]; [exact X|]. exfalso. destruct N as [_ N]. discriminate N. right. exact X. }
  destruct K as [Hn Ok]. assert (Hn' : 0 <= n') by (destruct (Z.lt_ge_cases n' 0); [exfalso; destruct N' as [_ N']; discriminate N'; left; assumption|lia]).
  destruct (C32_index_partial itk itd itf I1 I2 I3 cols batches n _ H Hn R Ok C O) as (q & [= <-] & _ & A3 & A4).
  unfold rows in *. rewrite Eb in Ok, C, O.
  destruct (C32_index_partial itk' itd' itf' I1' I2' I3' cols batches' n' _ H' Hn' R' Ok C O) as (q' & [= <-] & _ & B3 & B4).
  split.
  - intros k d f. destruct (A4 k d f) as [_ A]. destruct (B4 k d f) as [_ B]. rewrite (proj1 (A (S k d f))). rewrite Eb in S |- *. rewrite (proj1 (B (S k d f))). reflexivity.
  - intros k. rewrite A3, B3, Eb. reflexivity.
Qed.

Ltac clean_tac :=
  unfold clean; split; [repeat (constructor; [cbn; intuition discriminate|]); constructor|];
  split; [repeat (constructor; [split; cbn; intuition discriminate|]); constructor|];
  repeat first [apply Forall_nil | apply Forall_cons | (split; [intros ? Hv; cbn in Hv; intuition (subst; cbn in *; intuition discriminate)|cbn; discriminate])].
(** Non-trivial case: three rows in two batches, two columns of which one is sometimes NULL, three threads. *)
Definition ex_cols : list str := [[97]; [98]].
Definition ex_rows : list trow :=
  [TRow [VStr [120]; VNull] 0 0 0 2; TRow [VStr [120]; VList [Some [112]; None; Some [113]]] 0 0 2 5; TRow [VStr [120]; VNull] 0 0 5 7].
Definition ex_batches : list (list trow) := [firstn 2 ex_rows; skipn 2 ex_rows].
Example C32_hypotheses_hold : rectangular ex_cols ex_rows /\ Forall row_ok ex_rows /\ clean ex_cols ex_rows /\ one_order ex_cols ex_rows /\
  (forall k d f, StronglySorted iv_le (table_intervals ex_cols ex_rows k d f)) /\ table_intervals ex_cols ex_rows [([97], [[120]])] 0 0 = [(0, 2); (5, 7)].
Proof.
  split; [repeat constructor|]. split; [repeat constructor; cbn; intuition (try discriminate; try lia)|]. split; [|split; [|split]].
  - clean_tac.
  - intros r r' Hr Hr'. cbn [ex_rows In] in Hr, Hr'. destruct Hr as [<-|[<-|[<-|[]]]], Hr' as [<-|[<-|[<-|[]]]]; (first [(intros _; reflexivity) | (intros E; vm_compute in E; discriminate)]).
  - intros k d f. unfold table_intervals. cbn. destruct (_ && (0 =? d) && (0 =? f)); destruct (_ && (0 =? d) && (0 =? f)); cbn; repeat constructor; unfold iv_le; cbn; lia.
  - reflexivity.
Qed.
Example C32_runs : exists s, tsteps ex_cols (threads_start 3 ex_batches) s /\ threads_done s /\
  create_result (fun l => l) (fun l => l) (fun l => l) s =
  Some [([([97], [[120]])], [(0, [(0, [(0, 2); (5, 7)])])]); ([([97], [[120]]); ([98], [[112]; [113]])], [(0, [(0, [(2, 5)])])])].
Proof.
  destruct (all_threads_run ex_cols (threads_start 3 ex_batches) []) as (s & H1 & H2).
  - unfold threads_start. apply Forall_forall. intros t Ht. apply in_map_iff in Ht as (? & <- & _). discriminate.
  - cbn [app] in H1. exists s. split; [exact H1|]. split; [exact H2|]. unfold create_result. rewrite (thread_results_done ex_cols s H2), (tsteps_trun _ _ _ H1). vm_compute. reflexivity.
Qed.

(** Refutations.  Every execution on these tables loses or misplaces an interval. *)
Lemma creates_value itk itd itf cols batches n res : creates itk itd itf cols batches n res -> 0 <= n ->
  res = match all_some (map (trun cols) (threads_start (Z.to_nat (Z.max n 1)) batches)) with None => None | Some l => Some (build_py itk (merge_indices itk itd itf l)) end.
Proof.
  intros [E|nt s E Hs Hd] Hn; unfold num_threads in E; replace (n <? 0) with false in E by lia; [discriminate|]. injection E as <-.
  unfold create_result. rewrite (thread_results_done cols s Hd), (tsteps_trun cols _ _ Hs). reflexivity.
Qed.
Lemma perm_two {A} (it : list A -> list A) a b : permutes it -> it [a; b] = [a; b] \/ it [a; b] = [b; a].
Proof.
  intros H. assert (P := H [a; b]). apply Permutation_sym in P. apply Permutation_length_2_inv in P. destruct P as [P|P]; rewrite P; auto.
Qed.
(** Two samples tagged (x, y) and (y, x): MixtureKey treats the two combinations as one, the later one in the hash
    map's order overwrites the other, and its samples are gone. *)
Definition swap_rows : list trow := [TRow [VList [Some [120]; Some [121]]] 0 0 0 1; TRow [VList [Some [121]; Some [120]]] 0 0 1 2].
Theorem C32_value_order_refuted itk itd itf : permutes itk ->
  exists p, creates itk itd itf [[97]] [swap_rows] 1 (Some p) /\ Forall row_ok swap_rows /\ clean [[97]] swap_rows /\
    ~ ((exists k d f, In (0, 1) (index_at p k d f)) /\ (exists k d f, In (1, 2) (index_at p k d f))).
Proof.
  intros I. destruct (C32_terminates itk itd itf [[97]] [swap_rows] 1) as (res & H). assert (V := creates_value _ _ _ _ _ _ _ H ltac:(lia)).
  set (L := all_some _) in V. vm_compute in L. subst L. cbn [merge_indices] in V. unfold build_py in V.
  match type of V with context [itk ?m] => destruct (perm_two itk _ _ I : itk m = _ \/ itk m = _) as [E|E] end; rewrite E in V; clear E;
    (match type of V with _ = Some ?x => set (p := x) in V; vm_compute in p end); exists p; (split; [rewrite <- V; exact H|]);
    (split; [repeat constructor; cbn; intuition (try discriminate; try lia)|]);
    (split; [clean_tac|]).
  - intros [(k & d & f & X) _]. unfold index_at, p, getd in X. cbn [aget] in X. destruct (mkey_eqb k _); [|destruct X]. cbn [aget] in X. destruct (d =? 0); [|destruct X]. cbn [aget] in X. destruct (f =? 0); [|destruct X]. destruct X as [X|[]]. discriminate X.
  - intros [_ (k & d & f & X)]. unfold index_at, p, getd in X. cbn [aget] in X. destruct (mkey_eqb k _); [|destruct X]. cbn [aget] in X. destruct (d =? 0); [|destruct X]. cbn [aget] in X. destruct (f =? 0); [|destruct X]. destruct X as [X|[]]. discriminate X.
Qed.
(** A sample whose property a is the text "x;b:y" is filed under a = x, b = y, a combination no sample has. *)
Definition sep_rows : list trow := [TRow [VStr [120; 59; 98; 58; 121]; VNull] 0 0 0 1].
Theorem C32_separator_refuted itk itd itf : permutes itk ->
  exists p, creates itk itd itf [[97]; [98]] [sep_rows] 1 (Some p) /\ Forall row_ok sep_rows /\
    index_at p [([97], [[120]]); ([98], [[121]])] 0 0 = [(0, 1)] /\
    index_at p (combo [[97]; [98]] [VStr [120; 59; 98; 58; 121]; VNull]) 0 0 = [].
Proof.
  intros I. destruct (C32_terminates itk itd itf [[97]; [98]] [sep_rows] 1) as (res & H). assert (V := creates_value _ _ _ _ _ _ _ H ltac:(lia)).
  set (L := all_some _) in V. vm_compute in L. subst L. cbn [merge_indices] in V. unfold build_py in V.
  match type of V with context [itk [?e]] => assert (E : itk [e] = [e]) by (apply Permutation_length_1_inv, Permutation_sym, I) end. rewrite E in V. clear E.
  match type of V with _ = Some ?x => set (p := x) in V; vm_compute in p end. exists p. split; [rewrite <- V; exact H|].
  split; [repeat constructor; cbn; intuition (try discriminate; try lia)|]. split; vm_compute; reflexivity.
Qed.
Print Assumptions C32_terminates.
Print Assumptions C32_errors.
Print Assumptions C32_index_partial.
Print Assumptions C32_parallelism.
Print Assumptions C32_value_order_refuted.
Print Assumptions C32_separator_refuted.
