(** Proofs for C74: two executions of a query build indexes that are equal as Python dicts. *)
From Coq Require Import String.
From Verif Require Import Base MixtureKeyModel MixtureKeyProofs ParserModel MdcModel SqlModel SpecSql IntervalModel SpecInterval IntervalProofs PropertiesInterval
  ChunkerModel SpecChunker ChunkGenModel PropertiesChunker SerialModel SpecSerial ExecModel SpecChunk SpecExec ExecProofs ExecProofs2 PropertiesExec ReproProofs.
Open Scope Z_scope.

Lemma ranges_unique l : forall l', ranges_sorted l -> ranges_sorted l' -> (forall r, In r l -> fst r < snd r) -> (forall r, In r l <-> In r l') -> l = l'.
Proof.
  induction l as [|x l IH]; intros [|y l'] S S' P H; [reflexivity|exfalso; apply (H y); left; reflexivity|exfalso; apply (H x); left; reflexivity|].
  destruct S as (_ & F & S), S' as (_ & F' & S'). rewrite Forall_forall in F, F'. assert (Px := P x (or_introl eq_refl)). assert (Py : fst y < snd y) by (apply P, H; left; reflexivity).
  assert (x = y).
  { destruct (proj1 (H x) (or_introl eq_refl)) as [E|Hx]; [congruence|]. destruct (proj2 (H y) (or_introl eq_refl)) as [E|Hy]; [congruence|]. specialize (F y Hy). specialize (F' x Hx). lia. }
  subst y. f_equal. apply IH; [exact S|exact S'|intros r Hr; apply P; right; exact Hr|]. intros r. split; intros Hr.
  - destruct (proj1 (H r) (or_intror Hr)) as [E|Hr']; [|exact Hr']. subst r. specialize (F x Hr). lia.
  - destruct (proj2 (H r) (or_intror Hr)) as [E|Hr']; [|exact Hr']. subst r. specialize (F' x Hr). lia.
Qed.
Lemma maximal_run_ext (P Q : Z -> Prop) a b : (forall x, P x <-> Q x) -> maximal_run P a b <-> maximal_run Q a b.
Proof. intros H. unfold maximal_run. rewrite (H (a - 1)), (H b). split; intros (A & B & C & D); (split; [exact A|split; [|split; assumption]]); intros x Hx; apply H, B, Hx. Qed.

Section Lookup.
  Variable glt : group -> group -> bool.
  Hypothesis Hlt : strict_total glt.
  Variables (itk : cindex -> cindex) (itd : list (Z * list (Z * list interval)) -> list (Z * list (Z * list interval))) (itf : list (Z * list interval) -> list (Z * list interval)).
  Hypothesis Hk : permutes itk.
  Hypothesis Hd : permutes itd.
  Hypothesis Hf : permutes itf.
  Lemma index_lookup cols ys batches n res : table_ok cols ys -> text_ok cols ys ->
    concat batches = map table_row (query_intervals group_eqb glt (map (fun x => (the_group cols x, the_id x)) ys)) -> 0 <= n -> creates itk itd itf (group_cols cols) batches n res ->
    exists idx, res = Some idx /\ wf_i idx /\ forall k d f, ranges_sorted (index_at idx k d f) /\
      forall a b, In (a, b) (index_at idx k d f) <-> exists l, maximal_run (fun i => exists r, In ((d, f, i), r) ys /\ the_cells cols r = l) a b /\ combo (group_cols cols) (map vcell_of l) = k.
  Proof using Hlt Hk Hd Hf.
    intros Ok Tx Eb Hn H. assert (R := T_rectangular glt cols ys Ok). assert (O := T_rows_ok glt cols ys Ok). assert (C := T_clean glt cols ys Ok Tx). assert (U := T_one_order glt cols ys Ok Tx). rewrite <- Eb in R, O, C, U.
    destruct (C32_index_partial itk itd itf Hk Hd Hf _ _ _ _ H Hn R O C U) as (p & -> & W & K & A). rewrite Eb in K, A. exists p. split; [reflexivity|]. split; [exact W|].
    intros k d f. destruct (A k d f) as [_ E]. destruct (table_intervals_sorted glt Hlt cols ys Ok k d f) as [S1 S2]. destruct (E S1) as [-> _]. split; [exact S2|].
    intros a b. rewrite (table_intervals_in glt cols ys k d f a b). split; intros (l & H1 & H2); exists l; (split; [|exact H2]).
    - apply (C31_exact _ _ group_eqb_spec _ (gs_nodup cols ys Ok)) in H1. eapply maximal_run_ext; [|exact H1]. intros x. symmetry. apply in_gs.
    - apply (C31_exact _ _ group_eqb_spec _ (gs_nodup cols ys Ok)). eapply maximal_run_ext; [|exact H1]. intros x. apply in_gs.
  Qed.
End Lookup.
Lemma wf_same p p' : wf_i p -> wf_i p' -> (forall k d f, index_at p k d f = index_at p' k d f) -> same_index p p'.
Proof.
  assert (G : forall q : pindex, wf_i q -> (forall k d f, at_kdf q k d f = None <-> index_at q k d f = []) /\ (forall k d f, at_kdf q k d f = None \/ at_kdf q k d f = Some (index_at q k d f)) /\
    (forall k d, at_kd q k d = None <-> forall f, at_kdf q k d f = None) /\ (forall k, at_k q k = None <-> forall d, at_kd q k d = None)).
  { intros q [N W].
    assert (E : forall k d f, at_kdf q k d f = match aget mkey_eqb k q with None => None | Some ds => match aget Z.eqb d ds with None => None | Some fs => aget Z.eqb f fs end end) by (intros; unfold at_kdf, at_kd, at_k; destruct (aget mkey_eqb k q); reflexivity).
    split; [|split; [|split]].
    - intros k d f. rewrite E. unfold index_at, getd. destruct (aget mkey_eqb k q) as [ds|] eqn:E1; [|split; reflexivity]. apply (aget_in _ mkey_eqb_spec) in E1. destruct (W k ds E1) as [_ [_ Wd]].
      destruct (aget Z.eqb d ds) as [fs|] eqn:E2; [|split; reflexivity]. apply (aget_in _ Z.eqb_eq) in E2. destruct (Wd d fs E2) as [_ [_ Wf]]. destruct (aget Z.eqb f fs) as [iv|] eqn:E3; [|split; reflexivity].
      apply (aget_in _ Z.eqb_eq) in E3. split; [discriminate|]. intros X. destruct (Wf f iv E3 X).
    - intros k d f. rewrite E. unfold index_at, getd. destruct (aget mkey_eqb k q) as [ds|]; [|auto]. destruct (aget Z.eqb d ds) as [fs|]; [|auto]. destruct (aget Z.eqb f fs); auto.
    - intros k d. unfold at_kdf. split; [intros ->; reflexivity|]. intros H. unfold at_kd, at_k in *. destruct (aget mkey_eqb k q) as [ds|] eqn:Ek; [|reflexivity]. apply (aget_in _ mkey_eqb_spec) in Ek.
      destruct (aget Z.eqb d ds) as [fs|] eqn:Ed; [|reflexivity]. apply (aget_in _ Z.eqb_eq) in Ed. destruct (W k ds Ek) as [_ [_ Wd]]. destruct (Wd d fs Ed) as [Ne _]. destruct fs as [|[f iv] fs]; [contradiction|]. specialize (H f). cbn in H. rewrite Z.eqb_refl in H. discriminate H.
    - intros k. unfold at_kd. split; [intros ->; reflexivity|]. intros H. unfold at_k in *. destruct (aget mkey_eqb k q) as [ds|] eqn:Ek; [|reflexivity]. apply (aget_in _ mkey_eqb_spec) in Ek. destruct (W k ds Ek) as [Ne _].
      destruct ds as [|[d fs] ds]; [contradiction|]. specialize (H d). cbn in H. rewrite Z.eqb_refl in H. discriminate H. }
  intros W W' H. destruct (G p W) as (A & B & C & D), (G p' W') as (A' & B' & C' & D').
  assert (X : forall k d f, at_kdf p k d f = at_kdf p' k d f).
  { intros k d f. destruct (B k d f) as [E|E], (B' k d f) as [E'|E'].
    - congruence.
    - rewrite E. apply A in E. rewrite H in E. apply A' in E. congruence.
    - rewrite E'. apply A' in E'. rewrite <- H in E'. apply A in E'. congruence.
    - rewrite E, E', H. reflexivity. }
  assert (Y : forall k d, at_kd p k d = None <-> at_kd p' k d = None) by (intros k d; rewrite C, C'; split; intros Q f; [rewrite <- X|rewrite X]; apply Q).
  split; [|split; [exact Y|exact X]]. intros k. rewrite D, D'. split; intros Q d; apply Y, Q.
Qed.

Section Executions.
  Variables glt glt' : group -> group -> bool.
  Variable na : option bool.
  Variables (itk itk' : cindex -> cindex) (itd itd' : list (Z * list (Z * list interval)) -> list (Z * list (Z * list interval))) (itf itf' : list (Z * list interval) -> list (Z * list interval)).
  Hypothesis Hlt : strict_total glt.
  Hypothesis Hlt' : strict_total glt'.
  Hypothesis Hna : na <> Some true.
  Hypothesis Hk : permutes itk.
  Hypothesis Hd : permutes itd.
  Hypothesis Hf : permutes itf.
  Hypothesis Hk' : permutes itk'.
  Hypothesis Hd' : permutes itd'.
  Hypothesis Hf' : permutes itf'.
  Lemma looked glt0 itk0 itd0 itf0 cols sels xs idx : strict_total glt0 -> permutes itk0 -> permutes itd0 -> permutes itf0 -> table_ok cols xs -> text_ok cols xs -> query_ok cols sels -> executes glt0 na itk0 itd0 itf0 cols sels xs (Some idx) ->
    wf_i idx /\ forall k d f, ranges_sorted (index_at idx k d f) /\
      forall a b, In (a, b) (index_at idx k d f) <-> exists l, maximal_run (fun i => exists r, (In ((d, f, i), r) xs /\ matches na cols sels ((d, f, i), r)) /\ the_cells cols r = l) a b /\ combo (group_cols cols) (map vcell_of l) = k.
  Proof using Hna.
    intros L Pk Pd Pf T X Q E. destruct (result_table_matching glt0 na Hna cols sels xs T Q) as (ys & S & R).
    inversion E as [|table batches cores in_test res E1 Eb C E2]; subst. rewrite R in E1. injection E1 as E1. 
    destruct (index_lookup glt0 L itk0 itd0 itf0 Pk Pd Pf cols ys batches (num_workers cores in_test) (Some idx) (sub_table_ok _ _ _ _ S T) (sub_text_ok _ _ _ _ S X) (eq_sym E1) (num_workers_pos cores in_test) C) as (i & [= <-] & W & H).
    split; [exact W|]. intros k d f. destruct (H k d f) as [H1 H2]. split; [exact H1|]. intros a b. rewrite H2.
    split; intros (l & M & Ck); exists l; (split; [|exact Ck]); (eapply maximal_run_ext; [|exact M]); intros i; split; intros (r & A & B); exists r; (split; [|exact B]); apply (selects_in _ _ _ _ S); exact A.
  Qed.
  Lemma exec_same cols sels xs xs' idx idx' : table_ok cols xs -> text_ok cols xs -> query_ok cols sels -> Permutation xs xs' ->
    executes glt na itk itd itf cols sels xs (Some idx) -> executes glt' na itk' itd' itf' cols sels xs' (Some idx') -> is_index idx /\ is_index idx' /\ same_index idx idx'.
  Proof using Hlt Hlt' Hna Hk Hd Hf Hk' Hd' Hf'.
    intros T X Q P E E'.
    assert (T' : table_ok cols xs').
    { destruct T as [T1 T2 T3 T4]. constructor; [exact T1|exact T2|eapply Permutation_NoDup; [apply Permutation_map, P|exact T3]|]. rewrite Forall_forall in *. intros x Hx. apply T4, (Permutation_in _ (Permutation_sym P)), Hx. }
    assert (X' : text_ok cols xs').
    { destruct X as [X1 X2 X3]. assert (I : forall x, In x xs' -> In x xs) by (intros x; apply Permutation_in, Permutation_sym, P). constructor; [exact X1|intros; eapply X2; eauto|intros; apply X3; auto]. }
    destruct (looked glt itk itd itf cols sels xs idx Hlt Hk Hd Hf T X Q E) as [W H], (looked glt' itk' itd' itf' cols sels xs' idx' Hlt' Hk' Hd' Hf' T' X' Q E') as [W' H'].
    assert (Y : forall i, is_index i <-> is_index i) by tauto.
    destruct (executed glt na itk itd itf Hlt Hna Hk Hd Hf cols sels xs _ T X Q E) as (i1 & [= <-] & _ & _ & K & _). destruct (executed glt' na itk' itd' itf' Hlt' Hna Hk' Hd' Hf' cols sels xs' _ T' X' Q E') as (i2 & [= <-] & _ & _ & K' & _).
    assert (G : forall zs i, text_ok cols zs -> wf_i i -> (forall k, In k (map fst i) -> exists x, In x zs /\ properties cols (snd x) = k) -> is_index i).
    { intros zs i Z [W1 W2] Ki. split; [exact W1|]. split; [|split].
      + intros k k' A A' C. destruct (Ki k A) as (x & Hx & <-), (Ki k' A') as (x' & Hx' & <-). apply (tx_order _ _ Z x x' Hx Hx' C).
      + intros k A. destruct (Ki k A) as (x & Hx & <-). apply properties_keys, (to_cols _ _ T).
      + intros k ds A. destruct (W2 k ds A) as [_ [W3 W4]]. split; [exact W3|]. intros d fs A'. apply (W4 d fs A'). }
    split; [apply (G xs idx X W K)|]. split; [apply (G xs' idx' X' W' K')|]. apply wf_same; [exact W|exact W'|]. intros k d f. destruct (H k d f) as [S I], (H' k d f) as [S' I']. apply ranges_unique; [exact S|exact S'| |].
    - intros [a b] A. apply I in A as (l & (A & _) & _). exact A.
    - intros [a b]. rewrite I, I'. split; intros (l & M & Ck); exists l; (split; [|exact Ck]); (eapply maximal_run_ext; [|exact M]); intros i; split; intros (r & [A B] & C); exists r; (split; [split; [|exact B]|exact C]);
        (apply (Permutation_in _ P), A || apply (Permutation_in _ (Permutation_sym P)), A).
  Qed.
End Executions.
