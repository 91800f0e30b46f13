(** C35: the dataset catalogue. *)
From Coq Require Import String.
From Verif Require Import Base MixtureKeyModel MixtureKeyProofs ChunkGenModel ParserModel MdcModel SpecMdc MdcProofs.
Open Scope Z_scope.

Section Registering.
  Variable castable : list str -> list mprop -> list sample -> bool.
  Variable metadata_of : str -> res (list (Z * record)).
  Notation register := (register castable metadata_of).

  (** A registration that reports success: the name was free, and the catalogue now has exactly one more dataset, the
      files found (with fresh consecutive ids) and one sample for each sample the parser found in each of them, with
      the values of the parser's properties.  Nothing else changed and the version grew. *)
  Theorem C35_register s name info vt found schema tr : consistent s ->
    register s name info vt found schema = (tr, Done true) ->
    (forall locs, found = Ok locs -> NoDup locs) ->
    let s' := last_db s tr in
    exists locs props metas, found = Ok locs /\ locs <> [] /\ schema = Some props /\ ~ In name (list_datasets s) /\
      map metadata_of locs = map Ok metas /\
      datasets s' = datasets s ++ [(next_dataset s, (name, info))] /\
      files s' = files s ++ map (fun f => (fst f, (next_dataset s, snd f))) (new_files s locs) /\
      samples s' = samples s ++ flat_map (fun fm => map (fun m => ((next_dataset s, fst (fst fm), fst m), columns_of props (snd m))) (snd fm))
                                         (combine (new_files s locs) metas) /\
      version s < version s'.
  Proof.
    intros C H ND s'. destruct (register_done castable metadata_of s name info vt found schema tr C H)
      as (locs & props & metas & E1 & E2 & E3 & E4 & E5 & E6 & E7 & E8 & E9 & E10).
    exists locs, props, metas. repeat (split; [assumption|]). split; [|fold s' in E10; lia].
    fold s' in E9. rewrite (E9 (ND locs E1)). f_equal. unfold sample_rows.
    assert (L : length (new_files s locs) = length metas).
    { unfold new_files. rewrite combine_length, map_length, seq_length. lia. }
    clear - L. generalize (next_dataset s) as did. revert metas L. generalize (new_files s locs) as fl.
    induction fl as [|r fl IH]; intros [|m metas] L did; try discriminate; [reflexivity|].
    cbn [map combine flat_map fst snd]. f_equal. apply IH. now injection L.
  Qed.
  (** A name that is taken is refused and nothing happens; neither is a wrong dataset class accepted. *)
  Theorem C35_duplicate_refused s name info vt found schema : In name (list_datasets s) \/ vt = false ->
    register s name info vt found schema = ([], Done false).
  Proof.
    intros H. unfold MdcModel.register. destruct vt; cbn [negb]; [|reflexivity]. destruct H as [H|H]; [|discriminate].
    unfold insert_dataset. apply exists_dataset_in in H. now rewrite H.
  Qed.
  (** Whenever a registration stops -- on success, on an error, or by a crash -- each state it left behind is a
      consistent catalogue in which every other dataset still has exactly its entry, files and samples, and the version
      has not gone back.  Samples only change after the version has moved. *)
  Theorem C35_register_every_point s name info vt found schema tr o s' : consistent s ->
    register s name info vt found schema = (tr, o) -> In s' tr ->
    consistent s' /\ (forall d, d <> next_dataset s -> of_dataset s' d = of_dataset s d) /\
    version s <= version s' /\ (samples s' = samples s \/ version s < version s').
  Proof.
    intros C H I. assert (T := register_trace castable metadata_of _ _ _ _ _ _ _ _ C H). rewrite Forall_forall in T.
    destruct (T s' I) as (T1 & T2 & T3 & T4 & _). split; [exact T1|]. split; [|split; [lia|destruct T4; [now left|right; lia]]].
    intros d N. now apply (of_dataset_grown s (next_dataset s) (name, info)).
  Qed.

  (** When a registration succeeds: the conditions under which it cannot fail. *)
  Lemma add_columns_ok props : (forall p, In p props -> p_dtype p = DEnum -> p_options p <> NoOptions) ->
    forall s, snd (add_columns s props) = true.
  Proof.
    induction props as [|p props IH]; intros H s; [reflexivity|]. cbn [add_columns].
    assert (H' : forall s, snd (add_columns s props) = true) by (apply IH; intros q Hq; apply H; now right).
    destruct (existsb _ _); [apply H'|]. specialize (H p (or_introl eq_refl)). set (s0 := Db _ _ _ _ _ _ _). specialize (H' s0).
    destruct (add_columns s0 props) as [tr ok]. cbn in H'. subst ok.
    destruct (p_dtype p), (p_options p); try reflexivity. exfalso. now apply H.
  Qed.
  Definition sample_ids_distinct (m : list (Z * record)) : Prop := NoDup (map fst m).
  Lemma insert_chunks_ok did props : (forall cols rows, castable cols props rows = true) ->
    forall chunks s, consistent s -> (forall f l, In (f, l) (concat chunks) -> exists l, In (f, (did, l)) (files s)) ->
    NoDup (map fst (concat chunks)) -> (forall f i r, In ((did, f, i), r) (samples s) -> ~ In f (map fst (concat chunks))) ->
    (forall f l, In (f, l) (concat chunks) -> exists m, metadata_of l = Ok m /\ sample_ids_distinct m) ->
    snd (insert_chunks castable metadata_of s did props chunks) = true.
  Proof.
    intros HC. induction chunks as [|c chunks IH]; intros s C HF N NS HM; [reflexivity|]. cbn [insert_chunks].
    assert (X : exists results, sequence (map (fun t => match metadata_of (snd t) with Ok m => Ok (fst t, m) | Err e => Err e end) c) = Ok results /\
                  map fst results = map fst c /\ Forall (fun fm => sample_ids_distinct (snd fm)) results).
    { assert (HM' : forall f l, In (f, l) c -> exists m, metadata_of l = Ok m /\ sample_ids_distinct m).
      { intros f l I. apply (HM f l). cbn. apply in_or_app. now left. }
      clear - HM'. induction c as [|[f l] c IH]; [exists []; repeat split; constructor|].
      destruct (HM' f l (or_introl eq_refl)) as (m & E & D). cbn [map sequence snd]. rewrite E. cbn [fst].
      destruct IH as (rs & -> & E2 & E3); [intros f' l' I; apply (HM' f' l'); now right|].
      exists ((f, m) :: rs). repeat split; [cbn; now rewrite E2|]. constructor; assumption. }
    destruct X as (results & -> & ER & ED).
    assert (NDK : NoDup (map fst (samples s ++ sample_rows did props results))).
    { rewrite map_app. cbn [concat] in *. rewrite map_app in N.
      assert (NC : NoDup (map fst results)).
      { rewrite ER. clear - N. induction (map fst c) as [|x l IH]; [constructor|]. cbn in N. inversion N; subst.
        constructor; [intros I; apply H1; apply in_or_app; now left|auto]. }
      apply NoDup_app_intro; [apply C| |].
      - clear - NC ED. induction results as [|[f m] results IH]; [constructor|]. inversion ED as [|? ? D1 D2]; subst. inversion NC as [|? ? N1 N2]; subst.
        cbn [sample_rows flat_map fst snd]. rewrite map_app. apply NoDup_app_intro.
        + rewrite map_map. cbn [fst]. unfold sample_ids_distinct in D1. cbn [snd] in D1. clear - D1.
          induction m as [|[i r] m IH]; [constructor|]. cbn in *. inversion D1; subst. constructor; [|auto].
          intros I. apply H1. apply in_map_iff in I as ([i' r'] & [= ->] & I). apply in_map_iff. exists (i, r'). auto.
        + now apply IH.
        + intros x I J. apply in_map_iff in I as (y & <- & I). apply in_map_iff in I as (z & <- & I). cbn [fst] in J.
          apply in_map_iff in J as ([k' r'] & Q & J). cbn in Q. subst k'. apply (in_sample_rows did props) in J as [_ J]. contradiction.
      - intros [[d f] i] I J. apply in_map_iff in J as ([k r] & Q & J). cbn in Q. subst k.
        apply (in_sample_rows did props) in J as [-> J].
        apply in_map_iff in I as ([k r'] & Q & I). cbn in Q. subst k. apply (NS f i r' I).
        apply in_map_iff. rewrite ER in J. apply in_map_iff in J as (y & <- & J). exists y. split; [reflexivity|]. cbn. apply in_or_app. now left. }
    unfold insert_samples. rewrite HC. apply no_dup_keys_spec in NDK. rewrite NDK. cbn [andb].
    set (s1 := set_samples _ s).
    assert (I : insert_samples castable s did props results = Some s1) by (unfold insert_samples; now rewrite HC, NDK).
    destruct (insert_samples_ok castable _ _ _ _ _ I C) as (C1 & E1 & E2 & _ & _ & _ & E6).
    { intros f Hf. rewrite ER in Hf. apply in_map_iff in Hf as ([f' l] & <- & Hf). apply (HF f' l). cbn. apply in_or_app. now left. }
    destruct (insert_chunks castable metadata_of s1 did props chunks) as [tr ok] eqn:R. cbn [snd].
    change ok with (snd (tr, ok)). rewrite <- R. apply IH; [assumption| | | |].
    - intros f l Hf. rewrite E2. apply (HF f l). cbn. apply in_or_app. now right.
    - cbn [concat] in N. rewrite map_app in N. clear - N. induction (map fst c) as [|x l IHl]; [assumption|]. cbn in N. inversion N; auto.
    - intros f i r Hi J. rewrite E6 in Hi. apply in_app_or in Hi as [Hi|Hi].
      + apply (NS f i r Hi). cbn [concat]. rewrite map_app. apply in_or_app. now right.
      + apply (in_sample_rows did props) in Hi as [_ Hi]. rewrite ER in Hi. cbn [concat] in N. rewrite map_app in N.
        clear - N J Hi. induction (map fst c) as [|x l IHl]; [destruct Hi|]. cbn in N. inversion N; subst.
        destruct Hi as [->|Hi]; [|auto]. apply H1. apply in_or_app. now right.
    - intros f l Hf. apply (HM f l). cbn. apply in_or_app. now right.
  Qed.
  Theorem C35_register_succeeds s name info locs props : consistent s -> ~ In name (list_datasets s) -> locs <> [] -> NoDup locs ->
    (forall p, In p props -> p_dtype p = DEnum -> p_options p <> NoOptions) -> (forall cols rows, castable cols props rows = true) ->
    (forall l, In l locs -> exists m, metadata_of l = Ok m /\ NoDup (map fst m)) ->
    snd (register s name info true (Ok locs) (Some props)) = Done true.
  Proof.
    intros C NI NE ND HP HC HM. unfold MdcModel.register. cbn [negb].
    destruct (insert_dataset s name info) as [[s1 did]|] eqn:I.
    2:{ unfold insert_dataset in I. destruct (exists_dataset s name) eqn:E; [|discriminate]. exfalso. apply NI, exists_dataset_in, E. }
    destruct (consistent_insert_dataset _ _ _ _ _ C I) as (C1 & -> & _ & G1 & V1 & S1 & F1 & NF1 & _).
    assert (DS1 : datasets s1 = datasets s ++ [(next_dataset s, (name, info))]) by apply G1.
    destruct locs as [|l0 locs0]; [contradiction|]. set (locs := l0 :: locs0) in *. set (s2 := incr_version s1).
    assert (C2 : consistent s2) by (apply (consistent_same s1); auto).
    destruct (add_columns s2 props) as [tr3 ok3] eqn:A. assert (TA := add_columns_trace _ _ _ _ A).
    assert (Q := add_columns_ok props HP s2). rewrite A in Q. cbn in Q. subst ok3. cbn [negb].
    set (s3 := last_db s2 tr3).
    assert (X3 : datasets s3 = datasets s2 /\ files s3 = files s2 /\ samples s3 = samples s2 /\
        version s3 = version s2 /\ next_dataset s3 = next_dataset s2 /\ next_file s3 = next_file s2).
    { apply last_db_forall with (P := fun x => datasets x = datasets s2 /\ files x = files s2 /\ samples x = samples s2 /\
        version x = version s2 /\ next_dataset x = next_dataset s2 /\ next_file x = next_file s2); auto 10. }
    destruct X3 as (D3 & F3 & S3 & V3 & ND3 & NF3).
    assert (C3 : consistent s3) by (apply (consistent_same s2); auto).
    destruct (insert_files s3 (next_dataset s) locs) as [s4 fids] eqn:IF.
    assert (ID : In (next_dataset s) (map fst (datasets s3))).
    { rewrite D3. cbn [s2 incr_version datasets]. rewrite DS1, map_app. apply in_or_app. right. now left. }
    assert (C4 := consistent_insert_files _ _ _ _ _ C3 ID IF).
    destruct (insert_files_facts _ _ _ _ _ IF) as (E1 & E2 & E3 & E4 & E5 & E6 & E7 & E8 & E9). specialize (E9 ND).
    set (s5 := incr_version s4). assert (C5 : consistent s5) by (apply (consistent_same s4); auto).
    set (chunks := chunks_of _ _ _).
    assert (CC : concat chunks = combine fids locs).
    { apply chunks_of_concat; [apply chunk_size_pos|]. rewrite combine_length. lia. }
    destruct (combine_maps fids locs E7) as [FN SN].
    assert (OK : snd (insert_chunks castable metadata_of s5 (next_dataset s) props chunks) = true).
    { apply insert_chunks_ok; [assumption|assumption| | | |].
      - intros f l Hf. rewrite CC in Hf. apply in_combine_l in Hf. rewrite E9 in Hf. apply in_map_iff in Hf as (r & <- & Hr).
        exists (snd r). cbn. rewrite E5. apply in_or_app. right. apply in_map_iff. exists r. auto.
      - rewrite CC, FN, E9. apply new_rows_nodup.
      - intros f i r Hi _. cbn [s5 incr_version samples] in Hi. rewrite E2, S3 in Hi. cbn [s2 incr_version samples] in Hi. rewrite S1 in Hi.
        destruct C as (_ & _ & _ & _ & K5 & K6 & K7). destruct (K6 _ _ _ _ Hi) as [l Hl]. apply K5 in Hl as [Hl _]. apply K7 in Hl. lia.
      - intros f l Hf. rewrite CC in Hf. apply in_combine_r in Hf. destruct (HM l Hf) as (m & M1 & M2). exists m. auto. }
    destruct (insert_chunks castable metadata_of s5 (next_dataset s) props chunks) as [tr6 ok6]. cbn in OK. subst ok6. reflexivity.
  Qed.

  (** A failed registration does not undo itself: if no files are found it returns False, but the name stays taken and
      every later registration under it is refused. *)
  Theorem C35_failed_register_keeps_name_refuted s name info schema info' vt' found' schema' : consistent s -> ~ In name (list_datasets s) ->
    exists tr, register s name info true (Ok []) schema = (tr, Done false) /\ In name (list_datasets (last_db s tr)) /\
      register (last_db s tr) name info' vt' found' schema' = ([], Done false).
  Proof.
    intros C NI. unfold MdcModel.register at 1. cbn [negb]. unfold insert_dataset.
    destruct (exists_dataset s name) eqn:E; [exfalso; apply NI, exists_dataset_in, E|].
    eexists. split; [reflexivity|]. cbn [last_db last]. set (s2 := incr_version _).
    assert (I : In name (list_datasets s2)). { unfold list_datasets. cbn. rewrite map_app. apply in_or_app. right. now left. }
    split; [exact I|]. apply C35_duplicate_refused. now left.
  Qed.
  (** The same with an unknown parser, a failing file listing or an unreadable file: the call raises, the entry stays. *)
  Theorem C35_raising_register_keeps_name_refuted s name info found schema tr : consistent s ->
    register s name info true found schema = (tr, Raised) -> In name (list_datasets (last_db s tr)).
  Proof.
    intros C H. assert (T := register_trace castable metadata_of _ _ _ _ _ _ _ _ C H).
    assert (NE : tr <> []).
    { intros ->. unfold MdcModel.register in H. cbn [negb] in H. destruct (insert_dataset s name info) as [[s1 did]|]; [|discriminate].
      destruct found as [[|l0 locs]|]; try discriminate. destruct schema; try discriminate.
      destruct (add_columns _ _) as [tr3 ok3]. destruct (negb ok3); [discriminate|]. destruct (insert_files _ _ _).
      destruct (insert_chunks _ _ _ _ _ _) as [tr6 ok6]. destruct (negb ok6); discriminate. }
    assert (I : In (last_db s tr) tr).
    { destruct (exists_last NE) as (l & x & ->). unfold last_db. rewrite last_app_one. apply in_or_app. right. now left. }
    rewrite Forall_forall in T. destruct (T _ I) as (_ & (G & _) & _). unfold list_datasets. rewrite G, map_app.
    apply in_or_app. right. now left.
  Qed.
End Registering.

(** Removing: an unknown name changes nothing. *)
Theorem C35_remove_missing s name : ~ In name (list_datasets s) -> remove s name = ([], Done false).
Proof.
  intros NI. unfold remove. destruct (exists_dataset s name) eqn:E; [exfalso; apply NI, exists_dataset_in, E|reflexivity].
Qed.
Lemma ids_of_unique s name did info : consistent s -> In (did, (name, info)) (datasets s) -> ids_of s name = [did].
Proof.
  intros (_ & N & _) I. unfold list_datasets in N. unfold ids_of. induction (datasets s) as [|[d [n i]] l IH]; [destruct I|].
  cbn [map fst snd filter] in *. inversion N; subst. destruct (str_eqb name n) eqn:E.
  - apply str_eqb_spec in E. subst n. destruct I as [[= -> ->]|I].
    + assert (F : filter (fun d : Z * (str * dinfo) => str_eqb name (fst (snd d))) l = []).
      { clear - H1. induction l as [|[d' [n' i']] l IH]; [reflexivity|]. cbn in *. destruct (str_eqb name n') eqn:E; [|auto].
        apply str_eqb_spec in E. subst n'. exfalso. apply H1. now left. }
      cbn. now rewrite F.
    + exfalso. apply H1. apply in_map_iff. exists (did, (name, info)). auto.
  - destruct I as [[= -> -> ->]|I]; [rewrite (eqb_refl_ _ str_eqb_spec) in E; discriminate|]. now apply IH.
Qed.
Lemma remove_trace s name did info : consistent s -> In (did, (name, info)) (datasets s) ->
  exists s1 s2 s3, remove s name = ([s1; s2; s3; incr_version s3], Done true) /\
    s1 = set_samples (filter (fun r => negb (fst (fst (fst r)) =? did)) (samples s)) s /\
    s2 = set_files (filter (fun f => negb (fst (snd f) =? did)) (files s)) s1 /\
    s3 = set_datasets (filter (fun d => negb (fst d =? did)) (datasets s)) s2.
Proof.
  intros C I. assert (U := ids_of_unique s name did info C I).
  assert (E : exists_dataset s name = true). { apply exists_dataset_in. unfold list_datasets. apply in_map_iff. exists (did, (name, info)). auto. }
  unfold remove. rewrite E. cbn [negb].
  assert (Z1 : forall x, zmem x [did] = (x =? did)) by (intros x; cbn; apply orb_false_r).
  set (s1 := set_samples _ s). set (s2 := set_files _ s1). set (s3 := set_datasets _ s2).
  exists s1, s2, s3. split; [reflexivity|]. split; [|split].
  - unfold s1. f_equal. rewrite U. apply filter_ext. intros r. now rewrite Z1.
  - unfold s2. f_equal. cbn [s1 set_samples files]. apply filter_ext. intros f. change (ids_of s1 name) with (ids_of s name). now rewrite U, Z1.
  - unfold s3. f_equal. cbn [s2 s1 set_samples set_files datasets]. apply filter_ext_in. intros [d [n i]] J. cbn [fst snd].
    f_equal. destruct (str_eqb name n) eqn:En.
    + apply str_eqb_spec in En. subst n. destruct (d =? did) eqn:Ed; [reflexivity|]. exfalso.
      assert (In d (ids_of s name)) as K.
      { unfold ids_of. apply in_map_iff. exists (d, (name, i)). split; [reflexivity|]. apply filter_In. split; [assumption|]. cbn. apply (eqb_refl_ _ str_eqb_spec). }
      rewrite U in K. destruct K as [K|[]]. lia.
    + destruct (d =? did) eqn:Ed; [|reflexivity]. exfalso. apply Z.eqb_eq in Ed. subst d.
      destruct C as (K & _). assert (Q : (n, i) = (name, info)).
      { clear - K I J. induction (datasets s) as [|x l IH]; [destruct I|]. cbn in K. inversion K; subst.
        destruct I as [->|I], J as [J|J]; [congruence| | |auto].
        - exfalso. apply H1. apply in_map_iff. exists (did, (n, i)). auto.
        - subst x. exfalso. apply H1. apply in_map_iff. exists (did, (name, info)). auto. }
      injection Q as -> _. rewrite (eqb_refl_ _ str_eqb_spec) in En. discriminate.
Qed.
(** Removing a dataset succeeds and deletes its entry, its files and its samples, keeps every other row, and the
    version grows. *)
Theorem C35_remove s name did info : consistent s -> In (did, (name, info)) (datasets s) ->
  exists tr, remove s name = (tr, Done true) /\ let s' := last_db s tr in
    (forall d x, In (d, x) (datasets s') <-> In (d, x) (datasets s) /\ fst x <> name) /\
    (forall f d l, In (f, (d, l)) (files s') <-> In (f, (d, l)) (files s) /\ d <> did) /\
    (forall d f i r, In ((d, f, i), r) (samples s') <-> In ((d, f, i), r) (samples s) /\ d <> did) /\
    (forall d, d <> did -> of_dataset s' d = of_dataset s d) /\ of_dataset s' did = ([], [], []) /\
    consistent s' /\ ~ In name (list_datasets s') /\ version s < version s'.
Proof.
  intros C I. destruct (remove_trace s name did info C I) as (s1 & s2 & s3 & R & -> & -> & ->). eexists. split; [exact R|].
  cbn [last_db last]. set (s' := incr_version _). cbn zeta.
  assert (ED : datasets s' = filter (fun d => negb (fst d =? did)) (datasets s)) by reflexivity.
  assert (EF : files s' = filter (fun f => negb (fst (snd f) =? did)) (files s)) by reflexivity.
  assert (ES : samples s' = filter (fun r => negb (fst (fst (fst r)) =? did)) (samples s)) by reflexivity.
  assert (NM : forall d x, In (d, x) (datasets s) -> (fst x = name <-> d = did)).
  { intros d [n i] J. cbn. split.
    - intros ->. assert (K : In d (ids_of s name)).
      { unfold ids_of. apply in_map_iff. exists (d, (name, i)). split; [reflexivity|]. apply filter_In. split; [assumption|]. cbn. apply (eqb_refl_ _ str_eqb_spec). }
      rewrite (ids_of_unique s name did info C I) in K. destruct K as [K|[]]. auto.
    - intros ->. destruct C as (K & _). clear - K I J. induction (datasets s) as [|x l IH]; [destruct I|]. cbn in K. inversion K; subst.
      destruct I as [->|I], J as [J|J]; [congruence| | |auto].
      + exfalso. apply H1. apply in_map_iff. exists (did, (n, i)). auto.
      + subst x. exfalso. apply H1. apply in_map_iff. exists (did, (name, info)). auto. }
  assert (D1 : forall d x, In (d, x) (datasets s') <-> In (d, x) (datasets s) /\ fst x <> name).
  { intros d x. rewrite ED, filter_In. cbn [fst]. split; intros [J K]; (split; [assumption|]); [|].
    - rewrite (NM d x J). lia.
    - rewrite (NM d x J) in K. lia. }
  assert (D2 : forall f d l, In (f, (d, l)) (files s') <-> In (f, (d, l)) (files s) /\ d <> did).
  { intros f d l. rewrite EF, filter_In. cbn [fst snd]. intuition lia. }
  assert (D3 : forall d f i r, In ((d, f, i), r) (samples s') <-> In ((d, f, i), r) (samples s) /\ d <> did).
  { intros d f i r. rewrite ES, filter_In. cbn [fst]. intuition lia. }
  split; [exact D1|]. split; [exact D2|]. split; [exact D3|].
  assert (FF : forall {A} (g : A -> Z) l d, filter (fun x => g x =? d) (filter (fun x => negb (g x =? did)) l) =
               if d =? did then [] else filter (fun x => g x =? d) l).
  { clear. intros A g l d. induction l as [|x l IH]; cbn [filter]; [now destruct (d =? did)|].
    destruct (Z.eqb_spec (g x) did) as [E1|E1], (Z.eqb_spec d did) as [E2|E2]; cbn [negb filter]; try exact IH.
    - destruct (Z.eqb_spec (g x) d); [lia|exact IH].
    - destruct (Z.eqb_spec (g x) d); [lia|exact IH].
    - destruct (Z.eqb_spec (g x) d); [f_equal|]; exact IH. }
  assert (O : forall d, of_dataset s' d = if d =? did then ([], [], []) else of_dataset s d).
  { intros d. unfold of_dataset. rewrite ED, EF, ES.
    rewrite (FF _ (fun x : Z * (str * dinfo) => fst x)), (FF _ (fun x : Z * (Z * str) => fst (snd x))).
    assert (X := FF sample (fun x => fst (fst (fst x))) (samples s) d). cbn beta in X.
    destruct (d =? did); (f_equal; exact (f_equal (map (fun r : sample => (snd (fst (fst r)), snd (fst r), snd r))) X)). }
  split; [intros d N; rewrite O; replace (d =? did) with false by lia; reflexivity|].
  split; [rewrite O, Z.eqb_refl; reflexivity|].
  assert (NDF : forall {A B} (g : A -> B) h (l : list A), NoDup (map g l) -> NoDup (map g (filter h l))).
  { clear. intros A B g h l. induction l as [|x l IH]; cbn; [auto|]. intros N. inversion N; subst. destruct (h x); [|auto]. cbn.
    constructor; [|auto]. intros J. apply H1. apply in_map_iff in J as (y & <- & J). apply filter_In in J. apply in_map. tauto. }
  destruct C as (C1 & C2 & C3 & C4 & C5 & C6 & C7).
  split; [|split; [|cbn; lia]].
  - split; [rewrite ED; apply NDF, C1|]. split; [unfold list_datasets; rewrite ED; apply NDF, C2|].
    split; [rewrite EF; apply NDF, C3|]. split; [rewrite ES; apply NDF, C4|].
    split; [|split].
    + intros f d l J. apply D2 in J as [J K]. destruct (C5 f d l J) as [L M]. split; [|exact M].
      apply in_map_iff in L as ([d' x] & <- & L). cbn in K. apply in_map_iff. exists (d', x). split; [reflexivity|].
      apply D1. split; [assumption|]. rewrite (NM d' x L). exact K.
    + intros d f i r J. apply D3 in J as [J K]. destruct (C6 d f i r J) as [l L]. exists l. apply D2. auto.
    + intros d J. apply in_map_iff in J as ([d' x] & <- & J). apply D1 in J as [J _]. apply C7. apply in_map_iff. exists (d', x). auto.
  - unfold list_datasets. intros J. apply in_map_iff in J as ([d x] & Q & J). apply D1 in J. cbn in Q. tauto.
Qed.
(** A crash anywhere inside a removal leaves a consistent catalogue in which all other datasets are whole. *)
Theorem C35_remove_every_point s name tr o s' did info : consistent s -> In (did, (name, info)) (datasets s) ->
  remove s name = (tr, o) -> In s' tr ->
  consistent s' /\ (forall d, d <> did -> of_dataset s' d = of_dataset s d) /\ version s <= version s'.
Proof.
  intros C I R J. destruct (C35_remove s name did info C I) as (tr' & R' & F). destruct (remove_trace s name did info C I) as (s1 & s2 & s3 & R2 & E1 & E2 & E3).
  rewrite R2 in R. injection R as <- <-. rewrite R2 in R'. injection R' as <-. cbn [last_db last] in F. cbn zeta in F.
  destruct F as (F1 & F2 & F3 & F4 & _ & F6 & _).
  destruct C as (C1 & C2 & C3 & C4 & C5 & C6 & C7).
  assert (NDF : forall {A B} (g : A -> B) h (l : list A), NoDup (map g l) -> NoDup (map g (filter h l))).
  { clear. intros A B g h l. induction l as [|x l IH]; cbn; [auto|]. intros N. inversion N; subst. destruct (h x); [|auto]. cbn.
    constructor; [|auto]. intros J. apply H1. apply in_map_iff in J as (y & <- & J). apply filter_In in J. apply in_map. tauto. }
  assert (FF : forall {A} (g : A -> Z) l d, d <> did -> filter (fun x => g x =? d) (filter (fun x => negb (g x =? did)) l) =
               filter (fun x => g x =? d) l).
  { clear. intros A g l d N. induction l as [|x l IH]; cbn [filter]; [reflexivity|].
    destruct (Z.eqb_spec (g x) did) as [Q|Q]; cbn [negb filter]; [destruct (Z.eqb_spec (g x) d); [lia|exact IH]|].
    destruct (Z.eqb_spec (g x) d); [f_equal|]; exact IH. }
  assert (O : forall x, datasets x = datasets s \/ datasets x = filter (fun d => negb (fst d =? did)) (datasets s) ->
     files x = files s \/ files x = filter (fun f => negb (fst (snd f) =? did)) (files s) ->
     samples x = filter (fun r => negb (fst (fst (fst r)) =? did)) (samples s) -> forall d, d <> did -> of_dataset x d = of_dataset s d).
  { intros x X1 X2 X3 d N. unfold of_dataset. rewrite X3. f_equal; [f_equal|].
    - destruct X1 as [-> | ->]; [reflexivity|]. f_equal. now apply (FF _ (fun x : Z * (str * dinfo) => fst x)).
    - destruct X2 as [-> | ->]; [reflexivity|]. f_equal. now apply (FF _ (fun x : Z * (Z * str) => fst (snd x))).
    - exact (f_equal _ (FF sample (fun x => fst (fst (fst x))) (samples s) d N)). }
  destruct J as [<-|[<-|[<-|[<-|[]]]]].
  - subst s1. split; [|split; [apply O; cbn; auto|cbn; lia]]. unfold consistent, list_datasets. cbn [set_samples datasets files samples next_dataset next_file].
    repeat (split; [first [assumption|apply NDF; assumption]|]). split; [|assumption].
    intros d f i r K. apply filter_In in K as [K _]. eauto.
  - subst s2 s1. split; [|split; [apply O; cbn; auto|cbn; lia]]. unfold consistent, list_datasets. cbn [set_samples set_files datasets files samples next_dataset next_file].
    split; [assumption|]. split; [assumption|]. split; [apply NDF; assumption|]. split; [apply NDF; assumption|]. split; [|split; [|assumption]].
    + intros f d l K. apply filter_In in K as [K _]. eauto.
    + intros d f i r K. apply filter_In in K as [K K']. destruct (C6 d f i r K) as [l L]. exists l. apply filter_In. split; [assumption|]. exact K'.
  - split; [apply (consistent_same (incr_version s3)); auto|]. split; [|subst s3 s2 s1; cbn; lia]. subst s3 s2 s1. apply O; cbn; auto.
  - split; [exact F6|]. split; [exact F4|]. subst s3 s2 s1. cbn. lia.
Qed.

(** ** Histories *)
(** Any sequence of registrations and removals, each of which may end anywhere by a crash (the process restarts on the
    last durable state), fail, or complete. *)
Inductive history (castable : list str -> list mprop -> list sample -> bool) (metadata_of : str -> res (list (Z * record))) : db -> Prop :=
| HInit : history castable metadata_of init_db
| HRegister s name info vt found schema tr o s' : history castable metadata_of s ->
    register castable metadata_of s name info vt found schema = (tr, o) -> In s' (s :: tr) -> history castable metadata_of s'
| HRemove s name tr o s' : history castable metadata_of s -> remove s name = (tr, o) -> In s' (s :: tr) -> history castable metadata_of s'.
(** After any history the catalogue is consistent: unique names and ids, no file without its dataset and no sample
    without its file. *)
Theorem C35_always_consistent castable metadata_of s : history castable metadata_of s -> consistent s.
Proof.
  induction 1 as [|s name info vt found schema tr o s' H IH R I|s name tr o s' H IH R I].
  - unfold consistent, init_db. cbn. repeat split; try constructor; try contradiction.
  - destruct I as [<-|I]; [assumption|]. apply (C35_register_every_point _ _ _ _ _ _ _ _ _ _ _ IH R I).
  - destruct I as [<-|I]; [assumption|]. destruct (exists_dataset s name) eqn:E.
    + apply exists_dataset_in in E. unfold list_datasets in E. apply in_map_iff in E as ([did [n info]] & Q & K). cbn in Q. subst n.
      apply (C35_remove_every_point _ _ _ _ _ _ _ IH K R I).
    + unfold remove in R. rewrite E in R. cbn in R. injection R as <- <-. destruct I.
Qed.
(** The lookups return what the rows say; looking up an unknown id fails. *)
Theorem C35_lookups s : consistent s ->
  (forall n, exists_dataset s n = true <-> exists d i, In (d, (n, i)) (datasets s)) /\
  (forall d f, dataset_func s d = Some f <-> exists n i, In (d, (n, i)) (datasets s) /\ d_func i = f) /\
  (forall d t, dataset_type s d = Some t <-> exists n i, In (d, (n, i)) (datasets s) /\ d_type i = t) /\
  (forall f l, file_path s f = Some l <-> exists d, In (f, (d, l)) (files s)) /\
  (forall f d t l, In (f, d, t, l) (all_files s) <-> In (f, (d, l)) (files s) /\ dataset_type s d = Some t) /\
  (forall f d l, In (f, (d, l)) (files s) -> exists t, In (f, d, t, l) (all_files s)).
Proof.
  intros (C1 & C2 & C3 & C4 & C5 & C6 & C7).
  assert (T : forall d t, dataset_type s d = Some t <-> exists n i, In (d, (n, i)) (datasets s) /\ d_type i = t).
  { intros d t. unfold dataset_type. split.
    - destruct (aget Z.eqb d (datasets s)) as [[n i]|] eqn:E; [|discriminate]. intros [= <-]. apply (aget_in _ Z.eqb_eq) in E. exists n, i. auto.
    - intros (n & i & I & <-). rewrite (in_aget _ Z.eqb_eq _ _ _ C1 I). reflexivity. }
  assert (A : forall f d t l, In (f, d, t, l) (all_files s) <-> In (f, (d, l)) (files s) /\ dataset_type s d = Some t).
  { intros f d t l. unfold all_files. rewrite in_flat_map. split.
    - intros ([f' [d' l']] & I & J). apply in_flat_map in J as ([d2 [n i]] & K & J). cbn [fst snd] in J.
      destruct (Z.eqb_spec d' d2); [|destruct J]. destruct J as [[= -> -> <- ->]|[]]. subst d2. split; [assumption|]. apply T. exists n, i. auto.
    - intros [I J]. apply T in J as (n & i & K & <-). exists (f, (d, l)). split; [assumption|]. apply in_flat_map. exists (d, (n, i)). split; [assumption|].
      cbn [fst snd]. rewrite Z.eqb_refl. now left. }
  split; [|split; [|split; [exact T|split; [|split; [exact A|]]]]].
  - intros n. rewrite exists_dataset_in. unfold list_datasets. rewrite in_map_iff. split.
    + intros ([d [n' i]] & Q & I). cbn in Q. subst n'. eauto.
    + intros (d & i & I). exists (d, (n, i)). auto.
  - intros d t. unfold dataset_func. split.
    + destruct (aget Z.eqb d (datasets s)) as [[n i]|] eqn:E; [|discriminate]. intros [= <-]. apply (aget_in _ Z.eqb_eq) in E. exists n, i. auto.
    + intros (n & i & I & <-). rewrite (in_aget _ Z.eqb_eq _ _ _ C1 I). reflexivity.
  - intros f l. unfold file_path. split.
    + destruct (aget Z.eqb f (files s)) as [[d l']|] eqn:E; [|discriminate]. intros [= <-]. apply (aget_in _ Z.eqb_eq) in E. eauto.
    + intros (d & I). rewrite (in_aget _ Z.eqb_eq _ _ _ C3 I). reflexivity.
  - intros f d l I. destruct (C5 f d l I) as [J _]. apply in_map_iff in J as ([d' [n i]] & Q & J). cbn in Q. subst d'.
    exists (d_type i). apply A. split; [assumption|]. apply T. exists n, i. auto.
Qed.

(** ** A concrete history *)
Definition ex_props : list mprop := [MProp (lit "language") DString true true NoOptions].
Definition ex_meta (loc : str) : res (list (Z * record)) :=
  if str_eqb loc (lit "bad") then Err AssertionError else Ok [(0, [(lit "language", PStr (lit "en"))]); (1, [])].
Definition ex_info (l : str) : dinfo := DInfo l 1 [].
Definition ex_reg (s : db) (n : str) (locs : list str) : list db * outcome :=
  register (fun _ _ _ => true) ex_meta s n (ex_info n) true (Ok locs) (Some ex_props).
Example C35_example :
  let (t1, o1) := ex_reg init_db (lit "a") [lit "f1"; lit "f2"] in let s1 := last_db init_db t1 in
  let (t2, o2) := ex_reg s1 (lit "b") [lit "f3"] in let s2 := last_db s1 t2 in
  let (t3, o3) := remove s2 (lit "a") in let s3 := last_db s2 t3 in
  o1 = Done true /\ o2 = Done true /\ o3 = Done true /\
  length (samples s2) = 6%nat /\ map fst (samples s3) = [(2, 3, 0); (2, 3, 1)] /\ files s3 = [(3, (2, lit "f3"))] /\
  list_datasets s3 = [lit "b"] /\ version s3 = 8 /\ snd (ex_reg s3 (lit "b") [lit "f9"]) = Done false /\
  snd (ex_reg s3 (lit "c") [lit "bad"]) = Raised.
Proof. vm_compute. repeat split. Qed.
Example C35_hypotheses_hold : exists s, history (fun _ _ _ => true) ex_meta s /\ samples s <> [] /\ list_datasets s = [lit "a"; lit "b"].
Proof.
  destruct (ex_reg init_db (lit "a") [lit "f1"; lit "f2"]) as [t1 o1] eqn:R1.
  destruct (ex_reg (last_db init_db t1) (lit "b") [lit "f3"]) as [t2 o2] eqn:R2.
  exists (last_db (last_db init_db t1) t2). split; [|vm_compute in R1; injection R1 as <- <-; vm_compute in R2; injection R2 as <- <-; vm_compute; split; [discriminate|reflexivity]].
  assert (L : forall s t, In (last_db s t) (s :: t)).
  { clear. intros s t. unfold last_db. destruct t as [|x t]; [now left|]. right. revert x. induction t as [|y t IH]; intros x; [now left|]. right. apply IH. }
  eapply HRegister; [|exact R2|apply L]. eapply HRegister; [apply HInit|exact R1|apply L].
Qed.
Print Assumptions C35_register.
Print Assumptions C35_duplicate_refused.
Print Assumptions C35_register_every_point.
Print Assumptions C35_register_succeeds.
Print Assumptions C35_failed_register_keeps_name_refuted.
Print Assumptions C35_raising_register_keeps_name_refuted.
Print Assumptions C35_remove_missing.
Print Assumptions C35_remove.
Print Assumptions C35_remove_every_point.
Print Assumptions C35_always_consistent.
Print Assumptions C35_lookups.
