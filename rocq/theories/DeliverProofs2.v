(** Proofs for C73: the metadata of a query covers its samples, and a chunk streams the contents of its rows. *)
From Coq Require Import String.
From Verif Require Import Base MixtureKeyModel MixtureKeyProofs UtilsModel ChunkGenModel ParserModel MdcModel SpecMdc ReaderModel FilesModel SpecFiles
  SqlModel IntervalModel SpecInterval PropertiesInterval ChunkerModel TokenModel SpecChunk ExecModel SpecExec ExecProofs ExecProofs2
  ChunkGenProofs4 ChunkGenProofs5 MixtureModel ResultChunkModel ResultChunkProofs5 ResultChunkProofs6 SpecResultChunk PropertiesResultChunk
  DeliverModel SpecDeliver DeliverProofs.
From Coq Require Import QArith.
Open Scope Z_scope.

(** The rows of a chunk, each with the key it is listed under. *)
Definition keyed_rows (ci : index) : list (mkey * row) := flat_map (fun kp => map (pair (fst kp)) (rows_of (snd kp))) ci.
Lemma keyed_rows_snd ci : map snd (keyed_rows ci) = all_rows ci.
Proof.
  unfold keyed_rows, all_rows. induction ci as [|kp ci IH]; [reflexivity|]. cbn [flat_map]. rewrite map_app, IH, map_map. cbn [snd]. rewrite map_id. reflexivity.
Qed.

(** ** configure *)
Lemma NoDup_firstn {X} (l : list X) n : NoDup l -> NoDup (firstn n l).
Proof. intros H. rewrite <- (firstn_skipn n l) in H. apply NoDup_app_iff in H. tauto. Qed.
Lemma map_fst_combine {X Y} (l : list X) (l' : list Y) : map fst (combine l l') = firstn (length l') l.
Proof. revert l'. induction l as [|x l IH]; intros [|y l']; try reflexivity. cbn. rewrite IH. reflexivity. Qed.
Lemma NoDup_filter_keys (P : mkey * Z -> bool) l : NoDup (map fst l) -> NoDup (map fst (filter P l)).
Proof.
  induction l as [|x l IH]; [constructor|]. cbn. intros H. inversion H as [|? ? H1 H2]; subst. destruct (P x); [|apply IH, H2]. cbn. constructor; [|apply IH, H2].
  intros Hi. apply H1. apply in_map_iff in Hi as (y & <- & Hy). apply filter_In in Hy as [Hy _]. apply in_map, Hy.
Qed.
Lemma infer_nodup fl (idx : index) m : NoDup (map fst idx) -> rc_infer fl idx = Ok m -> NoDup (map fst m).
Proof.
  intros N H. unfold rc_infer in H. destruct (infer_mixture fl idx) as [[total um]|] eqn:E; [|discriminate].
  assert (K : map fst um = map fst idx).
  { unfold infer_mixture in E. destruct idx as [|kp idx]; [cbn in E; injection E as <- <-; reflexivity|]. cbn [map] in E. destruct (_ =? 0); [discriminate|]. injection E as <- <-.
    cbn [map fst]. f_equal. rewrite !map_map. reflexivity. }
  unfold static_mixture in H. destruct (negb _); [discriminate|]. unfold parse_user_mixture in H. destruct (negb _); [discriminate|].
  cbv zeta in H. destruct (_ <? 0); [discriminate|]. destruct (_ && _); [discriminate|]. destruct (negb _); [discriminate|]. injection H as <-.
  rewrite map_fst_combine. apply NoDup_firstn. rewrite map_map. cbn [fst]. change (map (fun x : mkey * Q => fst x) um) with (map fst um). rewrite K. exact N.
Qed.
Lemma configured_simple {A} fl c (a : rargs A) cf : ra_type a = MSimple -> configure fl c a = Ok cf -> NoDup (map fst (rc_index c)) ->
  (forall m, rc_mix c = Some m -> NoDup (map fst m)) ->
  rf_type cf = MSimple /\ rf_tok cf = None /\ rf_prefetch cf = ra_prefetch a /\ rf_dop cf = Z.max 1 (ra_dop a) /\ (rf_dop cf <> 1 -> mix_for c cf).
Proof.
  intros T H N M. unfold configure in H. rewrite T in H. cbv zeta in H. cbn [andb orb] in H.
  assert (Ed : (if ra_dop a <? 1 then 1 else ra_dop a) = Z.max 1 (ra_dop a)) by (destruct (Z.ltb_spec (ra_dop a) 1); lia). rewrite Ed in H.
  set (dop := Z.max 1 (ra_dop a)) in *.
  match type of H with match ?e with _ => _ end = _ => destruct e as [mix0|] eqn:E0; [|discriminate] end.
  assert (M0 : (1 <? dop) = true -> exists m, mix0 = Some m /\ NoDup (map fst m)).
  { intros D. rewrite D in E0. cbn [andb] in E0. destruct (rc_mix c) as [[|x m]|] eqn:Em.
    - destruct (rc_infer fl (rc_index c)) as [m|] eqn:Ei; [|discriminate]. injection E0 as <-. exists m. split; [reflexivity|apply (infer_nodup _ _ _ N Ei)].
    - injection E0 as <-. exists (x :: m). split; [reflexivity|apply M; reflexivity].
    - destruct (rc_infer fl (rc_index c)) as [m|] eqn:Ei; [|discriminate]. injection E0 as <-. exists m. split; [reflexivity|apply (infer_nodup _ _ _ N Ei)]. }
  match type of H with (if ?b then _ else _) = _ => destruct b eqn:B; [discriminate|] end. cbn [negb] in H. injection H as <-. cbn [rf_type rf_tok rf_prefetch rf_dop].
  do 4 (split; [reflexivity|]). intros D. destruct M0 as (m & -> & Nm); [apply Z.ltb_lt; lia|]. 
  set (m' := if existsb (fun kv => snd kv =? 0) m then filter (fun kv => 0 <? snd kv) m else m) in *. exists m'. cbn [rf_mix]. split; [reflexivity|].
  assert (Nm' : NoDup (map fst m')) by (unfold m'; destruct (existsb _ m); [apply NoDup_filter_keys, Nm|exact Nm]). split; [exact Nm'|].
  apply same_keys_perm; [exact Nm'|exact N|]. apply negb_false_iff, B.
Qed.
(** With one reader and no mixture the configuration is accepted. *)
Lemma configure_one {A} fl c (a : rargs A) : ra_type a = MSimple -> ra_dop a <= 1 -> rc_mix c = None -> exists cf, configure fl c a = Ok cf.
Proof.
  intros T D M. unfold configure. rewrite T, M. cbv zeta. cbn [andb orb negb]. destruct (Z.ltb_spec 1 (if ra_dop a <? 1 then 1 else ra_dop a)) as [L|L]; [|eexists; reflexivity].
  destruct (Z.ltb_spec (ra_dop a) 1); lia.
Qed.

Section Meta.
  Variable glt : group -> group -> bool.
  Variable cols : list (str * bool).
  Variable ys : list MdcModel.sample.
  Hypothesis Hok : table_ok cols ys.
  Notation table := (map table_row (query_intervals group_eqb glt (map (fun x => (the_group cols x, the_id x)) ys))).
  (** The result table names the dataset and the file of every selected sample, and no others. *)
  Lemma table_covers d f i r : In ((d, f, i), r) ys -> In d (map tr_d table) /\ In f (map tr_f table).
  Proof using Hok.
    intros H. assert (G := proj2 (in_gs cols ys d f (the_cells cols r) i) (ex_intro _ r (conj H eq_refl))).
    apply (C31_cover _ glt group_eqb_spec _ (gs_nodup cols ys Hok)) in G as ([a b] & [Hi _] & _).
    split; (apply in_map_iff; eexists; split; [|apply in_map_iff; eexists; split; [reflexivity|exact Hi]]); reflexivity.
  Qed.
  Lemma table_only t : In t table -> exists i r, In ((tr_d t, tr_f t, i), r) ys.
  Proof using Hok.
    intros H. apply in_map_iff in H as ([[[d f] l] [a b]] & <- & H). destruct (qi_sample glt cols ys Hok d f l a b H) as (_ & r & Hr & _). exists a, r. exact Hr.
  Qed.
End Meta.

Section Deliver.
  Variables (root : node) (cwd : node) (cwd_anc : list node).
  Variable unpack : str -> str -> res str.
  Variable parquet_open : str -> res (list (list pval)).
  Variable to_batches : list pval -> list (list pval).
  Variable tar_open : str -> res (list (list member)).
  Variable decode : list (str * str) -> res pval.
  Context {A : Type}.
  Variable parsing_func : str -> pval -> res A.
  Hypothesis Hb : forall l, concat (to_batches l) = l.
  Notation content := (content root cwd cwd_anc unpack parquet_open tar_open decode parsing_func).
  Notation on_disk := (on_disk root cwd cwd_anc unpack parquet_open tar_open decode parsing_func).
  Notation read_workload := (read_workload root cwd cwd_anc unpack parquet_open to_batches tar_open decode parsing_func).

  (** The metadata can be fetched. *)
  Lemma parse_meta_ok s table : consistent s -> on_disk s -> (forall t, In t table -> exists i, In (tr_d t, tr_f t, i) (map fst (samples s))) -> exists m, parse_meta s table = Ok m.
  Proof using.
    intros (ND & _ & NF & _) [OD _] H.
    assert (K : forall t, In t table -> exists name info c path, In (tr_d t, (name, info)) (datasets s) /\ from_type_id (d_type info) = Ok c /\ In (tr_f t, (tr_d t, path)) (files s)).
    { intros t Ht. destruct (H t Ht) as (i & Hi). apply in_map_iff in Hi as ([x r] & E & Hi). cbn in E. subst x. destruct (OD _ _ Hi) as (tx & name & info & c & path & v & I1 & I2 & I3 & P & _).
      exists name, info, c, path. split; [exact I1|]. split; [|exact I3]. apply type_id_inj; [symmetry; exact I2|]. intros ->. destruct P as (_ & raw & _ & F). contradiction F. }
    unfold parse_meta. cbv zeta.
    destruct (build_ok (type_by_id s) (nodup Z.eq_dec (map tr_d table))) as (l1 & ->).
    { intros d Hd. apply nodup_In, in_map_iff in Hd as (t & <- & Ht). destruct (K t Ht) as (name & info & c & path & I1 & I2 & _). exists c. unfold type_by_id, dataset_type. rewrite (in_aget _ Z.eqb_eq _ _ _ ND I1). exact I2. }
    destruct (build_ok (fun d => or_raise (dataset_func s d)) (nodup Z.eq_dec (map tr_d table))) as (l2 & ->).
    { intros d Hd. apply nodup_In, in_map_iff in Hd as (t & <- & Ht). destruct (K t Ht) as (name & info & c & path & I1 & _). unfold dataset_func. rewrite (in_aget _ Z.eqb_eq _ _ _ ND I1). eexists. reflexivity. }
    destruct (build_ok (fun f => or_raise (file_path s f)) (nodup Z.eq_dec (map tr_f table))) as (l3 & ->).
    { intros f Hf. apply nodup_In, in_map_iff in Hf as (t & <- & Ht). destruct (K t Ht) as (name & info & c & path & _ & _ & I3). unfold file_path. rewrite (in_aget _ Z.eqb_eq _ _ _ NF I3). eexists. reflexivity. }
    eexists. reflexivity.
  Qed.

  Variables (s : db) (table : list trow) (m : qmeta).
  Hypothesis Hs : consistent s.
  Hypothesis Ho : on_disk s.
  Hypothesis Hm : parse_meta s table = Ok m.
  (** A chunk whose rows are samples the table covers. *)
  Record chunk_good (ci : index) : Prop := {
    cg_sorted : chunk_sorted ci;
    cg_full : chunk_full ci;
    cg_starts : forall k p d fs f rs r, In (k, p) ci -> In (d, fs) p -> In (f, rs) fs -> In r rs -> In (d, f, fst r) (map fst (samples s));
    cg_rows : forall k p d f i, In (k, p) ci -> In (d, f, i) (rows_of p) -> In (d, f, i) (map fst (samples s));
    cg_covered : forall k p d fs f rs, In (k, p) ci -> In (d, fs) p -> In (f, rs) fs -> In d (map tr_d table) /\ In f (map tr_f table) }.

  Lemma good_workload ci k p d fs f rs : chunk_good ci -> In (k, p) ci -> In (d, fs) p -> In (f, rs) fs ->
    exists ts, read_workload m d f rs = (ts, None) /\ Forall2 (content s) (flat_map (range_rows d f) rs) ts.
  Proof using Hs Ho Hm Hb.
    intros G H1 H2 H3. destruct (cg_covered _ G _ _ _ _ _ _ H1 H2 H3) as [C1 C2]. eapply workload_ok; [exact Hb|exact Hs|exact Ho|exact Hm|exact C1|exact C2| | | |].
    - eapply (cg_sorted _ G); eassumption.
    - apply (cg_full _ G k p H1 d f rs). exists fs. auto.
    - intros r Hr. eapply (cg_starts _ G); eassumption.
    - intros i (r & Hr & B). eapply (cg_rows _ G); [exact H1|]. apply in_rows_of. exists fs, rs, r. auto.
  Qed.
  Lemma good_reads ci : chunk_good ci -> reads_ok (read_workload m) ci.
  Proof using Hs Ho Hm Hb. intros G k p d fs f rs H1 H2 H3. destruct (good_workload ci _ _ _ _ _ _ G H1 H2 H3) as (ts & E & _). rewrite E. reflexivity. Qed.
  Lemma good_part ci k p : chunk_good ci -> In (k, p) ci -> Forall2 (content s) (rows_of p) (part_samples (read_workload m) p).
  Proof using Hs Ho Hm Hb.
    intros G H1. unfold rows_of, part_samples. apply Forall2_flat_map. intros [d fs] H2. apply Forall2_flat_map. intros [f rs] H3. cbn [fst snd] in *.
    destruct (good_workload ci _ _ _ _ _ _ G H1 H2 H3) as (ts & E & F). rewrite E. exact F.
  Qed.
  Lemma good_samples ci kid : chunk_good ci ->
    Forall2 (fun kx t => fst t = key_id kid (fst kx) /\ content s (snd kx) (snd t)) (keyed_rows ci) (all_samples (read_workload m) kid ci).
  Proof using Hs Ho Hm Hb.
    intros G. unfold keyed_rows, all_samples. apply Forall2_flat_map. intros [k p] H. cbn [fst snd]. assert (F := good_part ci k p G H).
    induction F as [|x t l l' H0 F IH]; [constructor|]. cbn [map]. constructor; [auto|exact IH].
  Qed.

  (** Streaming a chunk. *)
  Lemma stream_chunk fl is_end is_none sh cpu (c : rc) (a : rargs A) cf : shuffle_ok sh -> chunk_ok c -> chunk_good (rc_index c) -> rc_skip c = O ->
    (forall mx, rc_mix c = Some mx -> NoDup (map fst mx)) ->
    ra_type a = MSimple -> configure fl c a = Ok cf ->
    (1 < ra_dop a -> rc_csize c <> 0 /\ rc_index c <> [] /\ forall x t, content s x t -> is_end t = false) ->
    (ra_prefetch a = true -> forall x t, content s x t -> is_none t = false) ->
    exists N, forall fuel, (N <= fuel)%nat -> exists out texts,
      iterate fl (read_workload m) is_end is_none sh cpu fuel c cf = (out, StopIter)
      /\ Permutation (tags out) (as_text texts) /\ positions out = seq 0 (length out)
      /\ Forall2 (fun kx t => fst t = key_id (rc_kid c) (fst kx) /\ content s (snd kx) (snd t)) (keyed_rows (rc_index c)) texts.
  Proof using Hs Ho Hm Hb.
    intros Hsh Hc G Sk Mx T C P1 P2. destruct (configured_simple fl c a cf T C (proj1 Hc) Mx) as (F1 & F2 & F3 & F4 & F5).
    assert (Pl : forall P, (forall x t, content s x t -> P t = false) -> plain (read_workload m) P (rc_index c)).
    { intros P HP k p Hin. assert (F := good_part _ k p G Hin). induction F as [|x t l l' H0 F IH]; constructor; [apply (HP x t H0)|exact IH]. }
    destruct (C21_once A fl (read_workload m) is_end is_none sh cpu c cf Hsh Hc) as (N & HN); [|exact Sk|exact F1|exact F2|].
    - split; [apply good_reads, G|]. split.
      + intros D. destruct P1 as (Q1 & Q2 & Q3); [lia|]. split; [apply Pl, Q3|]. split; [apply F5, D|]. auto.
      + intros D. rewrite F3 in D. apply Pl, P2, D.
    - exists N. intros fuel Hf. destruct (HN fuel Hf) as (out & E1 & E2 & E3). exists out, (all_samples (read_workload m) (rc_kid c) (rc_index c)).
      split; [exact E1|]. split; [exact E2|]. split; [exact E3|]. apply good_samples, G.
  Qed.
End Deliver.
