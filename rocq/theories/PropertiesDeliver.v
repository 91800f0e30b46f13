(** C73: what a query delivers are the contents of the registered files.  Model: DeliverModel.v (with ExecModel, ChunkGenModel,
    ResultChunkModel, FilesModel), specification: SpecDeliver.v, SpecExec.v. *)
From Coq Require Import String.
From Verif Require Import Base MixtureKeyModel MixtureKeyProofs UtilsModel ChunkGenModel ParserModel MdcModel SpecMdc ReaderModel FilesModel SpecFiles
  SqlModel SpecSql PropertiesSql IntervalModel SpecInterval PropertiesInterval ChunkerModel TokenModel SpecChunker SpecChunk ExecModel SpecExec ExecProofs ExecProofs2
  ChunkGenProofs4 ChunkGenProofs5 PropertiesChunk PropertiesChunker MixtureModel ResultChunkModel ResultChunkProofs5 ResultChunkProofs6 SpecResultChunk PropertiesResultChunk PropertiesExec
  DeliverModel SpecDeliver DeliverProofs DeliverProofs2.
From Coq Require Import QArith.
Open Scope Z_scope.

Section C73.
  Variable glt : group -> group -> bool.
  Variable na : option bool.
  Variable itk : cindex -> cindex.
  Variable itd : list (Z * list (Z * list interval)) -> list (Z * list (Z * list interval)).
  Variable itf : list (Z * list interval) -> list (Z * list interval).
  Hypothesis Hlt : strict_total glt.
  Hypothesis Hna : na <> Some true.
  Hypothesis Hk : permutes itk.
  Hypothesis Hd : permutes itd.
  Hypothesis Hf : permutes itf.
  Notation executes := (executes glt na itk itd itf).
  (** The files, and the libraries that open them. *)
  Variables (root : node) (cwd : node) (cwd_anc : list node).
  Variable unpack : str -> str -> res str.
  Variable parquet_open : str -> res (list (list pval)).
  Variable to_batches : list pval -> list (list pval).
  Variable tar_open : str -> res (list (list member)).
  Variable decode : list (str * str) -> res pval.
  Context {A : Type}.
  Variable parsing_func : str -> pval -> res A.
  (** to_batches cuts a table into batches and loses nothing. *)
  Hypothesis Hb : forall l, concat (to_batches l) = l.
  Notation content := (content root cwd cwd_anc unpack parquet_open tar_open decode parsing_func).
  Notation on_disk := (on_disk root cwd cwd_anc unpack parquet_open tar_open decode parsing_func).
  Notation read_workload := (read_workload root cwd cwd_anc unpack parquet_open to_batches tar_open decode parsing_func).

  (** Whatever the query: the result's metadata can be fetched, and it has the path of every file with a matching sample
      and the type and parsing function of its dataset, and nothing else. *)
  Theorem C73_metadata_partial s cols sels : consistent s -> on_disk s -> table_ok cols (samples s) -> query_ok cols sels ->
    exists table m, result_table glt na cols sels (samples s) = Some table /\ parse_meta s table = Ok m
      /\ (forall d f i r, In ((d, f, i), r) (samples s) -> matches na cols sels ((d, f, i), r) ->
            exists name info c path, In (d, (name, info)) (datasets s) /\ In (f, (d, path)) (files s) /\ d_type info = type_id c /\ c <> CroissantDs
              /\ aget Z.eqb f (qm_path m) = Some path /\ aget Z.eqb d (qm_type m) = Some c /\ aget Z.eqb d (qm_func m) = Some (d_func info))
      /\ (forall f path, aget Z.eqb f (qm_path m) = Some path -> exists d i r, In ((d, f, i), r) (samples s) /\ matches na cols sels ((d, f, i), r))
      /\ (forall d c, aget Z.eqb d (qm_type m) = Some c -> exists f i r, In ((d, f, i), r) (samples s) /\ matches na cols sels ((d, f, i), r)).
  Proof using Hna.
    intros Hs Ho T Q. destruct (result_table_matching glt na Hna cols sels (samples s) T Q) as (ys & S & R).
    assert (Ty := sub_table_ok _ _ _ _ S T). assert (Si : forall x, In x ys <-> In x (samples s) /\ matches na cols sels x) by (intros x; apply (selects_in _ _ _ x S)).
    set (table := map table_row _) in R.
    destruct (parse_meta_ok root cwd cwd_anc unpack parquet_open tar_open decode parsing_func s table Hs Ho) as (m & Hm).
    { intros t Ht. destruct (table_only glt cols ys Ty t Ht) as (i & r & Hr). exists i. apply in_map_iff. exists ((tr_d t, tr_f t, i), r). split; [reflexivity|]. apply Si, Hr. }
    exists table, m. split; [exact R|]. split; [exact Hm|]. unfold parse_meta in Hm. cbv zeta in Hm.
    destruct (build (type_by_id s) _) as [types|] eqn:B1; [|discriminate]. destruct (build (fun d0 => or_raise (dataset_func s d0)) _) as [funcs|] eqn:B2; [|discriminate].
    destruct (build (fun f0 => or_raise (file_path s f0)) _) as [paths|] eqn:B3; [|discriminate]. injection Hm as <-. cbn [qm_path qm_type qm_func].
    destruct Hs as (ND & _ & NF & _). split; [|split].
    - intros d f i r Hr Hx. assert (Hy : In ((d, f, i), r) ys) by (apply Si; auto). destruct (table_covers glt cols ys Ty d f i r Hy) as [C1 C2]. fold table in C1, C2.
      destruct (proj1 Ho _ _ Hr) as (t & name & info & c & path & v & I1 & I2 & I3 & P & _).
      assert (Nc : c <> CroissantDs) by (intros ->; destruct P as (_ & raw & _ & F); contradiction F).
      exists name, info, c, path. do 4 (split; [assumption|]).
      assert (X1 : existsb (Z.eqb d) (nodup Z.eq_dec (map tr_d table)) = true) by (apply existsb_exists; exists d; split; [apply nodup_In, C1|apply Z.eqb_refl]).
      assert (X2 : existsb (Z.eqb f) (nodup Z.eq_dec (map tr_f table)) = true) by (apply existsb_exists; exists f; split; [apply nodup_In, C2|apply Z.eqb_refl]).
      rewrite (build_get _ _ _ B3), X2, (build_get _ _ _ B1), (build_get _ _ _ B2), X1.
      unfold file_path, type_by_id, dataset_type, dataset_func. rewrite (in_aget _ Z.eqb_eq _ _ _ NF I3), (in_aget _ Z.eqb_eq _ _ _ ND I1). cbn [option_map snd or_raise].
      rewrite (type_id_inj c _ (eq_sym I2) Nc). auto.
    - intros f path E. rewrite (build_get _ _ _ B3) in E. destruct (existsb (Z.eqb f) _) eqn:X; [|discriminate]. apply existsb_exists in X as (f' & X & Ef). apply Z.eqb_eq in Ef. subst f'.
      apply nodup_In, in_map_iff in X as (t & <- & Ht). destruct (table_only glt cols ys Ty t Ht) as (i & r & Hr). exists (tr_d t), i, r. apply Si, Hr.
    - intros d c E. rewrite (build_get _ _ _ B1) in E. destruct (existsb (Z.eqb d) _) eqn:X; [|discriminate]. apply existsb_exists in X as (d' & X & Ef). apply Z.eqb_eq in Ef. subst d'.
      apply nodup_In, in_map_iff in X as (t & <- & Ht). destruct (table_only glt cols ys Ty t Ht) as (i & r & Hr). exists (tr_f t), i, r. apply Si, Hr.
  Qed.

  (** The chunks of a query. *)
  Lemma reachable_good s cols sels idx table fuel order q os c : table_ok cols (samples s) -> text_ok cols (samples s) -> query_ok cols sels ->
    result_table glt na cols sels (samples s) = Some table -> executes cols sels (samples s) (Some idx) ->
    Permutation order (map fst idx) -> reachable fuel idx order q os -> In c (chunks os) ->
    chunk_good s table (ChunkGenModel.rc_index c) /\ chunk_ok (chunk_object c) /\ forall mx, ChunkGenModel.rc_mix c = Some mx -> NoDup (map fst mx).
  Proof using Hlt Hna Hk Hd Hf.
    intros T X Q R E Ho Hr Hc. destruct (executed glt na itk itd itf Hlt Hna Hk Hd Hf cols sels (samples s) _ T X Q E) as (idx' & [= <-] & W & Ix & _ & M).
    destruct (result_table_matching glt na Hna cols sels (samples s) T Q) as (ys & S & R'). rewrite R in R'. injection R' as ->.
    assert (Ty := sub_table_ok _ _ _ _ S T).
    destruct (qi_facts _ _ _ _ (reachable_inv idx order Ix Ho fuel q os Hr) c Hc) as (h & rf & _ & F).
    assert (Sam : forall ck d f i, idx_rows idx ck (d, f, i) -> exists r, In ((d, f, i), r) (samples s) /\ In ((d, f, i), r) ys).
    { intros ck d f i (p & Hp & Hi). assert (U : In (d, f, i) (rows_under ck idx)) by (apply in_rows_under; eauto). apply M in U as (r & U1 & U2 & _). exists r. split; [exact U1|]. apply (selects_in _ _ _ _ S). auto. }
    split; [|split].
    - constructor.
      + exact (cf_sorted _ _ _ F).
      + exact (cf_full _ _ _ F).
      + intros k p d fs f rs r H1 H2 H3 H4. destruct (cf_starts _ _ _ F k p d fs f rs r H1 H2 H3 H4) as (ck & Hx). destruct (Sam _ _ _ _ Hx) as (rr & Hrr & _). apply in_map_iff. exists ((d, f, fst r), rr). auto.
      + intros k p d f i H1 H2. destruct (cf_match _ _ _ F k p _ H1 H2) as (ck & p' & A1 & _ & A2). destruct (Sam ck d f i) as (rr & Hrr & _); [exists p'; auto|]. apply in_map_iff. exists ((d, f, i), rr). auto.
      + intros k p d fs f rs H1 H2 H3. destruct rs as [|r rs0] eqn:Ers; [destruct (cf_full _ _ _ F k p H1 d f []); [exists fs; auto|reflexivity]|].
        destruct (cf_starts _ _ _ F k p d fs f (r :: rs0) r H1 H2 H3 (or_introl eq_refl)) as (ck & Hx). destruct (Sam _ _ _ _ Hx) as (rr & _ & Hy). eapply (table_covers glt cols ys Ty); exact Hy.
    - split; [exact (cf_nd _ _ _ F)|]. exact (cf_known _ _ _ F).
    - intros mx Em. assert (Cm := cf_mix _ _ _ F). unfold chunk_mix in Cm. destruct (m_rows (h rf)).
      + destruct Cm as (k & p & _ & _ & Cm & _). congruence.
      + destruct Cm as (_ & mix & Cm & _ & _ & Cn & _). congruence.
  Qed.

  (** Any chunk of any history of the query -- with any mixtures, updated at any time -- streams, for every row it lists,
      the text of that sample of the registered file, once, with the id of the key it is listed under, and then stops;
      for jsonl, parquet and web datasets, any number of readers, with or without prefetching.
      Partial: texts and queries as in C72; reading on a node without a server connection. *)
  Theorem C73_chunk_contents_partial s cols sels idx table m fuel order q os c fl is_end is_none sh cpu (a : rargs A) cf :
    consistent s -> on_disk s -> table_ok cols (samples s) -> text_ok cols (samples s) -> query_ok cols sels ->
    result_table glt na cols sels (samples s) = Some table -> parse_meta s table = Ok m -> executes cols sels (samples s) (Some idx) ->
    Permutation order (map fst idx) -> reachable fuel idx order q os -> In c (chunks os) ->
    shuffle_ok sh -> ra_type a = MSimple -> configure fl (chunk_object c) a = Ok cf ->
    (1 < ra_dop a -> ChunkGenModel.rc_csize c <> 0 /\ ChunkGenModel.rc_index c <> [] /\ forall x t, content s x t -> is_end t = false) ->
    (ra_prefetch a = true -> forall x t, content s x t -> is_none t = false) ->
    exists N, forall n, (N <= n)%nat -> exists out texts,
      iterate fl (read_workload m) is_end is_none sh cpu n (chunk_object c) cf = (out, StopIter)
      /\ Permutation (tags out) (as_text texts) /\ positions out = seq 0 (length out)
      /\ Forall2 (fun kx t => fst t = key_id (ChunkGenModel.rc_kid c) (fst kx) /\ content s (snd kx) (snd t)) (keyed_rows (ChunkGenModel.rc_index c)) texts.
  Proof using Hlt Hna Hk Hd Hf Hb.
    intros Hs Hod T X Q R Pm E Ho Hr Hc Hsh Ta C P1 P2. destruct (reachable_good _ _ _ _ _ _ _ _ _ _ T X Q R E Ho Hr Hc) as (G & Ck & Mx).
    exact (stream_chunk root cwd cwd_anc unpack parquet_open to_batches tar_open decode parsing_func Hb s table m Hs Hod Pm fl is_end is_none sh cpu (chunk_object c) a cf Hsh Ck G eq_refl Mx Ta C P1 P2).
  Qed.

  Lemma Forall2_perm {X Y} (P : X -> Y -> Prop) l1 l2 : Permutation l1 l2 -> forall k1, Forall2 P l1 k1 -> exists k2, Permutation k1 k2 /\ Forall2 P l2 k2.
  Proof using.
    induction 1 as [|x l1 l2 H IH|x y l|l1 l2 l3 H1 IH1 H2 IH2]; intros k1 F.
    - inversion F. exists []. split; constructor.
    - inversion F as [|? t ? k Hx Hl]; subst. destruct (IH _ Hl) as (k2 & P1 & P2). exists (t :: k2). split; [constructor; exact P1|constructor; assumption].
    - inversion F as [|? t ? k Hx Hl]; subst. inversion Hl as [|? u ? k' Hy Hl']; subst. exists (u :: t :: k'). split; [constructor|repeat constructor; assumption].
    - destruct (IH1 _ F) as (k2 & P1 & P2). destruct (IH2 _ P2) as (k3 & P3 & P4). exists k3. split; [eapply perm_trans; eassumption|exact P4].
  Qed.
  Lemma Forall2_map_left {X Y W} (f : X -> Y) (P : Y -> W -> Prop) l : forall l', Forall2 P (map f l) l' <-> Forall2 (fun x w => P (f x) w) l l'.
  Proof using. induction l as [|x l IH]; intros l'; split; intros H; inversion H; subst; constructor; auto; apply IH; assumption. Qed.

  (** Streaming all chunks of a history of the query. *)
  Lemma stream_all s table m fl is_end is_none sh cpu (a : rargs A) cs :
    consistent s -> on_disk s -> parse_meta s table = Ok m -> shuffle_ok sh -> ra_type a = MSimple ->
    (1 < ra_dop a -> forall x t, content s x t -> is_end t = false) -> (ra_prefetch a = true -> forall x t, content s x t -> is_none t = false) ->
    (forall c, In c cs -> chunk_good s table (ChunkGenModel.rc_index c) /\ chunk_ok (chunk_object c) /\ (forall mx, ChunkGenModel.rc_mix c = Some mx -> NoDup (map fst mx))
       /\ ChunkGenModel.rc_csize c <> 0 /\ ChunkGenModel.rc_index c <> [] /\ exists cf, configure fl (chunk_object c) a = Ok cf) ->
    exists N, forall n, (N <= n)%nat -> exists outs texts,
      Forall2 (fun c out => exists cf, configure fl (chunk_object c) a = Ok cf /\ iterate fl (read_workload m) is_end is_none sh cpu n (chunk_object c) cf = (out, StopIter)) cs outs
      /\ Permutation (map snd (flat_map tags outs)) (map Text texts) /\ Forall2 (content s) (flat_map (fun c => all_rows (ChunkGenModel.rc_index c)) cs) texts.
  Proof using Hb.
    intros Hs Hod Pm Hsh Ta P1 P2. induction cs as [|c cs IH]; intros H; [exists O; intros n _; exists [], []; repeat split; constructor|].
    destruct IH as (N1 & IH); [intros; apply H; right; assumption|]. destruct (H c (or_introl eq_refl)) as (G & Ck & Mx & Cz & Ci & cf & C).
    destruct (stream_chunk root cwd cwd_anc unpack parquet_open to_batches tar_open decode parsing_func Hb s table m Hs Hod Pm fl is_end is_none sh cpu (chunk_object c) a cf Hsh Ck G eq_refl Mx Ta C) as (N2 & HN); [intros Hd1; split; [exact Cz|]; split; [exact Ci|]; exact (P1 Hd1)|exact P2|].
    exists (Nat.max N1 N2). intros n Hn. destruct (IH n ltac:(lia)) as (outs & texts & I1 & I2 & I3). destruct (HN n ltac:(lia)) as (out & tx & J1 & J2 & _ & J3).
    exists (out :: outs), (map snd tx ++ texts). split; [|split].
    - constructor; [exists cf; auto|exact I1].
    - cbn [flat_map]. rewrite !map_app. apply Permutation_app; [|exact I2]. apply (Permutation_map snd) in J2. rewrite J2. unfold as_text. rewrite !map_map. reflexivity.
    - cbn [flat_map]. apply Forall2_app; [|exact I3]. change (rc_index (chunk_object c)) with (ChunkGenModel.rc_index c) in J3. rewrite <- keyed_rows_snd. apply Forall2_map_left.
      clear - J3. induction J3 as [|kx t l l' [_ H] F IH]; constructor; assumption.
  Qed.

  (** Iterating with arbitrary mixtures to the end: the texts that come are exactly the contents of the samples that match
      the query, each once.
      Partial as C72 and C05: with an even number of property combinations the iteration may not end.  With more than one
      reader, if the configurations are accepted (with one reader they always are: the hypothesis holds by [configure_one]). *)
  Theorem C73_everything_partial s cols sels idx table m fuel order h0 r0 son ops q os fl is_end is_none sh cpu (a : rargs A) :
    consistent s -> on_disk s -> table_ok cols (samples s) -> text_ok cols (samples s) -> query_ok cols sels ->
    result_table glt na cols sels (samples s) = Some table -> parse_meta s table = Ok m -> executes cols sels (samples s) (Some idx) ->
    Permutation order (map fst idx) -> arbitrary_heap h0 -> Forall (fun o => arbitrary_heap (op_heap o)) ops ->
    qrun (S fuel) ops (qr_init idx order h0 r0 son) = (q, os) -> In NStop os -> ~ In (NErr OutOfFuel) os ->
    shuffle_ok sh -> ra_type a = MSimple ->
    (1 < ra_dop a -> (forall x t, content s x t -> is_end t = false) /\ forall c, In c (chunks os) -> exists cf, configure fl (chunk_object c) a = Ok cf) ->
    (ra_prefetch a = true -> forall x t, content s x t -> is_none t = false) ->
    exists N, forall n, (N <= n)%nat -> exists outs ys texts,
      Forall2 (fun c out => exists cf, configure fl (chunk_object c) a = Ok cf /\ iterate fl (read_workload m) is_end is_none sh cpu n (chunk_object c) cf = (out, StopIter)) (chunks os) outs
      /\ Permutation (map snd (flat_map tags outs)) (map Text texts)
      /\ selects (matches na cols sels) (samples s) ys /\ Forall2 (fun x t => content s (fst x) t) ys texts.
  Proof using Hlt Hna Hk Hd Hf Hb.
    intros Hs Hod T X Q R Pm E Ho Ha0 Ha Hrun Hst Hn Hsh Ta P1 P2.
    assert (Hok : forall h, arbitrary_heap h -> heap_ok h) by (intros h Hh r; destruct (Hh r) as [-> H]; split; [split; constructor|lia]).
    assert (Hr : reachable (S fuel) idx order q os).
    { exists h0, r0, son, ops. split; [apply Hok, Ha0|]. split; [|exact Hrun]. rewrite Forall_forall in *. intros o Hi. apply Hok, Ha, Hi. }
    destruct (executed glt na itk itd itf Hlt Hna Hk Hd Hf cols sels (samples s) _ T X Q E) as (idx' & [= <-] & W & Ix & _ & M).
    destruct (C05_arbitrary_everything_partial fuel idx order h0 r0 son ops q os Ix Ho Ha Hrun) as (_ & Cs & _ & P & _). specialize (P Hst Hn).
    destruct (C72_delivers_everything_partial glt na itk itd itf Hlt Hna Hk Hd Hf cols sels (samples s) idx fuel order h0 r0 son ops q os T X Q E Ho Ha Hrun Hst Hn) as (D1 & D2).
    destruct (stream_all s table m fl is_end is_none sh cpu a (chunks os) Hs Hod Pm Hsh Ta) as (N & HN); [apply P1|exact P2| |].
    { intros c Hc. destruct (reachable_good _ _ _ _ _ _ _ _ _ _ T X Q R E Ho Hr Hc) as (G & Ck & Mx). destruct (Cs c Hc) as (k & p & Ei & L & Mn).
      split; [exact G|]. split; [exact Ck|]. split; [exact Mx|]. split; [lia|]. split; [rewrite Ei; discriminate|].
      destruct (Z.ltb_spec 1 (ra_dop a)) as [Ld|Ld]; [apply (P1 Ld), Hc|]. apply configure_one; [exact Ta|exact Ld|].
      exact Mn. }
    exists N. intros n Hn'. destruct (HN n Hn') as (outs & texts & I1 & I2 & I3).
    destruct (result_table_matching glt na Hna cols sels (samples s) T Q) as (ys & S & _).
    assert (PY : Permutation (flat_map (fun c => all_rows (ChunkGenModel.rc_index c)) (chunks os)) (map fst ys)).
    { apply NoDup_Permutation; [exact D1|exact (to_keys _ _ (sub_table_ok _ _ _ _ S T))|]. intros [[d f] i]. rewrite D2. split.
      - intros (r & R1 & R2). apply in_map_iff. exists ((d, f, i), r). split; [reflexivity|]. apply (selects_in _ _ _ _ S). auto.
      - intros H. apply in_map_iff in H as ([x r] & Ex & H). cbn in Ex. subst x. exists r. apply (selects_in _ _ _ _ S), H. }
    destruct (Forall2_perm _ _ _ PY _ I3) as (texts' & Q1 & Q2). exists outs, ys, texts'. split; [exact I1|]. split; [rewrite I2; apply Permutation_map, Q1|]. split; [exact S|].
    apply Forall2_map_left, Q2.
  Qed.
End C73.
Print Assumptions C73_metadata_partial.
Print Assumptions C73_chunk_contents_partial.
Print Assumptions C73_everything_partial.
