(** C70: registering a location indexes every sample of every data file of the location, once.  C71: which locations
    can be registered. *)
From Coq Require Import String.
From Verif Require Import Base MixtureKeyModel MixtureKeyProofs UtilsModel ChunkGenModel ParserModel SpecParser ParserProofs
  MdcModel SpecMdc MdcProofs ReaderModel SpecReader ReaderProofs FilesModel SpecFiles PropertiesParser PropertiesReader PropertiesMdc FilesProofs.
Open Scope Z_scope.

Definition rows_of (did : Z) (props : list mprop) (fm : (Z * str) * list (Z * record)) : list sample :=
  map (fun m => ((did, fst (fst fm), fst m), columns_of props (snd m))) (snd fm).
Lemma rows_of_filter did props l f :
  filter (fun r : sample => snd (fst (fst r)) =? f) (flat_map (rows_of did props) l)
  = flat_map (rows_of did props) (filter (fun fm => fst (fst fm) =? f) l).
Proof.
  induction l as [|fm l IH]; [reflexivity|]. cbn [flat_map filter]. rewrite filter_app, IH.
  destruct (fst (fst fm) =? f) eqn:E; cbn [flat_map].
  - f_equal. unfold rows_of. induction (snd fm) as [|m l' IH']; [reflexivity|]. cbn [map filter fst snd]. now rewrite E, IH'.
  - replace (filter _ (rows_of did props fm)) with (@nil sample); [reflexivity|]. unfold rows_of.
    induction (snd fm) as [|m l' IH']; [reflexivity|]. cbn [map filter fst snd]. now rewrite E, <- IH'.
Qed.

Section C70.
  Variables (root cwd : node) (cwd_anc : list node) (unpack : str -> str -> res str) (loads : str -> res pval)
    (parquet_open : str -> res (list (list pval))) (batches : list pval -> list (list pval))
    (tar_open : str -> res (list (list member))) (decode : list (str * str) -> res pval)
    (castable : list str -> list mprop -> list sample -> bool).
  Notation find := (find root cwd cwd_anc).
  Notation iterate_files := (iterate_files root cwd cwd_anc unpack loads parquet_open).
  Notation data_files := (data_files root cwd cwd_anc).
  Notation file_samples := (file_samples root cwd cwd_anc unpack loads parquet_open tar_open decode).
  Notation inform := (inform root cwd cwd_anc unpack loads parquet_open batches tar_open decode).
  Notation metadata_of := (metadata_of root cwd cwd_anc unpack loads parquet_open batches tar_open decode).
  Notation register_location := (register_location root cwd cwd_anc unpack loads parquet_open batches tar_open decode).

  (** Listing a directory gives its data files, each once: every entry with a data file's name and nothing else; a single
      file is listed as itself or refused; anything else is refused.  In particular the listing never fails on a
      directory. *)
  Theorem C70_listing c loc locs : absolute loc -> (forall es, find loc = Some (NDir es) -> good_dir es) ->
    iterate_files c loc = Ok locs -> data_files c loc locs.
  Proof. intros A G H. now apply (iterate_ok root cwd cwd_anc unpack loads parquet_open). Qed.
  Theorem C70_listing_total c loc es : c = JsonlDs \/ c = WebDs \/ c = ParquetDs -> absolute loc -> find loc = Some (NDir es) ->
    exists locs, iterate_files c loc = Ok locs.
  Proof. intros S A F. eexists. apply (iterate_dir root cwd cwd_anc unpack loads parquet_open c loc es); assumption. Qed.
  Theorem C70_single_file loc raw : absolute loc -> find loc = Some (NFile raw) -> wants_dir loc = false ->
    (iterate_files JsonlDs loc = Ok [loc] <->
       exists text ls vals, unpack loc raw = Ok text /\ text_lines text ls /\ map loads ls = map Ok vals) /\
    (iterate_files ParquetDs loc = Ok [loc] <-> exists groups, parquet_open raw = Ok groups) /\
    iterate_files WebDs loc = Ok [loc].
  Proof.
    intros A F W. assert (D : is_dir root cwd cwd_anc loc = Ok false).
    { unfold is_dir. rewrite from_path_absolute, F by assumption. reflexivity. }
    assert (B : open_bytes root cwd cwd_anc loc = Ok raw) by (unfold open_bytes; now rewrite F, W).
    split; [|split].
    - cbn [FilesModel.iterate_files]. rewrite D. cbn [negb andb]. rewrite (all_exts_file root cwd cwd_anc loc raw) by assumption.
      unfold is_valid_jsonl, open_file. rewrite from_path_absolute, B by assumption. cbn [negb].
      destruct (unpack loc raw) as [text|e]; cbn [negb].
      2:{ split; [discriminate|]. intros (t & l & v & [=] & _). }
      unfold local_file_iterable. set (f := fun l => match loads l with Ok _ => true | Err _ => false end).
      assert (X : forallb f (lines (text_mode text)) = true <-> exists vals, map loads (lines (text_mode text)) = map Ok vals).
      { generalize (lines (text_mode text)) as ls. induction ls as [|l ls IH]; cbn [forallb map]; [split; [now exists []|reflexivity]|].
        unfold f at 1. destruct (loads l) as [v|e]; cbn [andb].
        - rewrite IH. split; intros [vals E]; [exists (v :: vals); now rewrite E|]. destruct vals as [|w vals]; [discriminate|].
          exists vals. now injection E.
        - split; [discriminate|]. intros [[|w vals] E]; discriminate. }
      destruct (forallb f (lines (text_mode text))) eqn:E; cbn [negb app].
      + split; [intros _|reflexivity]. destruct (proj1 X eq_refl) as [vals V]. exists text, (local_file_iterable text), vals. split; [reflexivity|]. split; [apply text_lines_ex|exact V].
      + split; [discriminate|]. intros (t & ls & vals & [= <-] & TL & V). apply text_lines_fun in TL as ->. assert (Y : false = true) by (apply X; eauto). discriminate.
    - cbn [FilesModel.iterate_files]. rewrite D. unfold is_valid_parquet. rewrite B.
      destruct (parquet_open raw) as [g|e]; [split; [eauto|reflexivity]|]. split; [discriminate|]. intros [g [=]].
    - cbn [FilesModel.iterate_files]. rewrite D. unfold all_files_with_ext. rewrite from_path_absolute, F by assumption. reflexivity.
  Qed.
  Theorem C70_missing c loc : find loc = None -> exists e, iterate_files c loc = Err e.
  Proof. intros F. apply iterate_missing. now left. Qed.

  Lemma inform_ok c p recs : (forall l, concat (batches l) = l) -> absolute p -> inform c p = (recs, None) ->
    exists vals, file_samples c p vals /\ recs = numbered vals.
  Proof.
    intros B A H. destruct c; cbn [FilesModel.inform] in H; try discriminate.
    - unfold open_file in H. rewrite from_path_absolute in H by now apply absolute_norm. cbn [negb] in H.
      destruct (open_bytes root cwd cwd_anc (norm p)) as [raw|] eqn:O; [|discriminate].
      apply open_bytes_norm in O; [|assumption]. destruct O as [O _].
      destruct (unpack (norm p) raw) as [text|] eqn:U; [|discriminate].
      destruct (jsonl_inform_ok _ _ _ H) as (vals & M & E). exists vals. split; [|assumption]. exists raw. split; [assumption|]. exists text, (local_file_iterable text). split; [exact U|]. split; [apply text_lines_ex|exact M].
    - destruct (open_bytes root cwd cwd_anc (norm p)) as [raw|] eqn:O; [|discriminate].
      apply open_bytes_norm in O; [|assumption]. destruct O as [O _].
      destruct (tar_open raw) as [gs|] eqn:U; [|discriminate].
      destruct (web_inform_ok _ _ _ H) as (vals & M & E). exists vals. split; [|assumption]. exists raw. eauto.
    - destruct (open_bytes root cwd cwd_anc (norm p)) as [raw|] eqn:O; [|discriminate].
      apply open_bytes_norm in O; [|assumption]. destruct O as [O _].
      destruct (parquet_open raw) as [gs|] eqn:U; [|discriminate]. injection H as <-.
      exists (concat gs). split; [exists raw; eauto|]. unfold parquet_inform, numbered.
      change 0 with (Z.of_nat 0). rewrite (inform_from_ok (batches (concat gs)) 0), B. reflexivity.
  Qed.
  Lemma inform_complete c p vals : (forall l, concat (batches l) = l) -> absolute p -> parts p <> [] ->
    file_samples c p vals -> inform c p = (numbered vals, None).
  Proof.
    intros B A N (raw & F & H). assert (O : open_bytes root cwd cwd_anc (norm p) = Ok raw) by (apply open_bytes_norm; auto).
    destruct c; cbn [FilesModel.inform]; try contradiction.
    - destruct H as (text & ls & U & TL & M). apply text_lines_fun in TL as ->. unfold open_file. rewrite from_path_absolute by now apply absolute_norm. cbn [negb].
      rewrite O, U. now apply jsonl_inform_complete.
    - destruct H as (gs & U & M). rewrite O, U. now apply web_inform_complete.
    - destruct H as (gs & U & <-). rewrite O, U. unfold parquet_inform, numbered.
      change 0 with (Z.of_nat 0). rewrite (inform_from_ok (batches (concat gs)) 0), B. reflexivity.
  Qed.
  Definition metadata_row (p : parser) (pm : list (str * mprop)) (iv : Z * pval) (im : Z * record) : Prop :=
    parse_one p pm [] (fst iv) (snd iv) = ([snd im], None) /\ fst im = fst iv.
  Lemma metadata_of_ok c reg pname p pm path m : (forall l, concat (batches l) = l) -> absolute path ->
    aget str_eqb pname reg = Some p -> good_schema (ps_props p) -> parser_init (ps_props p) = POk pm ->
    metadata_of c reg pname path = Ok m ->
    exists vals, file_samples c path vals /\ Forall2 (metadata_row p pm) (numbered vals) m.
  Proof.
    intros B A P G I H. unfold FilesModel.metadata_of, create_parser in H. rewrite P, I in H. cbn [pbind] in H. cbv zeta in H.
    destruct (inform c path) as [recs e] eqn:E. cbn [fst snd] in H.
    destruct (parse_all p pm [] recs) as [store [er|]] eqn:PA; [discriminate|]. destruct e; [discriminate|]. injection H as <-.
    destruct (inform_ok c path recs B A E) as (vals & FS & ->). exists vals. split; [assumption|].
    destruct (parse_all_ok _ _ _ _ _ PA) as (rs & -> & F). cbn [app].
    clear - F G I. induction F as [|iv r recs rs E F IH]; cbn [map]; constructor; [|assumption].
    destruct (parse_one_record p pm _ _ r G I E) as [S _]. split; cbn [fst snd]; assumption.
  Qed.
  Lemma listed_absolute c loc locs path : absolute loc -> iterate_files c loc = Ok locs -> In path locs -> absolute path.
  Proof.
    intros A H I. assert (S : supported c) by (destruct c; cbn in H; try discriminate; unfold supported; auto).
    destruct (find loc) as [[raw|es]|] eqn:F.
    - destruct (iterate_file root cwd cwd_anc unpack loads parquet_open c loc raw S A F) as [E|[e E]]; rewrite E in H; [|discriminate].
      injection H as <-. destruct I as [<-|[]]. assumption.
    - rewrite (iterate_dir root cwd cwd_anc unpack loads parquet_open c loc es S A F) in H. injection H as <-.
      apply in_map_iff in I. destruct I as (e & <- & _). now apply absolute_child.
    - destruct (iterate_missing root cwd cwd_anc unpack loads parquet_open c loc (or_introl F)) as [e E]. rewrite E in H. discriminate.
  Qed.

  (** A successful registration: the new dataset's files are the data files of the location, each once, under fresh
      distinct ids; and the samples of each file are its lines (rows, groups), numbered from 0 in the file's order, each
      once and with what the parser found in it.  The rows of all other files are what they were. *)
  Theorem C70_registration s name loc c func reg pname p tr : consistent s -> absolute loc ->
    (forall es, find loc = Some (NDir es) -> good_dir es) -> (forall l, concat (batches l) = l) ->
    aget str_eqb pname reg = Some p -> good_schema (ps_props p) ->
    register_location castable s name loc c func reg pname = (tr, Done true) ->
    let s' := last_db s tr in
    exists pm rows, parser_init (ps_props p) = POk pm /\
      datasets s' = datasets s ++ [(next_dataset s, (name, DInfo loc (type_id c) func))] /\
      files s' = files s ++ map (fun f => (fst f, (next_dataset s, snd f))) rows /\
      NoDup (map fst (files s')) /\ iterate_files c loc = Ok (map snd rows) /\ data_files c loc (map snd rows) /\
      (forall f path, In (f, path) rows -> exists vals, file_samples c path vals /\
         Forall2 (indexed p pm (next_dataset s) f) (numbered vals) (filter (fun r => snd (fst (fst r)) =? f) (samples s'))) /\
      (forall f, ~ In f (map fst rows) ->
         filter (fun r => snd (fst (fst r)) =? f) (samples s') = filter (fun r => snd (fst (fst r)) =? f) (samples s)).
  Proof.
    intros C A GD B P GS H s'. assert (H0 := H). unfold FilesModel.register_location in H. rewrite P in H. cbn [option_map] in H.
    destruct (C45_add_metadata (ps_props p) [] 0 [] GS) as (pm & I & _).
    destruct (C35_register castable (metadata_of c reg pname) s name _ _ _ _ tr C H) as (locs & props & metas & E1 & E2 & E3 & E4 & E5 & E6 & E7 & E8 & _).
    { intros locs E. destruct (iterate_ok root cwd cwd_anc unpack loads parquet_open c loc locs A GD E) as [_ [N _]]. exact N. }
    injection E3 as <-. fold s' in E6, E7, E8. exists pm, (new_files s locs).
    destruct (iterate_ok root cwd cwd_anc unpack loads parquet_open c loc locs A GD E1) as [S DF].
    assert (LM : length locs = length metas) by (rewrite <- (map_length (metadata_of c reg pname) locs), E5; apply map_length).
    assert (SN : map snd (new_files s locs) = locs).
    { unfold new_files. clear. generalize 0%nat as k. induction locs as [|l locs IH]; intros k; [reflexivity|].
      cbn [length seq map combine snd]. now rewrite IH. }
    assert (FN : map fst (new_files s locs) = map (fun k => next_file s + Z.of_nat k) (seq 0 (length locs))).
    { unfold new_files. clear. generalize 0%nat as k. induction locs as [|l locs IH]; intros k; [reflexivity|].
      cbn [length seq map combine fst]. now rewrite IH. }
    assert (NDF : NoDup (map fst (new_files s locs))).
    { rewrite FN. apply FinFun.Injective_map_NoDup; [intros a b; lia|apply seq_NoDup]. }
    assert (GE : forall f, In f (map fst (new_files s locs)) -> next_file s <= f).
    { intros f. rewrite FN, in_map_iff. intros (k & <- & _). lia. }
    destruct C as (C1 & C2 & C3 & C4 & C5 & C6 & C7).
    split; [assumption|]. split; [assumption|]. split; [assumption|]. split.
    { rewrite E7, map_app, map_map. cbn [fst]. apply NoDup_app_disjoint; [assumption|exact NDF|].
      intros f If Jf. apply in_map_iff in If. destruct If as ([f' [d l]] & <- & If). apply C5 in If. cbn [fst] in *.
      specialize (GE f' Jf). lia. }
    split; [now rewrite SN|]. split; [now rewrite SN|].
    assert (OLD : forall f, In f (map fst (new_files s locs)) -> filter (fun r : sample => snd (fst (fst r)) =? f) (samples s) = []).
    { intros f If. apply GE in If. assert (X : forall r, In r (samples s) -> snd (fst (fst r)) < next_file s).
      { intros [[[d f'] i] r] Ir. apply C6 in Ir. destruct Ir as [l Ir]. apply C5 in Ir. apply Ir. }
      clear - If X. induction (samples s) as [|r l IH]; [reflexivity|]. cbn [filter]. replace (_ =? f) with false.
      - apply IH. intros r' I. apply X. now right.
      - specialize (X r (or_introl eq_refl)). lia. }
    set (mk := rows_of (next_dataset s) (ps_props p)). change (samples s' = samples s ++ flat_map mk (combine (new_files s locs) metas)) in E8.
    assert (FA : forall f, filter (fun r : sample => snd (fst (fst r)) =? f) (samples s')
      = filter (fun r : sample => snd (fst (fst r)) =? f) (samples s)
        ++ flat_map mk (filter (fun fm => fst (fst fm) =? f) (combine (new_files s locs) metas))).
    { intros f. rewrite E8. etransitivity; [apply (filter_app (A := sample))|]. f_equal. apply rows_of_filter. }
    assert (LN : length (new_files s locs) = length metas) by (rewrite <- (map_length snd), SN; assumption).
    split.
    - intros f path Ifp. rewrite FA, (OLD f) by (now apply (in_map fst) in Ifp). cbn [app].
      assert (X : exists m, In (path, m) (combine locs metas) /\ filter (fun fm => fst (fst fm) =? f) (combine (new_files s locs) metas) = [((f, path), m)]).
      { clear - Ifp NDF LN SN. revert Ifp NDF LN SN. generalize (new_files s locs) as fl. revert locs.
        induction metas as [|m ms IH]; intros locs fl Ifp ND LN SN; (destruct fl as [|[g q] fl]; [destruct Ifp || discriminate|]); [discriminate|].
        destruct locs as [|l locs]; [discriminate|]. cbn [map fst snd combine filter] in *. injection SN as -> SN. injection LN as LN. inversion ND; subst.
        destruct Ifp as [[= -> ->]|Ifp].
        - exists m. split; [now left|]. rewrite Z.eqb_refl. f_equal. clear - H1. revert ms. induction fl as [|x fl IH]; intros [|m' ms]; [reflexivity..|].
          cbn [combine filter fst] in *. replace (fst x =? f) with false; [apply IH; intros I; apply H1; now right|].
          symmetry. apply Z.eqb_neq. intros E. apply H1. now left.
        - replace (g =? f) with false.
          + destruct (IH (map snd fl) fl Ifp H2 LN eq_refl) as (m' & I & E). exists m'. split; [now right|assumption].
          + symmetry. apply Z.eqb_neq. intros ->. apply H1. now apply (in_map fst) in Ifp. }
      destruct X as (m & IM & ->). cbn [flat_map]. rewrite app_nil_r. unfold mk, rows_of. cbn [fst snd].
      assert (MO : metadata_of c reg pname path = Ok m).
      { clear - E5 IM. revert metas E5 IM. induction locs as [|l locs IH]; intros [|m' ms] E5 IM; try destruct IM. 
        - injection E5 as E _. injection H as -> ->. exact E.
        - injection E5 as _ E5. eapply IH; eassumption. }
      assert (AP : absolute path).
      { apply (listed_absolute c loc locs); [assumption|assumption|]. now apply (in_combine_l) in IM. }
      destruct (metadata_of_ok c reg pname p pm path m B AP P GS I MO) as (vals & FS & F). exists vals. split; [assumption|].
      clear - F GS I. induction F as [|iv im ivs ims [E1 E2] F IH]; cbn [map]; constructor; [|assumption].
      unfold indexed. cbn [fst snd]. split; [now rewrite E2|]. exists (snd im). split; [assumption|].
      unfold columns_of. rewrite map_map. cbn [fst]. split; [reflexivity|]. intros q Q.
      destruct (parse_one_record p pm _ _ _ GS I E1) as [_ X]. destruct (X q Q) as [w W]. exists w. split; [assumption|].
      rewrite (aget_map_name (ps_props p) (fun q => match aget str_eqb (p_name q) (snd im) with Some v => v | None => PNone end) q) by (assumption || apply GS).
      now rewrite W.
    - intros f Nf. rewrite FA.
      replace (filter (fun fm => fst (fst fm) =? f) (combine (new_files s locs) metas)) with (@nil (Z * str * list (Z * record))); [apply app_nil_r|].
      clear - Nf. generalize dependent (new_files s locs). intros fl Nf. revert metas. induction fl as [|x fl IH]; intros [|m ms]; [reflexivity..|].
      cbn [combine filter fst]. replace (fst x =? f) with false; [apply IH; intros I; apply Nf; now right|].
      symmetry. apply Z.eqb_neq. intros E. apply Nf. now left.
  Qed.

  (** When it succeeds: the name is free, there is at least one data file, and the parser accepts every sample of every
      data file. *)
  Theorem C70_succeeds s name loc c func reg pname p pm es : consistent s -> ~ In name (list_datasets s) -> absolute loc ->
    c = JsonlDs \/ c = WebDs \/ c = ParquetDs -> (exists es, root = NDir es) -> find loc = Some (NDir es) -> good_dir es ->
    (forall l, concat (batches l) = l) -> aget str_eqb pname reg = Some p -> good_schema (ps_props p) ->
    parser_init (ps_props p) = POk pm -> (forall cols rows, castable cols (ps_props p) rows = true) ->
    (exists n, In n (map fst es) /\ data_name c n) ->
    (forall n, In n (map fst es) -> data_name c n -> exists vals, file_samples c (child loc n) vals /\
       forall i v, In (i, v) (numbered vals) -> exists r, parse_one p pm [] i v = ([r], None)) ->
    snd (register_location castable s name loc c func reg pname) = Done true.
  Proof.
    intros C NN A S [res RD] F GD B P GS I CA NE ALL. unfold FilesModel.register_location. rewrite P. cbn [option_map].
    rewrite (iterate_dir root cwd cwd_anc unpack loads parquet_open c loc es S A F).
    replace (negb (type_id c =? 0)) with true by (destruct S as [-> | [-> | ->]]; reflexivity).
    apply C35_register_succeeds; try assumption.
    - destruct NE as (n & In_ & D). apply data_name_exts in D. apply in_map_iff in In_. destruct In_ as (e & <- & In_).
      intros X. apply map_eq_nil in X. assert (Y : In e (named_list (exts_of c) es)) by (apply named_list_in; auto).
      rewrite X in Y. destruct Y.
    - apply (listing_data_files root cwd cwd_anc c loc es A F GD).
    - intros q Q. destruct GS as [_ GS]. rewrite Forall_forall in GS. apply (GS q Q).
    - intros path Ip. apply in_map_iff in Ip. destruct Ip as (e & <- & Ie). apply named_list_in in Ie. destruct Ie as [Ie D].
      destruct (ALL (fst e)) as (vals & FS & PA); [now apply in_map|now apply data_name_exts|].
      assert (GN : good_name (fst e)). { destruct GD as [_ GD]. rewrite Forall_forall in GD. apply GD. now apply in_map. }
      assert (X : exists rs, Forall2 (fun iv r => parse_one p pm [] (fst iv) (snd iv) = ([r], None)) (numbered vals) rs).
      { clear - PA. induction (numbered vals) as [|[i v] l IH]; [exists []; constructor|].
        destruct (PA i v (or_introl eq_refl)) as [r R]. destruct IH as [rs X]; [intros; apply PA; now right|].
        exists (r :: rs). constructor; assumption. }
      destruct X as [rs X]. exists (map (fun r => (sample_number r, r)) rs). split.
      + unfold FilesModel.metadata_of, create_parser. rewrite P, I. cbn [pbind]. cbv zeta.
        rewrite (inform_complete c _ vals); [|assumption|now apply absolute_child| |assumption].
        2:{ rewrite parts_child by assumption. now destruct (parts loc). }
        cbn [fst snd]. now rewrite (parse_all_complete p pm _ rs X []).
      + rewrite map_map. cbn [fst]. change (NoDup (map sample_number rs)). replace (map sample_number rs) with (map fst (numbered vals)).
        * unfold numbered. rewrite map_fst_combine_seq by reflexivity. rewrite zrange_seq.
          apply FinFun.Injective_map_NoDup; [intros a b; lia|apply seq_NoDup].
        * clear - X GS I. induction X as [|iv r l rs E X IH]; [reflexivity|]. cbn [map]. rewrite IH. f_equal.
          symmetry. apply (parse_one_record p pm _ _ r GS I E).
  Qed.

  (** The number under which a sample is indexed is the row under which the readers find it again. *)
  Theorem C70_row_is_sample c path vals raw : file_samples c path vals -> find path = Some (NFile raw) ->
    match c with
    | JsonlDs => exists text, unpack (norm path) raw = Ok text /\
        forall i v, In (i, v) (numbered vals) -> jsonl_read_file loads (local_file_iterable text) [(i, i + 1)] = ([v], None)
    | ParquetDs => exists groups, parquet_open raw = Ok groups /\ forall to_batches, (forall l, concat (to_batches l) = l) ->
        forall i v, In (i, v) (numbered vals) -> parquet_read_file to_batches Ok groups [(i, i + 1)] = ([v], None)
    | WebDs => exists groups, tar_open raw = Ok groups /\
        forall i v, In (i, v) (numbered vals) -> web_read_file decode Ok groups [(i, i + 1)] = ([v], None)
    | _ => False
    end.
  Proof.
    intros (raw' & F & H) F'. rewrite F in F'. injection F' as ->. destruct c; try contradiction.
    - destruct H as (text & ls & U & TL & M). apply text_lines_fun in TL as ->. exists text. split; [assumption|]. intros i v I.
      assert (J := jsonl_inform_complete loads (local_file_iterable text) vals M).
      destruct (C56_jsonl loads (local_file_iterable text)) as [_ X]; [now rewrite J|]. apply X. now rewrite J.
    - destruct H as (gs & U & M). exists gs. split; [assumption|]. intros i v I.
      assert (J := web_inform_complete decode gs vals M). destruct (C56_web decode gs) as [_ X]; [now rewrite J|]. apply X. now rewrite J.
    - destruct H as (gs & U & <-). exists gs. split; [assumption|]. intros tb TB i v I.
      destruct (C56_parquet (fun l => [l]) tb gs) as [_ X]; [intros; apply app_nil_r|assumption|]. apply X.
      unfold parquet_inform. change 0 with (Z.of_nat 0). rewrite (inform_from_ok [concat gs] 0). cbn [concat]. rewrite app_nil_r. exact I.
  Qed.

  (** The type id stored with a dataset leads back to its class; other classes cannot be registered. *)
  Theorem C70_type_ids c : (c = JsonlDs \/ c = WebDs \/ c = ParquetDs -> from_type_id (type_id c) = Ok c) /\
    (forall i, from_type_id i = Ok c -> type_id c = i) /\
    (forall s name loc func reg pname tr o, ~ (c = JsonlDs \/ c = WebDs \/ c = ParquetDs) -> 
       register_location castable s name loc c func reg pname = (tr, o) -> o <> Done true).
  Proof.
    split; [intros [-> | [-> | ->]]; reflexivity|]. split.
    - intros i H. unfold from_type_id in H.
      destruct (i =? 1) eqn:E1; [injection H as <-; cbn; lia|]. destruct (i =? 3) eqn:E3; [injection H as <-; cbn; lia|].
      destruct (i =? 4) eqn:E4; [injection H as <-; cbn; lia|]. destruct (i =? 0) eqn:E0; [injection H as <-; cbn; lia|].
      destruct (i =? 2); discriminate.
    - intros s name loc func reg pname tr o N H. destruct c; try (exfalso; apply N; auto; fail).
      + unfold FilesModel.register_location in H. cbn [type_id] in H. injection H as <- <-. discriminate.
      + unfold FilesModel.register_location, register in H. cbn [type_id FilesModel.iterate_files] in H. change (2 =? 0) with false in H. cbn [negb] in H.
        destruct (insert_dataset _ _ _) as [[? ?]|]; injection H as <- <-; discriminate.
  Qed.

  (** ** C71 *)
  (** An absolute location with data files can be registered (this is C70_succeeds, restated without the parser's
      details); a file:// location cannot (below), and failures cost the name (below). *)
  Theorem C71_absolute_location_partial s name loc c func reg pname p pm es : consistent s -> ~ In name (list_datasets s) -> absolute loc ->
    c = JsonlDs \/ c = WebDs \/ c = ParquetDs -> (exists es, root = NDir es) -> find loc = Some (NDir es) -> good_dir es ->
    (forall l, concat (batches l) = l) -> aget str_eqb pname reg = Some p -> good_schema (ps_props p) ->
    parser_init (ps_props p) = POk pm -> (forall cols rows, castable cols (ps_props p) rows = true) ->
    (exists n, In n (map fst es) /\ data_name c n) ->
    (forall n, In n (map fst es) -> data_name c n -> exists vals, file_samples c (child loc n) vals /\
       forall i v, In (i, v) (numbered vals) -> exists r, parse_one p pm [] i v = ([r], None)) ->
    exists tr, register_location castable s name loc c func reg pname = (tr, Done true) /\
      In name (list_datasets (last_db s tr)) /\
      forall loc' c' func' reg' pname',
        register_location castable (last_db s tr) name loc' c' func' reg' pname' = ([], Done false).
  Proof.
    intros C N A S R F GD B P GS I CA NE ALL.
    assert (H := C70_succeeds s name loc c func reg pname p pm es C N A S R F GD B P GS I CA NE ALL).
    destruct (register_location castable s name loc c func reg pname) as [tr o] eqn:E. cbn [snd] in H. subst o. exists tr.
    split; [reflexivity|].
    assert (X : In name (list_datasets (last_db s tr))).
    { destruct (C70_registration s name loc c func reg pname p tr C A) as (pm' & rows & _ & D & _); try assumption.
      { intros es' F'. rewrite F in F'. injection F' as <-. assumption. }
      unfold list_datasets. rewrite D, map_app. apply in_or_app. right. now left. }
    split; [assumption|]. intros loc' c' func' reg' pname'. apply C35_duplicate_refused. now left.
  Qed.
  (** A location that is missing, or given as a relative path, raises -- and the name stays taken, so that registering
      the right location under that name is refused from then on. *)
  Theorem C71_bad_location_refuted s name loc c func reg pname : ~ In name (list_datasets s) -> c <> GenericDs ->
    find loc = None \/ from_path loc = false ->
    exists tr, register_location castable s name loc c func reg pname = (tr, Raised) /\
      forall loc' c' func' reg' pname',
        register_location castable (last_db s tr) name loc' c' func' reg' pname' = ([], Done false).
  Proof.
    intros N G B. destruct (iterate_missing root cwd cwd_anc unpack loads parquet_open c loc B) as [e E].
    unfold FilesModel.register_location. rewrite E. unfold register at 1.
    replace (negb (type_id c =? 0)) with true by (destruct c; reflexivity || contradiction). cbn [negb].
    unfold insert_dataset at 1. assert (X : exists_dataset s name = false).
    { destruct (exists_dataset s name) eqn:X; [|reflexivity]. exfalso. apply N. now apply exists_dataset_in. }
    rewrite X. eexists. split; [reflexivity|]. intros loc' c' func' reg' pname'. apply C35_duplicate_refused. left.
    unfold last_db, list_datasets. cbn [last incr_version datasets]. rewrite map_app. apply in_or_app. right. now left.
  Qed.
  (** A file:// location is accepted by the file system layer but no JSONL dataset can be registered there, whatever lies
      in the file tree. *)
  Theorem C71_file_url_refuted s name q func reg pname tr o : consistent s ->
    from_path (lit "file://" ++ q) = true /\
    (register_location castable s name (lit "file://" ++ q) JsonlDs func reg pname = (tr, o) -> o <> Done true).
  Proof.
    intros C. split.
    { unfold from_path. replace (has_prefix (lit "file://") _) with true; [reflexivity|]. symmetry. apply has_prefix_spec. eauto. }
    intros H ->. unfold FilesModel.register_location in H.
    destruct (register_done castable _ s name _ _ _ _ tr C H) as (locs & props & metas & E1 & E2 & _ & _ & E5 & _).
    destruct locs as [|l locs]; [contradiction|]. destruct metas as [|m metas]; [discriminate|]. cbn [map] in E5. injection E5 as E5 _.
    set (loc := lit "file://" ++ q) in *.
    assert (PL : exists ps, parts loc = lit "file:" :: ps /\ Forall component ps).
    { exists (parts (slash :: q)). split; [|apply parts_components]. unfold loc.
      change (lit "file://" ++ q) with (lit "file:" ++ slash :: slash :: q). unfold parts. rewrite split_slash_app, filter_app.
      reflexivity. }
    destruct PL as (ps & PL & CP).
    assert (NA : ~ absolute loc) by (intros [x X]; unfold loc in X; vm_compute in X; discriminate).
    assert (L : exists ps', parts l = lit "file:" :: ps' /\ Forall component ps' /\ ~ absolute l).
    { cbn [FilesModel.iterate_files] in E1. destruct (is_dir root cwd cwd_anc loc) as [dir|]; [|discriminate].
      destruct (negb dir && _); [discriminate|].
      assert (X : forall exts r, all_files_with_exts root cwd cwd_anc loc exts = Ok r -> In l r ->
        exists n, l = child loc n).
      { clear. induction exts as [|ext exts IH]; cbn [all_files_with_exts]; intros r H I; [injection H as <-; destruct I|].
        destruct (all_files_with_ext root cwd cwd_anc loc ext) as [l1|] eqn:E; [|discriminate].
        destruct (all_files_with_exts root cwd cwd_anc loc exts) as [l2|] eqn:E2; [|discriminate]. injection H as <-.
        apply in_app_or in I. destruct I as [I|I]; [|eapply IH; [reflexivity|assumption]].
        unfold all_files_with_ext in E. destruct (negb _); [discriminate|]. destruct (find loc) as [[raw|es]|]; [|injection E as <-|discriminate].
        - injection E as <-. destruct I.
        - apply in_map_iff in I. destruct I as (e & <- & _). eauto. }
      destruct (all_files_with_exts root cwd cwd_anc loc jsonl_exts) as [r|] eqn:E; [|discriminate]. injection E1 as E1.
      destruct dir; cbn [app] in E1.
      - destruct (X _ _ E) as [n ->]; [rewrite E1; now left|]. unfold child. rewrite (root_of_relative loc NA), PL. cbn [app].
        assert (PR : forall a l, component a -> exists ps', parts (join_slash (a :: l)) = a :: ps' /\ Forall component ps').
        { clear. intros a l [K NS]. destruct l as [|b l].
          - exists []. split; [|constructor]. cbn [join_slash]. unfold parts. rewrite split_slash_no by assumption. cbn. now rewrite K.
          - exists (parts (join_slash (b :: l))). split; [|apply parts_components].
            change (join_slash (a :: b :: l)) with (a ++ slash :: join_slash (b :: l)). unfold parts.
            rewrite split_slash_app, filter_app, (split_slash_no a) by assumption. cbn. now rewrite K. }
        destruct (PR (lit "file:") (ps ++ [n])) as (ps' & Y & Z).
        { split; [reflexivity|]. vm_compute. intuition discriminate. }
        exists ps'. split; [assumption|]. split; [assumption|]. intros [x W].
        destruct (ps ++ [n]); vm_compute in W; discriminate.
      - injection E1 as <- _. eauto. }
    destruct L as (ps' & PP & CP' & NL).
    unfold FilesModel.metadata_of in E5. destruct (create_parser reg pname) as [[p pm]|]; [|discriminate]. cbv zeta in E5.
    cbn [FilesModel.inform] in E5. unfold open_file in E5.
    assert (FP : from_path (norm l) = false).
    { unfold norm. rewrite (root_of_relative l NL), PP. cbn [app]. destruct ps' as [|c ps'']; [reflexivity|].
      change (join_slash (lit "file:" :: c :: ps'')) with (lit "file:/" ++ join_slash (c :: ps'')).
      assert (J : ~ absolute (join_slash (c :: ps''))) by now apply join_slash_no_lead.
      change (match lit "file:/" ++ join_slash (c :: ps'') with [] => lit "." | z :: q0 => z :: q0 end) with (lit "file:/" ++ join_slash (c :: ps'')).
      unfold from_path. apply orb_false_iff. split; apply not_true_is_false; intros X; apply has_prefix_spec in X; destruct X as [t X].
      - apply J. change (lit "file://" ++ t) with (lit "file:/" ++ slash :: t) in X. apply app_inv_head in X. now exists t.
      - vm_compute in X. discriminate. }
    rewrite FP in E5. cbn [negb fst snd parse_all] in E5. discriminate.
  Qed.
  (** A subdirectory whose name looks like a data file makes the registration of the directory fail. *)
  Theorem C71_directory_entry_refuted s name loc c func reg pname p tr o es n sub : consistent s -> absolute loc ->
    find loc = Some (NDir es) -> good_dir es -> (forall l, concat (batches l) = l) ->
    aget str_eqb pname reg = Some p -> good_schema (ps_props p) ->
    In (n, NDir sub) es -> data_name c n ->
    register_location castable s name loc c func reg pname = (tr, o) -> o <> Done true.
  Proof.
    intros C A F GD B P GS In_ D H ->.
    destruct (C70_registration s name loc c func reg pname p tr C A) as (pm & rows & _ & _ & _ & _ & _ & DF & FS & _); try assumption.
    { intros es' F'. rewrite F in F'. injection F' as <-. assumption. }
    destruct DF as [_ DF]. rewrite F in DF. destruct DF as (names & _ & NM & F2).
    assert (X : In n names) by (apply NM; split; [now apply (in_map fst) in In_|assumption]).
    assert (Y : exists path, In path (map snd rows) /\ exists x, In (n, x) es /\ find path = Some x).
    { clear - X F2. induction F2 as [|n' path' ns ps H F2 IH]; [destruct X|]. destruct X as [->|X].
      - exists path'. split; [now left|assumption].
      - destruct (IH X) as (path & I & J). exists path. split; [now right|assumption]. }
    destruct Y as (path & Ip & x & Ix & Fx). apply in_map_iff in Ip. destruct Ip as ([f path'] & E & Ip). cbn [snd] in E. subst path'.
    destruct (FS f path Ip) as (vals & (raw & Fr & _) & _). rewrite Fr in Fx. injection Fx as <-.
    destruct GD as [ND _]. apply (aget_in_nodup _ _ _ ND) in Ix, In_. rewrite Ix in In_. discriminate.
  Qed.
End C70.

(** ** A concrete location: two data files, one of them compressed, a file of another kind and a nested data file *)
Definition ex_loads (l : str) : res pval :=
  if has_prefix (lit "{") l then Ok (PDict [(lit "dump", PStr l); (lit "language", PStr (lit "en"))]) else Err ValueError.
Definition ex_entries : list (str * node) :=
  [(lit "a.jsonl", NFile (lit "{1" ++ [10] ++ lit "{2" ++ [10])); (lit "README", NFile (lit "hi"));
   (lit "b.jsonl.gz", NFile (lit "{3")); (lit "sub", NDir [(lit "c.jsonl", NFile (lit "{4"))])].
Definition ex_root : node := NDir [(lit "data", NDir ex_entries); (lit "bad", NDir [(lit "x.jsonl", NDir [])]);
                                   (lit "one.jsonl", NFile (lit "{5")); (lit "broken.jsonl", NFile (lit "oops"))].
Definition ex_register (s : db) (name loc : str) : list db * outcome :=
  register_location ex_root ex_root [] (fun _ raw => Ok raw) ex_loads (fun _ => Err ValueError) (fun l => [l]) (fun _ => Err ValueError)
    (fun _ => Err ValueError) (fun _ _ _ => true) s name loc JsonlDs [] (builtin (fun _ => [])) (lit "FINEWEB").
Example C70_example :
  let (tr, o) := ex_register init_db (lit "d") (lit "//data/./") in
  o = Done true /\
  files (last_db init_db tr) = [(1, (1, lit "//data/a.jsonl")); (2, (1, lit "//data/b.jsonl.gz"))] /\
  map fst (samples (last_db init_db tr)) = [(1, 1, 0); (1, 1, 1); (1, 2, 0)] /\
  map (fun r => aget str_eqb (lit "dump") (snd r)) (samples (last_db init_db tr))
    = [Some (PStr (lit "{1" ++ [10])); Some (PStr (lit "{2" ++ [10])); Some (PStr (lit "{3"))] /\
  snd (ex_register init_db (lit "d") (lit "/one.jsonl")) = Done true /\
  map snd (files (last_db init_db (fst (ex_register init_db (lit "d") (lit "/data/../one.jsonl"))))) = [(1, lit "/data/../one.jsonl")] /\
  snd (ex_register init_db (lit "d") (lit "/broken.jsonl")) = Raised /\
  snd (ex_register init_db (lit "d") (lit "/one.jsonl/")) = Raised /\
  snd (ex_register init_db (lit "d") (lit "/nowhere")) = Raised /\
  snd (ex_register init_db (lit "d") (lit "data")) = Raised /\
  snd (ex_register init_db (lit "d") (lit "file:///data")) = Raised /\
  snd (ex_register init_db (lit "d") (lit "/bad")) = Raised.
Proof. vm_compute. repeat split. Qed.
Example C70_hypotheses_hold :
  consistent init_db /\ absolute (lit "/data") /\ find ex_root ex_root [] (lit "/data") = Some (NDir ex_entries) /\ good_dir ex_entries /\
  data_name JsonlDs (lit "b.jsonl.gz") /\ good_schema fineweb_props /\
  file_samples ex_root ex_root [] (fun _ raw => Ok raw) ex_loads (fun _ => Err ValueError) (fun _ => Err ValueError) (fun _ => Err ValueError)
    JsonlDs (lit "/data/b.jsonl.gz") [PDict [(lit "dump", PStr (lit "{3")); (lit "language", PStr (lit "en"))]].
Proof.
  split.
  { unfold consistent, init_db, list_datasets. cbn. repeat split; try constructor; intros; contradiction. }
  split; [now exists (lit "data")|]. split; [reflexivity|]. split.
  { split.
    - repeat (constructor; [vm_compute; intuition discriminate|]). constructor.
    - repeat (constructor; [vm_compute; intuition discriminate|]). constructor. }
  split. { exists (lit "b"), (lit ".jsonl.gz"). split; [reflexivity|]. right. now left. }
  split. { apply (C45_builtin_schemas (fun _ => []) (lit "FINEWEB") fineweb). cbn [In builtin]. auto 8. }
  exists (lit "{3"). split; [reflexivity|]. exists (lit "{3"), [lit "{3"]. split; [reflexivity|]. split; [|reflexivity].
  apply tl_rest; [vm_compute; discriminate|]. split; vm_compute; intuition discriminate.
Qed.
Print Assumptions C70_listing.
Print Assumptions C70_listing_total.
Print Assumptions C70_single_file.
Print Assumptions C70_missing.
Print Assumptions C70_registration.
Print Assumptions C70_succeeds.
Print Assumptions C70_row_is_sample.
Print Assumptions C70_type_ids.
Print Assumptions C71_absolute_location_partial.
Print Assumptions C71_bad_location_refuted.
Print Assumptions C71_file_url_refuted.
Print Assumptions C71_directory_entry_refuted.
