(** C73, continued: where the hypotheses of PropertiesDeliver come from: registering and removing datasets keep every
    registered sample readable.  Concrete cases: PropertiesDeliver3. *)
From Coq Require Import String.
From Verif Require Import Base MixtureKeyModel MixtureKeyProofs UtilsModel ChunkGenModel ParserModel SpecParser MdcModel SpecMdc PropertiesMdc ReaderModel SpecReader FilesModel SpecFiles FilesProofs PropertiesFiles
  DeliverModel SpecDeliver DeliverProofs.
Open Scope Z_scope.

(** ** Paths a directory listing yields *)
Lemma norm_child d n : absolute d -> good_name n -> norm (child d n) = child d n.
Proof.
  intros A G. unfold norm. rewrite parts_child by exact G. unfold child.
  set (x := join_slash (parts d ++ [n])).
  assert (NL : ~ absolute x) by (apply join_slash_no_lead, Forall_app; split; [apply parts_components|constructor; [apply good_name_component, G|constructor]]).
  assert (R : root_of (root_of d ++ x) = root_of d).
  { assert (P : forall c y, c :: y = x -> c =? slash = false) by (intros c y E; apply Z.eqb_neq; intros ->; apply NL; exists y; congruence).
    unfold slash in P. destruct (root_of_cases d A) as [->| ->]; unfold root_of, has_prefix; change (lit "///") with [47; 47; 47]; change (lit "//") with [47; 47]; change (lit "/") with [47]; cbn -[x]; destruct x as [|c y]; try reflexivity;
      specialize (P c y eq_refl); cbn; unfold slash; cbn; rewrite ?P; cbn; reflexivity. }
  rewrite R. destruct (root_of_cases d A) as [->| ->]; reflexivity.
Qed.
Lemma wants_dir_child d n : absolute d -> good_name n -> wants_dir (child d n) = false.
Proof.
  intros A G. rewrite <- norm_child by assumption. apply wants_dir_norm; [apply absolute_child, A|]. rewrite parts_child by exact G. destruct (parts d); discriminate.
Qed.
Lemma in_numbered {R} (l : list R) i v : In (i, v) (numbered l) -> 0 <= i /\ nth_error l (Z.to_nat i) = Some v.
Proof.
  intros H. unfold numbered in H.
  assert (X : forall k, In (i, v) (combine (map Z.of_nat (seq k (length l))) l) -> Z.of_nat k <= i /\ nth_error l (Z.to_nat (i - Z.of_nat k)) = Some v).
  { clear H. induction l as [|x l IH]; intros k H; [destruct H|]. cbn [length seq map combine] in H. destruct H as [[= <- <-]|H].
    - split; [lia|]. rewrite Z.sub_diag. reflexivity.
    - apply IH in H as [H1 H2]. split; [lia|]. replace (Z.to_nat (i - Z.of_nat k)) with (S (Z.to_nat (i - Z.of_nat (S k)))) by lia. exact H2. }
  specialize (X O H). rewrite Z.sub_0_r in X. exact X.
Qed.
Lemma nth_map_ok {X Y} (f : X -> res Y) l vals n v : map f l = map Ok vals -> nth_error vals n = Some v -> exists x, nth_error l n = Some x /\ f x = Ok v.
Proof.
  intros M N. apply (map_nth_error (@Ok Y)) in N. rewrite <- M in N. rewrite nth_error_map in N. destruct (nth_error l n) as [x|]; [|discriminate]. exists x. split; [reflexivity|]. cbn in N. congruence.
Qed.
Lemma Forall2_in_right {X Y} (P : X -> Y -> Prop) l l' : Forall2 P l l' -> forall y, In y l' -> exists x, In x l /\ P x y.
Proof. induction 1 as [|x y l l' H F IH]; intros z []; [subst; exists x; split; [left; reflexivity|exact H]|]. destruct (IH z H0) as (x' & I & J). exists x'. split; [right; exact I|exact J]. Qed.

Section C73.
  Variables (root cwd : node) (cwd_anc : list node) (unpack : str -> str -> res str) (loads : str -> res pval)
    (parquet_open : str -> res (list (list pval))) (batches : list pval -> list (list pval))
    (tar_open : str -> res (list (list member))) (decode decode_read : list (str * str) -> res pval)
    (castable : list str -> list mprop -> list sample -> bool).
  Context {A : Type}.
  Variable parsing_func : str -> pval -> res A.
  Notation find := (find root cwd cwd_anc).
  Notation register_location := (register_location root cwd cwd_anc unpack loads parquet_open batches tar_open decode castable).
  Notation iterate_files := (iterate_files root cwd cwd_anc unpack loads parquet_open).
  Notation file_samples := (file_samples root cwd cwd_anc unpack loads parquet_open tar_open decode).
  Notation payload := (payload root cwd cwd_anc unpack parquet_open tar_open decode_read).
  Notation content := (content root cwd cwd_anc unpack parquet_open tar_open decode_read parsing_func).
  Notation on_disk := (on_disk root cwd cwd_anc unpack parquet_open tar_open decode_read parsing_func).

  Lemma content_mono s s' x t : incl (datasets s) (datasets s') -> incl (files s) (files s') -> content s x t -> content s' x t.
  Proof using. destruct x as [[d f] i]. intros I J (name & info & c & path & v & H1 & H2 & H3 & H4). exists name, info, c, path, v. auto. Qed.
  (** The paths of a listing. *)
  Lemma listed_paths c loc locs : absolute loc -> (forall es, find loc = Some (NDir es) -> good_dir es) ->
    (forall raw, find loc = Some (NFile raw) -> norm loc = loc /\ wants_dir loc = false) -> iterate_files c loc = Ok locs ->
    forall p, In p locs -> absolute p /\ wants_dir p = false /\ norm p = p.
  Proof using.
    intros Ab G Nf H p Hp. assert (S := proj1 (iterate_ok root cwd cwd_anc unpack loads parquet_open c loc locs Ab G H)).
    destruct (find loc) as [[raw|es]|] eqn:F.
    - destruct (Nf raw eq_refl) as [N W]. destruct (iterate_file root cwd cwd_anc unpack loads parquet_open c loc raw S Ab F) as [E|[e E]]; rewrite E in H; [|discriminate]. injection H as <-.
      destruct Hp as [<-|[]]. auto.
    - rewrite (iterate_dir root cwd cwd_anc unpack loads parquet_open c loc es S Ab F) in H. injection H as <-. apply in_map_iff in Hp as (e & <- & He). apply named_list_in in He as [He _].
      assert (GN : good_name (fst e)) by (destruct (G es eq_refl) as [_ GD]; rewrite Forall_forall in GD; apply GD, in_map, He).
      split; [apply absolute_child, Ab|]. split; [apply wants_dir_child; assumption|apply norm_child; assumption].
    - destruct (iterate_missing root cwd cwd_anc unpack loads parquet_open c loc (or_introl F)) as [e E]. rewrite E in H. discriminate.
  Qed.
  (** The samples of a file are there to be read, under their numbers. *)
  Lemma samples_payload c p vals i v : (forall r v, decode r = Ok v -> exists v', decode_read r = Ok v') -> norm p = p ->
    file_samples c p vals -> In (i, v) (numbered vals) -> exists v', payload c p i v'.
  Proof using.
    intros Hd N (raw & F & H) Hi. apply in_numbered in Hi as [H0 Hn]. unfold SpecDeliver.payload. destruct c; try contradiction.
    - destruct H as (text & ls & U & TL & M). rewrite N in U. destruct (nth_map_ok _ _ _ _ _ M Hn) as (line & L & _). exists (PStr line). split; [exact H0|]. exists raw. split; [exact F|]. exists text, ls, line. auto.
    - destruct H as (groups & U & M). destruct (nth_map_ok _ _ _ _ _ M Hn) as (g & L & E). destruct (tar_sample [] [] g) as [r|] eqn:Eg; [|discriminate]. destruct (Hd r v E) as (v' & Ev).
      exists v'. split; [exact H0|]. exists raw. split; [exact F|]. exists groups, g, r. auto.
    - destruct H as (groups & U & <-). exists v. split; [exact H0|]. exists raw. split; [exact F|]. exists groups. auto.
  Qed.

  (** A successful registration keeps every sample readable, the new ones included: sample number i of a new file is the
      i-th line (row, group) of that file.  Assumed: images that can be skipped can be decoded (web), and the parsing
      function given accepts the samples.  Partial: a single file must be given under a canonical path (below). *)
  Theorem C73_registered_partial s name loc c func reg pname p tr : consistent s -> on_disk s -> absolute loc ->
    (forall es, find loc = Some (NDir es) -> good_dir es) -> (forall raw, find loc = Some (NFile raw) -> norm loc = loc /\ wants_dir loc = false) ->
    (forall l, concat (batches l) = l) -> aget str_eqb pname reg = Some p -> good_schema (ps_props p) ->
    register_location s name loc c func reg pname = (tr, Done true) ->
    (forall r v, decode r = Ok v -> exists v', decode_read r = Ok v') ->
    let s' := last_db s tr in
    (forall f path i v, In (f, (next_dataset s, path)) (files s') -> payload c path i v -> exists t, parsing_func func v = Ok t) ->
    on_disk s'.
  Proof using.
    intros C OD Ab GD NF B P GS H Hd s' HP.
    destruct (C70_registration root cwd cwd_anc unpack loads parquet_open batches tar_open decode castable s name loc c func reg pname p tr C Ab GD B P GS H)
      as (pm & rows & _ & E1 & E2 & _ & E3 & _ & E4 & E5). fold s' in E1, E2, E4, E5.
    assert (I1 : incl (datasets s) (datasets s')) by (rewrite E1; apply incl_appl, incl_refl). assert (I2 : incl (files s) (files s')) by (rewrite E2; apply incl_appl, incl_refl).
    assert (LP := listed_paths c loc _ Ab GD NF E3). split.
    - intros [[d f] i] r Hr. destruct (in_dec Z.eq_dec f (map fst rows)) as [Hf|Hf].
      + apply in_map_iff in Hf as ([f' path] & <- & Hf). cbn [fst] in *. destruct (E4 f' path Hf) as (vals & FS & F2).
        assert (Hr' : In ((d, f', i), r) (filter (fun r : sample => snd (fst (fst r)) =? f') (samples s'))) by (apply filter_In; split; [exact Hr|cbn; apply Z.eqb_refl]).
        destruct (Forall2_in_right _ _ _ F2 _ Hr') as ([j v] & Hj & [Ej _]). cbn [fst] in Ej. injection Ej as -> ->.
        destruct (LP path (in_map snd _ _ Hf)) as (Ap & _ & Np).
        assert (If : In (f', (next_dataset s, path)) (files s')) by (rewrite E2; apply in_or_app; right; apply in_map_iff; exists (f', path); auto).
        destruct (samples_payload c path vals j v Hd Np FS Hj) as (v' & Pv). destruct (HP f' path j v' If Pv) as (t & Et).
        exists t, name, (DInfo loc (type_id c) func), c, path, v'. split; [rewrite E1; apply in_or_app; right; left; reflexivity|]. split; [reflexivity|]. auto.
      + assert (Hr' : In ((d, f, i), r) (filter (fun r : Z * Z * Z * record => snd (fst (fst r)) =? f) (samples s'))) by (apply filter_In; split; [exact Hr|cbn; apply Z.eqb_refl]).
        rewrite (E5 f Hf) in Hr'. apply filter_In in Hr' as [Hr' _]. destruct (proj1 OD _ _ Hr') as (t & Ct). exists t. apply (content_mono s); assumption.
    - intros f d path Hi. rewrite E2 in Hi. apply in_app_or in Hi as [Hi|Hi]; [apply (proj2 OD _ _ _ Hi)|]. apply in_map_iff in Hi as ([f' path'] & [= <- <- <-] & Hi).
      destruct (LP path' (in_map snd _ _ Hi)) as (X & Y & _). auto.
  Qed.
  (** Removing a dataset keeps the samples of the others readable. *)
  Theorem C73_removed s name did info tr o : consistent s -> on_disk s -> In (did, (name, info)) (datasets s) -> remove s name = (tr, o) -> on_disk (last_db s tr).
  Proof using.
    intros C OD Hi H. destruct (C35_remove s name did info C Hi) as (tr' & H' & R1 & R2 & R3 & _). rewrite H in H'. injection H' as <- ->. set (s' := last_db s tr) in *. split.
    - intros [[d f] i] r Hr. apply R3 in Hr as [Hr Nd]. destruct (proj1 OD _ _ Hr) as (t & n & inf & c & path & v & I1 & I2 & I3 & P). exists t, n, inf, c, path, v.
      split; [apply R1; split; [exact I1|]|split; [exact I2|split; [apply R2; auto|exact P]]]. cbn [fst]. intros ->. apply Nd.
      destruct C as (ND & NN & _). unfold list_datasets in NN. clear - NN Hi I1.
      assert (U : forall l : list (Z * (str * dinfo)), NoDup (map (fun d => fst (snd d)) l) -> forall a b, In a l -> In b l -> fst (snd a) = fst (snd b) -> a = b).
      { induction l as [|x l IH]; intros N a b Ha Hb E; [destruct Ha|]. cbn in N. inversion N as [|? ? N1 N2]; subst. destruct Ha as [<-|Ha], Hb as [<-|Hb]; auto.
        - exfalso. apply N1. rewrite E. apply (in_map (fun d => fst (snd d))), Hb.
        - exfalso. apply N1. rewrite <- E. apply (in_map (fun d => fst (snd d))), Ha. }
      assert (X := U _ NN (did, (name, info)) (d, (name, inf)) Hi I1 eq_refl). congruence.
    - intros f d path Hf. apply R2 in Hf as [Hf _]. apply (proj2 OD _ _ _ Hf).
  Qed.
End C73.

Print Assumptions C73_registered_partial.
Print Assumptions C73_removed.
