(** C75: a dataset's metadata are stored as its parser gave them, whatever other datasets the catalogue holds or held. *)
From Coq Require Import String.
From Verif Require Import Base MixtureKeyModel MixtureKeyProofs ChunkGenModel ParserModel SpecParser MdcModel SpecMdc MdcProofs PropertiesMdc SchemaModel SpecSchema SchemaProofs SchemaProofs2.
Open Scope Z_scope.

Lemma all_some_in {A} (l : list (option A)) r : all_some l = Some r -> forall x, In x r -> In (Some x) l.
Proof.
  revert r. induction l as [|[a|] l IH]; intros r H x X; cbn [all_some] in H; [injection H as <-; destruct X| |discriminate].
  destruct (all_some l) as [r'|]; [|discriminate]. injection H as <-. destruct X as [<-|X]; [left; reflexivity|right; apply (IH r'); auto].
Qed.
Section C75.
  Variable ident : str -> bool.
  Variable show_list : list pval -> str.
  Variable parse_list : str -> option (list pval).
  Notation past := (past ident show_list parse_list).
  Notation register_typed := (register_typed ident show_list parse_list).
  Notation insert_chunks_typed := (insert_chunks_typed show_list parse_list).

  Lemma insert_chunks_consistent meta did props chunks : forall s s', consistent (fst s) ->
    (forall f l, In (f, l) (concat chunks) -> exists l', In (f, (did, l')) (files (fst s))) ->
    In s' (fst (insert_chunks_typed meta s did props chunks)) -> consistent (fst s').
  Proof using.
    induction chunks as [|c chunks IH]; intros s s' C F H; [destruct H|]. cbn [SchemaModel.insert_chunks_typed] in H. destruct (sequence _) as [results|] eqn:Sq; [|destruct H].
    destruct (insert_samples_typed show_list parse_list s did props results) as [s1|] eqn:E; [|destruct H].
    assert (X : consistent (fst s1) /\ files (fst s1) = files (fst s)).
    { unfold insert_samples_typed in E. destruct (all_some _) as [rows|] eqn:R; [|discriminate]. destruct (no_dup_keys _) eqn:N; [|discriminate]. injection E as <-. split; [|reflexivity].
      apply no_dup_keys_spec in N. destruct C as (C1 & C2 & C3 & C4 & C5 & C6 & C7). cbn [fst]. unfold consistent, list_datasets in *. cbn [set_samples datasets files samples next_dataset next_file].
      split; [exact C1|]. split; [exact C2|]. split; [exact C3|]. split; [exact N|]. split; [exact C5|]. split; [|exact C7].
      intros d f i r I. apply in_app_or in I as [I|I]; [eauto|]. apply (all_some_in _ _ R) in I. apply in_flat_map in I as (fm & J & I). apply in_map_iff in I as (m & I & M).
      destruct (store_row _ _ _ _ _) as [w|]; [|discriminate]. injection I as <- <- _ _. apply (in_map fst) in J.
      destruct (chunk_results meta c results Sq) as [Ec _]. rewrite Ec in J. apply in_map_iff in J as ([f l] & <- & J). apply (F f l). cbn [concat]. apply in_or_app. left. exact J. }
    destruct (insert_chunks_typed meta s1 did props chunks) as [tr ok] eqn:R. cbn [fst] in H. destruct H as [<-|H]; [apply X|].
    apply (IH s1); [apply X| |rewrite R; exact H]. intros f l I. rewrite (proj2 X). apply (F f l). cbn [concat]. apply in_or_app. right. exact I.
  Qed.
  Lemma register_consistent meta s name info vt found props tr o s' : consistent (fst s) ->
    register_typed meta s name info vt found props = (tr, o) -> In s' (s :: tr) -> consistent (fst s').
  Proof using.
    intros C H J. destruct J as [<-|J]; [exact C|]. unfold SchemaModel.register_typed in H. destruct (negb vt); [injection H as <- <-; destruct J|].
    destruct (insert_dataset (fst s) name info) as [[s1 did]|] eqn:Id; [|injection H as <- <-; destruct J].
    destruct (consistent_insert_dataset _ _ _ _ _ C Id) as (C1 & -> & _ & G & _). assert (Dd := grown_did _ _ _ _ G). set (s2 := incr_version s1) in *.
    assert (C2 : consistent s2) by (apply (consistent_same s1); auto).
    assert (T2 : forall x, In x [(s1, snd s); (s2, snd s)] -> consistent (fst x)) by (intros x [<-|[<-|[]]]; assumption).
    destruct found as [[|l0 locs0]|]; [injection H as <- <-; apply T2, J| |injection H as <- <-; apply T2, J]. destruct props as [props|]; [|injection H as <- <-; apply T2, J].
    set (locs := l0 :: locs0) in *. destruct (add_columns_typed ident (snd s) props) as [scs ok3].
    assert (T3 : forall x, In x (map (with_schema s2) scs) -> consistent (fst x) /\ datasets (fst x) = datasets s2).
    { intros x X. apply in_map_iff in X as (sc & <- & _). split; [|reflexivity]. apply (consistent_same s2); auto. }
    destruct (negb ok3); [injection H as <- <-; destruct J as [J|[J|J]]; [apply T2; left; exact J|apply T2; right; left; exact J|apply T3, J]|].
    assert (L3 : consistent (fst (last (map (with_schema s2) scs) (s2, snd s))) /\ datasets (fst (last (map (with_schema s2) scs) (s2, snd s))) = datasets s2)
      by (apply (last_inv (fun x : tdb => consistent (fst x) /\ datasets (fst x) = datasets s2)); [split; [exact C2|reflexivity]|exact T3]).
    destruct (last (map (with_schema s2) scs) (s2, snd s)) as [s3 sc3]. cbn [fst] in L3. destruct L3 as [C3 D3].
    destruct (insert_files s3 (next_dataset (fst s)) locs) as [s4 fids] eqn:Fi. assert (Ff := insert_files_facts _ _ _ _ _ Fi). destruct Ff as (_ & _ & _ & _ & F4 & _ & _ & F6 & _).
    assert (C4 : consistent s4) by (apply (consistent_insert_files s3 (next_dataset (fst s)) locs s4 fids C3); [rewrite D3; exact Dd|exact Fi]).
    set (s5 := incr_version s4) in *. assert (C5 : consistent s5) by (apply (consistent_same s4); auto).
    destruct (insert_chunks_typed meta _ _ _ _) as [tr6 ok6] eqn:B.
    assert (T6 : forall x, In x tr6 -> consistent (fst x)).
    { intros x X. apply (insert_chunks_consistent meta (next_dataset (fst s)) props (chunks_of (length locs) chunk_size (combine fids locs)) (s5, sc3) x C5); [|rewrite B; exact X].
      intros f l I. apply in_concat in I as (c & Hc & I). apply chunks_of_incl in Hc. apply Hc, in_combine_l in I. rewrite Forall_forall in F6. apply F6 in I.
      apply in_map_iff in I as ([f' l'] & <- & I). exists l'. cbn [fst]. unfold s5. cbn [incr_version files]. rewrite F4. apply in_or_app. right. apply in_map_iff. exists (f', l'). auto. }
    assert (T45 : forall x, In x [(s4, sc3); (s5, sc3)] -> consistent (fst x)) by (intros x [<-|[<-|[]]]; assumption).
    destruct (negb ok6); injection H as <- <-.
    - destruct J as [J|[J|J]]; [apply T2; left; exact J|apply T2; right; left; exact J|]. apply in_app_or in J as [J|J]; [apply T3, J|].
      destruct J as [J|[J|J]]; [apply T45; left; exact J|apply T45; right; left; exact J|]. apply T6, J.
    - destruct J as [J|[J|J]]; [apply T2; left; exact J|apply T2; right; left; exact J|]. apply in_app_or in J as [J|J]; [apply T3, J|].
      destruct J as [J|[J|J]]; [apply T45; left; exact J|apply T45; right; left; exact J|]. apply in_app_or in J as [J|J]; [apply T6, J|]. destruct J as [<-|[]]. cbn [fst].
      assert (X : consistent (fst (last tr6 (s5, sc3)))) by (apply (last_inv (fun x : tdb => consistent (fst x))); [exact C5|exact T6]). apply (consistent_same _ _ X); reflexivity.
  Qed.
  (** Whatever was registered and removed before, with whatever outcome, and wherever it was stopped, the catalogue is
      consistent, and each column has the type of a property some registration declared. *)
  Theorem C75_every_point ds s : past ds s -> consistent (fst s) /\
    forall n t, In (n, t) (cols (snd s)) -> exists p, In p ds /\ p_name p = n /\
      match t with CText m => p_dtype p = DString /\ p_multiple p = m | CEnum _ m => p_dtype p = DEnum /\ p_multiple p = m end.
  Proof using.
    intros P. split.
    - induction P as [|ds s meta name info vt found props tr o s' P IH R J|ds s meta name info vt found tr o s' P IH R J|ds s name tr o s' P IH R J].
      + unfold consistent, init_tdb, init_db, list_datasets. cbn. repeat split; try constructor; intros; contradiction.
      + exact (register_consistent meta s name info vt found (Some props) tr o s' IH R J).
      + exact (register_consistent meta s name info vt found None tr o s' IH R J).
      + destruct J as [<-|J]; [exact IH|]. unfold remove_typed in R. destruct (remove (fst s) name) as [tr' o'] eqn:E. injection R as <- <-.
        apply in_map_iff in J as (d & <- & J). cbn [fst]. destruct (exists_dataset (fst s) name) eqn:X.
        * apply exists_dataset_in in X. unfold list_datasets in X. apply in_map_iff in X as ([did [n info]] & Q & K). cbn in Q. subst n.
          apply (C35_remove_every_point _ _ _ _ _ _ _ IH K E J).
        * unfold remove in E. rewrite X in E. cbn in E. injection E as <- <-. destruct J.
    - destruct (past_tinv _ _ _ ds s P) as [[H _] _]. intros n t I. destruct (H n t I) as (p & Hp & N & D). exists p. split; [exact Hp|]. split; [exact N|].
      destruct t; [exact D|]. destruct D as (D1 & D2 & _). auto.
  Qed.

  Notation all := (fun (_ : list str) (_ : list mprop) (_ : list sample) => true).
  (** If no registration tried so far declared one of the new dataset's properties differently (nor under a name that
      differs only in case), the registration goes as the one of MdcModel with values that always fit: the properties
      C35, C70 and C71 hold with nothing assumed about the database's casts. *)
  Theorem C75_refines ds s meta name info vt found props : past ds s -> declarable ident props -> (forall q p, In q ds -> In p props -> agree q p) ->
    (forall locs l m x, found = Ok locs -> In l locs -> meta l = Ok m -> In x m -> good_record props (snd x)) ->
    snd (register_typed meta s name info vt found (Some props)) = snd (register all meta (fst s) name info vt found (Some props)) /\
    fst (last (fst (register_typed meta s name info vt found (Some props))) s) = last_db (fst s) (fst (register all meta (fst s) name info vt found (Some props))).
  Proof using. intros P. apply register_eq, (past_tinv _ _ _ ds s P). Qed.
  (** So the registration of a dataset whose files can be parsed succeeds, and stores for each sample exactly the values
      its parser gave. *)
  Theorem C75_values_partial ds s meta name info locs props metas : past ds s -> declarable ident props -> (forall q p, In q ds -> In p props -> agree q p) ->
    ~ In name (list_datasets (fst s)) -> locs <> [] -> NoDup locs -> map meta locs = map Ok metas ->
    (forall m, In m metas -> NoDup (map fst m) /\ forall i r, In (i, r) m -> good_record props r) ->
    exists tr, register_typed meta s name info true (Ok locs) (Some props) = (tr, Done true) /\
      let s' := fst (last tr s) in
      datasets s' = datasets (fst s) ++ [(next_dataset (fst s), (name, info))] /\
      files s' = files (fst s) ++ map (fun f => (fst f, (next_dataset (fst s), snd f))) (new_files (fst s) locs) /\
      samples s' = samples (fst s) ++ flat_map (fun fm => map (fun ir => ((next_dataset (fst s), fst (fst fm), fst ir), map (fun p => (p_name p, says (snd ir) p)) props)) (snd fm))
                                               (combine (new_files (fst s) locs) metas).
  Proof using.
    intros P D Ag N Ne Nd Hm Hg. destruct (C75_every_point ds s P) as [C _].
    assert (X : forall l m, In l locs -> meta l = Ok m -> In m metas).
    { clear - Hm. intros l m Hl E. assert (I : In (meta l) (map Ok metas)) by (rewrite <- Hm; apply in_map, Hl). rewrite E in I. apply in_map_iff in I as (m' & [= ->] & I). exact I. }
    destruct (C75_refines ds s meta name info true (Ok locs) props P D Ag) as [R1 R2].
    { intros locs' l m x [= <-] Hl E I. destruct x as [i r]. apply (proj2 (Hg m (X l m Hl E)) i r I). }
    assert (S : snd (register all meta (fst s) name info true (Ok locs) (Some props)) = Done true).
    { apply C35_register_succeeds; auto.
      - intros p Hp Dp O. destruct D as [_ D]. destruct (D p Hp) as (_ & _ & Y). destruct (Y Dp) as (_ & o & Ho & _). rewrite O in Ho. destruct Ho; discriminate.
      - intros l Hl. assert (I : In (meta l) (map Ok metas)) by (rewrite <- Hm; apply in_map, Hl). apply in_map_iff in I as (m & E & I). exists m. split; [auto|]. apply Hg, I. }
    destruct (register all meta (fst s) name info true (Ok locs) (Some props)) as [tr0 o0] eqn:R0. cbn [fst snd] in *. subst o0.
    destruct (register_typed meta s name info true (Ok locs) (Some props)) as [tr o] eqn:R. cbn [fst snd] in *. subst o. exists tr. split; [reflexivity|]. cbv zeta. rewrite R2.
    destruct (C35_register all meta (fst s) name info true (Ok locs) (Some props) tr0 C R0) as (locs' & props' & metas' & [= <-] & _ & [= <-] & _ & M & E1 & E2 & E3 & _); [intros l [= <-]; exact Nd|].
    assert (metas' = metas). { rewrite Hm in M. clear - M. revert metas' M. induction metas as [|m ms IH]; intros [|m' ms'] M; try discriminate; [reflexivity|]. injection M as -> M. f_equal. auto. } subst metas'.
    split; [exact E1|]. split; [exact E2|]. exact E3.
  Qed.
End C75.

(** ** Concrete cases *)
Definition any_name : str -> bool := fun _ => true.
Definition one_file (r : record) : str -> res (list (Z * record)) := fun _ => Ok [(0, r)].
Definition no_info : dinfo := DInfo (lit "/d") 1 [].
Definition fineweb_row : record := [(lit "dump", PStr (lit "CC")); (lit "language", PStr (lit "en"))].
Definition redpajama_row : record := [(lit "language", PList [PStr (lit "en"); PStr (lit "de")]); (lit "publication_date", PNone)].
Definition slim_row : record := [(lit "redpajama_set_name", PStr (lit "RedPajamaC4"))].
(** Registering one dataset of one file with one sample. *)
Definition reg show parse (s : tdb) (name : str) (props : list mprop) (r : record) : list tdb * outcome :=
  register_typed any_name show parse (one_file r) s name no_info true (Ok [lit "/f"]) (Some props).
Definition after show parse s name props r : tdb := last (fst (reg show parse s name props r)) s.

(** The hypotheses hold: a catalogue with a SlimPajama dataset takes a FineWeb dataset. *)
Example C75_hypotheses_hold show parse :
  let s1 := after show parse init_tdb (lit "a") slimpajama_props slim_row in
  past any_name show parse slimpajama_props s1 /\ samples (fst s1) = [((1, 1, 0), slim_row)] /\
  declarable any_name fineweb_props /\ (forall q p, In q slimpajama_props -> In p fineweb_props -> agree q p) /\ good_record fineweb_props fineweb_row.
Proof.
  cbv zeta. split; [|split; [vm_compute; reflexivity|]].
  - apply (past_register any_name show parse [] init_tdb (one_file slim_row) (lit "a") no_info true (Ok [lit "/f"]) slimpajama_props
      (fst (reg show parse init_tdb (lit "a") slimpajama_props slim_row)) (snd (reg show parse init_tdb (lit "a") slimpajama_props slim_row))); [constructor|apply surjective_pairing|].
    right. apply last_cons. vm_compute. discriminate.
  - assert (NL : forall a b, same_name a b -> lower a = lower b) by (intros a b; apply same_name_lower). split; [|split].
    + split.
      * intros i j p q Hi Hj E. apply NL in E. destruct i as [|[|i]], j as [|[|j]]; auto; cbn in Hi, Hj; try (destruct i; discriminate Hi); try (destruct j; discriminate Hj);
          injection Hi as <-; injection Hj as <-; vm_compute in E; discriminate.
      * intros p [<-|[<-|[]]]; (split; [reflexivity|]); (split; [intros c [<-|[<-|[<-|[]]]] E; apply NL in E; vm_compute in E; discriminate|]); intros D; [discriminate|].
        split; [reflexivity|]. exists [lit "en"]. split; [right; reflexivity|]. split; [discriminate|]. split; [repeat constructor; intros []|]. intros s [<-|[]]. vm_compute. intuition discriminate.
    + intros q p [<-|[]] [<-|[<-|[]]] E; apply NL in E; vm_compute in E; discriminate.
    + intros p [<-|[<-|[]]]; split; try (right; left; eexists; reflexivity); (split; [discriminate|]); intros _; (split; [split; [discriminate|intros (l & L); discriminate L]|]);
        split; try discriminate; intros; try (intros (l & L); discriminate L); try (vm_compute in H0; discriminate).
      exists (lit "en"). split; [reflexivity|left; reflexivity].
Qed.

(** Of the built-in parsers only RedPajama's and FineWeb's get in each other's way. *)
Theorem C75_builtin_parsers to_str a pa b pb q p : In (a, pa) (builtin to_str) -> In (b, pb) (builtin to_str) ->
  ~ (a = lit "RED_PAJAMA" /\ b = lit "FINEWEB") -> ~ (a = lit "FINEWEB" /\ b = lit "RED_PAJAMA") ->
  In q (ps_props pa) -> In p (ps_props pb) -> agree q p.
Proof.
  intros A B N1 N2 Q P E. apply same_name_lower in E. unfold builtin in A, B.
  repeat (destruct A as [A|A]; [injection A as <- <-|]); try contradiction A;
  repeat (destruct B as [B|B]; [injection B as <- <-|]); try contradiction B;
  cbn [ps_props] in Q, P;
  repeat (destruct Q as [Q|Q]; [subst q|]); try contradiction Q;
  repeat (destruct P as [P|P]; [subst p|]); try contradiction P;
  first [vm_compute in E; discriminate E | split; [reflexivity|]; split; [reflexivity|]; split; [reflexivity|]; intros _ s; split; intros X; exact X | exfalso; apply N1; split; reflexivity | exfalso; apply N2; split; reflexivity].
Qed.

(** The full statement has no condition on the other datasets.  It is false for two of the built-in parsers: with a
    RedPajama dataset in the catalogue -- or once there, though removed -- no FineWeb dataset can be registered, although
    it can on its own; and the other way round.  (DuckDB cannot read the text en as a list.) *)
Theorem C75_builtin_conflict_refuted show parse : parse (lit "en") = None ->
  let alone := reg show parse init_tdb (lit "fw") fineweb_props fineweb_row in
  let s1 := after show parse init_tdb (lit "rp") redpajama_props redpajama_row in
  let s2 := last (fst (remove_typed s1 (lit "rp"))) s1 in
  let s3 := after show parse init_tdb (lit "fw") fineweb_props fineweb_row in
  snd alone = Done true /\
  list_datasets (fst s1) = [lit "rp"] /\ snd (reg show parse s1 (lit "fw") fineweb_props fineweb_row) = Raised /\
  list_datasets (fst s2) = [] /\ samples (fst s2) = [] /\ snd (reg show parse s2 (lit "fw") fineweb_props fineweb_row) = Raised /\
  list_datasets (fst (after show parse s2 (lit "fw") fineweb_props fineweb_row)) = [lit "fw"] /\
  list_datasets (fst s3) = [lit "fw"] /\ snd (reg show parse s3 (lit "rp") redpajama_props redpajama_row) = Raised.
Proof.
  intros H. change (lit "en") with [101; 110] in H. cbv zeta. repeat split; vm_compute; rewrite ?H; reflexivity.
Qed.
(** A property that takes several values, under the name of one that takes a single text, is stored as one text: the
    registration succeeds, and the sample has neither of the values. *)
Definition tag_single : mprop := MProp (lit "tag") DString false true NoOptions.
Definition tag_multi : mprop := MProp (lit "tag") DString true true NoOptions.
Theorem C75_silently_changed_refuted show parse :
  let s1 := after show parse init_tdb (lit "a") [tag_single] [(lit "tag", PStr (lit "x"))] in
  let r := reg show parse s1 (lit "b") [tag_multi] [(lit "tag", PList [PStr (lit "x"); PStr (lit "y")])] in
  snd r = Done true /\ samples (fst (last (fst r) s1)) =
    [((1, 1, 0), [(lit "tag", PStr (lit "x"))]); ((2, 2, 0), [(lit "tag", PStr (show [PStr (lit "x"); PStr (lit "y")]))])].
Proof. cbv zeta. split; vm_compute; reflexivity. Qed.
(** An enumeration cannot get a new option; a name that differs only in case cannot be added at all. *)
Definition lang_enum (o : list str) : mprop := MProp (lit "lang") DEnum false true (OList o).
Theorem C75_enum_and_case_refuted show parse :
  let s1 := after show parse init_tdb (lit "a") [lang_enum [lit "en"]] [(lit "lang", PStr (lit "en"))] in
  let s2 := last (fst (remove_typed s1 (lit "a"))) s1 in
  let de := reg show parse s2 (lit "b") [lang_enum [lit "en"; lit "de"]] [(lit "lang", PStr (lit "de"))] in
  let up := reg show parse s2 (lit "b") [MProp (lit "Lang") DString false true NoOptions] [(lit "Lang", PStr (lit "x"))] in
  snd (reg show parse init_tdb (lit "b") [lang_enum [lit "en"; lit "de"]] [(lit "lang", PStr (lit "de"))]) = Done true /\ snd de = Raised /\
  snd (reg show parse init_tdb (lit "b") [MProp (lit "Lang") DString false true NoOptions] [(lit "Lang", PStr (lit "x"))]) = Done true /\ snd up = Raised.
Proof. cbv zeta. repeat split; vm_compute; reflexivity. Qed.
Print Assumptions C75_every_point.
Print Assumptions C75_refines.
Print Assumptions C75_values_partial.
Print Assumptions C75_builtin_parsers.
Print Assumptions C75_builtin_conflict_refuted.
Print Assumptions C75_silently_changed_refuted.
Print Assumptions C75_enum_and_case_refuted.
