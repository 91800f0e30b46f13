(** Proofs about column types: a registration whose schema agrees with the earlier ones is the one of MdcModel. *)
From Coq Require Import String.
From Verif Require Import Base MixtureKeyModel MixtureKeyProofs ChunkGenModel ParserModel SpecParser MdcModel SpecMdc MdcProofs SchemaModel SpecSchema SchemaProofs.
Open Scope Z_scope.

Lemma chunks_of_incl {A} fuel n : forall (l : list A) c, In c (chunks_of fuel n l) -> incl c l.
Proof.
  induction fuel as [|fuel IH]; intros l c H; [destruct H|]. destruct l as [|a l]; [destruct H|]. cbn [chunks_of] in H. destruct H as [<-|H].
  - intros x X. rewrite <- (firstn_skipn n (a :: l)). apply in_or_app. left. exact X.
  - intros x X. rewrite <- (firstn_skipn n (a :: l)). apply in_or_app. right. exact (IH _ _ H x X).
Qed.
Lemma sequence_in {A} (l : list (res A)) r : sequence l = Ok r -> forall x, In x r -> In (Ok x) l.
Proof.
  revert r. induction l as [|[a|e] l IH]; intros r H x X; cbn [sequence] in H; [injection H as <-; destruct X| |discriminate].
  destruct (sequence l) as [r'|]; [|discriminate]. injection H as <-. destruct X as [<-|X]; [left; reflexivity|right; apply (IH r'); auto].
Qed.
(** The columns MdcModel adds. *)
Lemma add_columns_eq props : (forall p, In p props -> p_dtype p = DEnum -> p_options p <> NoOptions) -> NoDup (map p_name props) ->
  forall s, snd (add_columns s props) = true /\
    last_db s (fst (add_columns s props)) =
      Db (datasets s) (files s) (samples s) (columns s ++ map p_name (filter (fun p => negb (existsb (str_eqb (p_name p)) (columns s))) props))
         (version s) (next_dataset s) (next_file s).
Proof.
  induction props as [|p props IH]; intros O N s.
  - cbn. rewrite app_nil_r. destruct s. auto.
  - cbn [map] in N. inversion N as [|? ? N1 N2]; subst. specialize (IH (fun q Q => O q (or_intror Q)) N2). cbn [add_columns filter].
    destruct (existsb (str_eqb (p_name p)) (columns s)) eqn:E; cbn [negb]; [apply IH|].
    set (s1 := Db _ _ _ (columns s ++ [p_name p]) _ _ _). destruct (IH s1) as [IH1 IH2]. destruct (add_columns s1 props) as [tr ok] eqn:A. cbn [fst snd] in IH1, IH2.
    assert (R : (match p_dtype p with DEnum => match p_options p with NoOptions => ([], false) | _ => (s1 :: tr, ok) end | DString => (s1 :: tr, ok) end) = (s1 :: tr, ok)).
    { destruct (p_dtype p) eqn:D; [reflexivity|]. assert (X := O p (or_introl eq_refl) D). destruct (p_options p); [contradiction|reflexivity|reflexivity]. }
    replace (match p_dtype p with DString => (s1 :: tr, ok) | DEnum => match p_options p with NoOptions => ([], false) | _ => (s1 :: tr, ok) end end) with (s1 :: tr, ok) by (symmetry; exact R).
    cbn [fst snd]. split; [exact IH1|].
    assert (L : last_db s (s1 :: tr) = last_db s1 tr).
    { unfold last_db. destruct tr as [|x tr]; [reflexivity|]. destruct (exists_last (l := x :: tr)) as (l & y & ->); [discriminate|]. rewrite app_comm_cons, !last_last. reflexivity. }
    rewrite L, IH2. unfold s1. cbn [datasets files samples columns version next_dataset next_file map]. f_equal. rewrite <- app_assoc. cbn [app]. f_equal. f_equal. f_equal.
    apply filter_ext_in. intros q Q. f_equal. rewrite existsb_app. cbn [existsb]. rewrite orb_false_r. replace (str_eqb (p_name q) (p_name p)) with false; [apply orb_false_r|].
    symmetry. destruct (str_eqb (p_name q) (p_name p)) eqn:X; [|reflexivity]. apply str_eqb_spec in X. exfalso. apply N1. rewrite <- X. apply in_map, Q.
Qed.

Section S.
  Variable ident : str -> bool.
  Variable show_list : list pval -> str.
  Variable parse_list : str -> option (list pval).
  Variable meta : str -> res (list (Z * record)).
  Notation insert_samples_typed := (insert_samples_typed show_list parse_list).
  Notation insert_chunks_typed := (insert_chunks_typed show_list parse_list meta).
  Notation register_typed := (register_typed ident show_list parse_list meta).
  Notation all := (fun (_ : list str) (_ : list mprop) (_ : list sample) => true).

  Lemma cast_fits p t v : fits p t -> well_typed p v -> textual v -> arrow_ok p v = true /\ cast show_list parse_list t v = Some v.
  Proof using.
    intros F [W1 W2] T. destruct T as [->|[(s & ->)|(l & -> & T)]]; [split; reflexivity| |].
    - destruct (W2 ltac:(discriminate)) as (M & _ & E). assert (Ms : p_multiple p = false).
      { destruct (p_multiple p) eqn:X; [|reflexivity]. destruct (proj1 M eq_refl) as (l & L). discriminate L. }
      split; [cbn [arrow_ok]; rewrite Ms; reflexivity|]. destruct t as [m|o m]; cbn [fits] in F.
      + destruct F as [_ <-]. rewrite Ms. reflexivity.
      + destruct F as (D & <- & O). rewrite Ms. cbn [cast]. replace (existsb (str_eqb s) o) with true; [reflexivity|]. symmetry. apply existsb_str, O.
        assert (X := E D ltac:(intros (l & L); discriminate L)). unfold allowed in X. unfold an_option. destruct (p_options p); [destruct X| |]; destruct X as (s' & [= <-] & X); exact X.
    - destruct (W2 ltac:(discriminate)) as (M & E & _). assert (Ms : p_multiple p = true) by (apply M; exists l; reflexivity).
      assert (A : forallb arrow_text l = true) by (apply forallb_forall; intros x X; destruct (T x X) as (s & ->); reflexivity).
      split; [cbn [arrow_ok]; rewrite Ms, A; reflexivity|]. destruct t as [m|o m]; cbn [fits] in F.
      + destruct F as [_ <-]. rewrite Ms. reflexivity.
      + destruct F as (D & <- & O). rewrite Ms. cbn [cast]. replace (forallb (in_enum o) l) with true; [reflexivity|]. symmetry. apply forallb_forall.
        intros x X. assert (Y := E D l eq_refl). rewrite Forall_forall in Y. specialize (Y x X). unfold allowed in Y.
        destruct (p_options p) as [|o'|o'] eqn:Op; [destruct Y| |]; destruct Y as (s & -> & Y); cbn [in_enum]; apply existsb_str, O; unfold an_option; rewrite Op; exact Y.
  Qed.
  Definition typed (sc : schema) (props : list mprop) : Prop := forall p, In p props -> exists t, aget str_eqb (p_name p) (cols sc) = Some t /\ fits p t.
  Lemma store_row_eq sc props r : typed sc props -> good_record props r -> store_row show_list parse_list sc props r = Some (columns_of props r).
  Proof using.
    induction props as [|p props IH]; intros T G; [reflexivity|]. cbn [store_row columns_of map].
    destruct (G p (or_introl eq_refl)) as [W X]. destruct (T p (or_introl eq_refl)) as (t & A & F). destruct (cast_fits p t (says r p) F W X) as [Ao C].
    unfold says in *. rewrite Ao, A, C. rewrite IH; [reflexivity| |]; intros q Q; [apply T|apply G]; right; exact Q.
  Qed.
  Lemma all_some_map {A} (l : list A) : all_some (map Some l) = Some l.
  Proof using. induction l as [|a l IH]; [reflexivity|]. cbn [map all_some]. rewrite IH. reflexivity. Qed.
  Lemma insert_samples_eq s sc did props results : typed sc props -> (forall fm m, In fm results -> In m (snd fm) -> good_record props (snd m)) ->
    insert_samples_typed (s, sc) did props results = option_map (fun s => (s, sc)) (insert_samples all s did props results).
  Proof using.
    intros T G. unfold SchemaModel.insert_samples_typed, insert_samples. cbn [fst snd andb].
    assert (E : flat_map (fun fm => map (fun m => option_map (fun r => (did, fst fm, fst m, r)) (store_row show_list parse_list sc props (snd m))) (snd fm)) results
                = map Some (sample_rows did props results)).
    { unfold sample_rows. induction results as [|fm results IH]; [reflexivity|]. cbn [flat_map]. rewrite IH by (intros x m X; apply G; right; exact X). rewrite map_app. f_equal.
      rewrite map_map. apply map_ext_in. intros m M. rewrite store_row_eq; [reflexivity|exact T|]. apply (G fm); [left; reflexivity|exact M]. }
    rewrite E, all_some_map. destruct (no_dup_keys _); reflexivity.
  Qed.
  Lemma insert_chunks_eq sc did props chunks : typed sc props -> (forall c t m x, In c chunks -> In t c -> meta (snd t) = Ok m -> In x m -> good_record props (snd x)) ->
    forall s, insert_chunks_typed (s, sc) did props chunks = (map (fun d => (d, sc)) (fst (insert_chunks all meta s did props chunks)), snd (insert_chunks all meta s did props chunks)).
  Proof using.
    intros T. induction chunks as [|c chunks IH]; intros G s; [reflexivity|]. cbn [SchemaModel.insert_chunks_typed insert_chunks].
    destruct (sequence _) as [results|] eqn:S; [|reflexivity]. rewrite insert_samples_eq.
    2: exact T.
    2:{ intros fm m Fm M. assert (X := sequence_in _ _ S fm Fm). apply in_map_iff in X as (t & X & Ht). destruct (meta (snd t)) as [mm|] eqn:Em; [|discriminate].
        injection X as <-. cbn [snd] in M. apply (G c t mm m); [left; reflexivity|exact Ht|exact Em|exact M]. }
    destruct (insert_samples all s did props results) as [s1|]; cbn [option_map]; [|reflexivity].
    rewrite IH by (intros c' t m x C; apply (G c' t m x); right; exact C). destruct (insert_chunks all meta s1 did props chunks) as [tr ok]. reflexivity.
  Qed.
  Lemma last_map {A B} (f : A -> B) l x : last (map f l) (f x) = f (last l x).
  Proof using. induction l as [|a l IH]; [reflexivity|]. destruct l; [reflexivity|]. exact IH. Qed.
  Lemma last_db_app s a b : last_db s (a ++ b) = last_db (last_db s a) b.
  Proof using. unfold last_db. destruct b as [|x b]; [rewrite app_nil_r; reflexivity|]. destruct (exists_last (l := x :: b)) as (l & y & ->); [discriminate|]. rewrite app_assoc, !last_last. reflexivity. Qed.
  Lemma last_t_app (s : tdb) a b : last (a ++ b) s = last b (last a s).
  Proof using. destruct b as [|x b]; [rewrite app_nil_r; reflexivity|]. destruct (exists_last (l := x :: b)) as (l & y & ->); [discriminate|]. rewrite app_assoc, !last_last. reflexivity. Qed.

  Lemma register_eq ds s name info vt found props : tinv ds s -> declarable ident props -> (forall q p, In q ds -> In p props -> agree q p) ->
    (forall locs l m x, found = Ok locs -> In l locs -> meta l = Ok m -> In x m -> good_record props (snd x)) ->
    snd (register_typed s name info vt found (Some props)) = snd (register all meta (fst s) name info vt found (Some props)) /\
    fst (last (fst (register_typed s name info vt found (Some props))) s) = last_db (fst s) (fst (register all meta (fst s) name info vt found (Some props))).
  Proof using.
    intros [I C] [Dd Dp] Ag G. set (ds' := ds ++ props).
    assert (Nl : NoDup (map (fun p => lower (p_name p)) props)).
    { apply NoDup_nth_error. intros i j Hi E. rewrite map_length in Hi. rewrite !nth_error_map in E. destruct (nth_error props i) as [p|] eqn:P; [|apply nth_error_None in P; lia].
      destruct (nth_error props j) as [q|] eqn:Q; [|discriminate]. cbn in E. apply (Dd i j p q P Q). apply same_name_lower. congruence. }
    assert (Nn : NoDup (map p_name props)). { clear - Nl. induction props as [|p props IH]; [constructor|]. cbn in *. inversion Nl; subst. constructor; [|auto]. intros H. apply H1. apply in_map_iff in H as (q & <- & Q). apply in_map_iff. exists q. auto. }
    assert (Ag' : forall p q, In q ds' -> In p props -> agree q p).
    { intros p q Q P. apply in_app_or in Q as [Q|Q]; [auto|]. intros E. apply In_nth_error in P as (i & Pi), Q as (j & Qj).
      assert (i = j) by (apply (Dd i j p q Pi Qj); apply same_name_lower; apply same_name_lower in E; congruence). subst j. rewrite Pi in Qj. injection Qj as <-. repeat split; auto. }
    assert (Dc : forall p, In p props -> decl ident p) by exact Dp.
    unfold SchemaModel.register_typed, register. destruct (negb vt); [split; reflexivity|]. destruct (insert_dataset (fst s) name info) as [[s1 did]|] eqn:Id; [|split; reflexivity].
    assert (C1 : columns s1 = columns (fst s)) by (unfold insert_dataset in Id; destruct (exists_dataset _ _); [discriminate|]; injection Id as <- <-; reflexivity).
    set (s2 := incr_version s1). destruct found as [[|l0 locs0]|]; [split; reflexivity| |split; reflexivity]. set (locs := l0 :: locs0) in *.
    (* columns *)
    unfold add_columns_typed.
    assert (Fe : filter (fun p => negb (existsb (str_eqb (p_name p)) (existing (snd s)))) props = filter (fun p => negb (existsb (str_eqb (p_name p)) (columns s2))) props).
    { apply filter_ext_in. intros p P. f_equal. unfold existing. rewrite existsb_app. unfold s2. cbn [incr_version columns]. rewrite C1, C.
      replace (existsb (str_eqb (p_name p)) fixed_columns) with false; [reflexivity|]. symmetry. apply existsb_str_false. intros H. destruct (Dc p P) as (_ & X & _). apply (X _ H). apply same_name_lower. reflexivity. }
    rewrite Fe. set (ps := filter _ props).
    destruct (add_columns_eq props) with (s := s2) as [A1 A2].
    { intros p P D O. destruct (Dc p P) as (_ & _ & X). destruct (X D) as (_ & o & Ho & _). rewrite O in Ho. destruct Ho; discriminate. }
    { exact Nn. }
    fold ps in A2. destruct (add_columns s2 props) as [tr3 ok3] eqn:A. cbn [fst snd] in A1, A2. subst ok3.
    destruct (add_each_ok ident ds' ps) with (sc := snd s) as (scs & E & Ec & Ek & Ef).
    { intros p P. apply filter_In in P as [P _]. apply in_or_app. right. exact P. }
    { intros p q Q P. apply filter_In in P as [P _]. apply Ag'; assumption. }
    { apply Forall_forall. intros p P. apply filter_In in P as [P _]. apply Dc, P. }
    { unfold ps. clear - Nn. induction props as [|p props IH]; [constructor|]. cbn [map filter] in *. inversion Nn; subst. destruct (negb _); [|auto]. cbn [map]. constructor; [|auto].
      intros H. apply H1. apply in_map_iff in H as (q & <- & Q). apply filter_In in Q as [Q _]. apply in_map, Q. }
    { apply (inv_mono ds); [apply incl_appl, incl_refl|exact I]. }
    { intros p P. apply filter_In in P as [_ P]. apply negb_true_iff, existsb_str_false in P. unfold s2 in P. cbn [incr_version columns] in P. rewrite C1, C in P. exact P. }
    rewrite E. cbn [negb]. set (sc3 := last scs (snd s)).
    assert (L3 : last (map (with_schema s2) scs) (s2, snd s) = with_schema s2 sc3).
    { replace (s2, snd s) with (with_schema s2 (snd s)); [apply last_map|]. unfold with_schema. rewrite <- C, <- C1. unfold s2. destruct s1. reflexivity. }
    rewrite L3. assert (Es3 : with_schema s2 sc3 = (last_db s2 tr3, sc3)).
    { unfold with_schema. f_equal. rewrite A2. f_equal. unfold sc3. rewrite Ec, <- C, <- C1. reflexivity. }
    rewrite Es3. cbv iota beta. set (s3 := last_db s2 tr3). destruct (insert_files s3 did locs) as [s4 fids] eqn:Fi. set (s5 := incr_version s4).
    assert (Ty : typed sc3 props).
    { intros p P. destruct (existsb (str_eqb (p_name p)) (columns s2)) eqn:X.
      - assert (Y : exists t, aget str_eqb (p_name p) (cols (snd s)) = Some t).
        { apply existsb_str in X. unfold s2 in X. cbn [incr_version columns] in X. rewrite C1, C in X. clear - X. induction (cols (snd s)) as [|[k v] l IH]; [destruct X|]. cbn [aget map fst] in *.
          destruct (str_eqb (p_name p) k) eqn:Y; [eauto|]. apply IH. destruct X as [X|X]; [|exact X]. exfalso. subst k. assert (Z : str_eqb (p_name p) (p_name p) = true) by (apply str_eqb_spec; reflexivity). congruence. }
        destruct Y as (t & Y). exists t. split; [apply Ek, Y|]. apply (column_fits ident ds' (snd s) p t); [|intros q Q; apply Ag'; assumption|apply Dc, P|exact Y].
        apply (inv_mono ds); [apply incl_appl, incl_refl|exact I].
      - apply Ef. apply filter_In. split; [exact P|]. rewrite X. reflexivity. }
    rewrite (insert_chunks_eq sc3 did props) by (exact Ty || (intros c t m x Hc Ht Hm Hx; apply (G locs (snd t) m x eq_refl); [|exact Hm|exact Hx]; apply chunks_of_incl in Hc; apply Hc in Ht; destruct t as [f l]; apply in_combine_r in Ht; exact Ht)).
    destruct (insert_chunks all meta s5 did props _) as [tr6 ok6]. cbn [fst snd].
    assert (L6 : @last tdb (map (fun d => (d, sc3)) tr6) (s5, sc3) = (last_db s5 tr6, sc3)) by (unfold last_db; apply (last_map (fun d => (d, sc3)))).
    destruct ok6; cbn [negb fst snd]; (split; [reflexivity|]).
    - cbv zeta. rewrite L6. cbn [fst snd]. rewrite !app_assoc. rewrite last_last, last_db_app. reflexivity.
    - rewrite !last_t_app. rewrite (last_db_app (fst s)), (last_db_app _ tr3), (last_db_app _ [s4; s5]). cbn [last]. rewrite L6. reflexivity.
  Qed.
End S.
