(** Proofs about column types. *)
From Coq Require Import String.
From Verif Require Import Base MixtureKeyModel MixtureKeyProofs ChunkGenModel ParserModel SpecParser MdcModel SpecMdc MdcProofs SchemaModel SpecSchema.
Open Scope Z_scope.

Lemma same_name_lower a b : same_name a b <-> lower a = lower b.
Proof.
  unfold same_name, lower. split.
  - induction 1 as [|c d a b E H IH]; [reflexivity|]. cbn [map]. rewrite IH. f_equal. unfold same_letter in E.
    destruct ((65 <=? c) && (c <=? 90)) eqn:A; destruct ((65 <=? d) && (d <=? 90)) eqn:B; lia.
  - revert b. induction a as [|c a IH]; intros [|d b] E; try discriminate; [constructor|]. cbn [map] in E. injection E as E1 E2. constructor; [|apply IH, E2].
    unfold same_letter. destruct ((65 <=? c) && (c <=? 90)) eqn:A; destruct ((65 <=? d) && (d <=? 90)) eqn:B; lia.
Qed.
Lemma existsb_str x l : existsb (str_eqb x) l = true <-> In x l.
Proof.
  rewrite existsb_exists. split; [intros (y & H & E); apply str_eqb_spec in E; subst; exact H|intros H; exists x; split; [exact H|apply str_eqb_spec; reflexivity]].
Qed.
Lemma existsb_str_false x l : existsb (str_eqb x) l = false <-> ~ In x l.
Proof. rewrite <- existsb_str. destruct (existsb (str_eqb x) l); split; intuition congruence. Qed.
Lemma valid_options_ok o : NoDup o -> (forall s, In s o -> ~ In 39 s) -> valid_options o = true.
Proof.
  intros N Q. unfold valid_options. apply andb_true_iff. split.
  - induction N as [|x l H N IH]; [reflexivity|]. apply andb_true_iff. split; [|apply IH; intros s I; apply Q; right; exact I].
    apply negb_true_iff, existsb_str_false, H.
  - apply forallb_forall. intros s I. apply negb_true_iff. destruct (existsb (Z.eqb 39) s) eqn:E; [|reflexivity].
    apply existsb_exists in E as (c & H & E). apply Z.eqb_eq in E. subst c. destruct (Q s I H).
Qed.
Lemma lower_enum p q : lower (enum_name p) = lower (enum_name q) -> lower (p_name p) = lower (p_name q).
Proof. unfold enum_name, lower. rewrite !map_app. apply app_inv_head. Qed.
Lemma option_list_spec p s : (exists o, option_list p = Some o /\ In s o) <-> an_option p s.
Proof.
  unfold option_list, an_option. destruct (p_options p) as [|o|o]; split; try (intros (? & [=] & ?)); try contradiction; subst; eauto; intros H; exists o; auto.
Qed.

(** ** What the schema of a reachable catalogue is *)
Definition from_enum (ds : list mprop) (n : str) (o : list str) : Prop :=
  exists q o0, In q ds /\ lower (enum_name q) = n /\ p_dtype q = DEnum /\ option_list q = Some o0 /\ o = enum_values o0.
Definition of_decl (ds : list mprop) (p : mprop) (t : ctype) : Prop :=
  match t with
  | CText m => p_dtype p = DString /\ p_multiple p = m
  | CEnum o m => p_dtype p = DEnum /\ p_multiple p = m /\ from_enum ds (lower (enum_name p)) o
  end.
Definition inv (ds : list mprop) (sc : schema) : Prop :=
  (forall n t, In (n, t) (cols sc) -> exists p, In p ds /\ p_name p = n /\ of_decl ds p t) /\
  (forall n o, In (n, o) (types sc) -> from_enum ds n o).
Lemma from_enum_mono ds ds' n o : incl ds ds' -> from_enum ds n o -> from_enum ds' n o.
Proof. intros I (q & o0 & H & R). exists q, o0. split; [apply I, H|exact R]. Qed.
Lemma inv_mono ds ds' sc : incl ds ds' -> inv ds sc -> inv ds' sc.
Proof.
  intros I [H1 H2]. split.
  - intros n t H. destruct (H1 n t H) as (p & P & E & D). exists p. split; [apply I, P|]. split; [exact E|]. destruct t as [m|o m]; [exact D|].
    destruct D as (D1 & D2 & D3). split; [exact D1|]. split; [exact D2|]. apply (from_enum_mono ds); assumption.
  - intros n o H. apply (from_enum_mono ds); [exact I|]. apply H2, H.
Qed.

Section S.
  Variable ident : str -> bool.
  Variable show_list : list pval -> str.
  Variable parse_list : str -> option (list pval).
  Notation enum_type := (enum_type ident).
  Notation alter := (alter ident).
  Notation add_column := (add_column ident).
  Notation add_each := (add_each ident).
  Notation add_columns_typed := (add_columns_typed ident).

  Lemma alter_inv ds sc p t sc' : inv ds sc -> In p ds -> of_decl ds p t -> In sc' (fst (alter sc p t)) -> inv ds sc'.
  Proof.
    intros [H1 H2] P D H. unfold SchemaModel.alter in H. destruct (_ && _); [|destruct H]. destruct H as [<-|[]]. split; [|exact H2]. cbn [cols].
    intros n u I. apply in_app_or in I as [I|[[= <- <-]|[]]]; [apply H1, I|]. exists p. auto.
  Qed.
  Lemma enum_type_inv ds sc p tr o : inv ds sc -> In p ds -> p_dtype p = DEnum -> enum_type sc p = Some (tr, o) ->
    from_enum ds (lower (enum_name p)) o /\ (forall sc', In sc' tr -> inv ds sc') /\ inv ds (last tr sc) /\ cols (last tr sc) = cols sc.
  Proof.
    intros Hi P D H. destruct Hi as [H1 H2]. unfold SchemaModel.enum_type in H. destruct (aget str_eqb _ (types sc)) as [o'|] eqn:A.
    - injection H as <- <-. apply (aget_in str_eqb str_eqb_spec) in A. split; [apply H2, A|]. split; [intros ? []|]. split; [split; assumption|reflexivity].
    - destruct (option_list p) as [o0|] eqn:O; [|discriminate]. destruct (_ && _); [|discriminate]. injection H as <- <-.
      assert (F : from_enum ds (lower (enum_name p)) (enum_values o0)) by (exists p, o0; auto). split; [exact F|].
      assert (X : inv ds (Schema (cols sc) (types sc ++ [(lower (enum_name p), enum_values o0)]))).
      { split; [exact H1|]. cbn [types]. intros n o I. apply in_app_or in I as [I|[[= <- <-]|[]]]; [apply H2, I|exact F]. }
      split; [intros ? [<-|[]]; exact X|]. split; [exact X|reflexivity].
  Qed.
  Lemma last_cons {A} (l : list A) x : l <> [] -> In (last l x) l.
  Proof. intros N. destruct (exists_last N) as (l' & y & ->). rewrite last_last. apply in_or_app. right. left. reflexivity. Qed.
  Lemma last_inv {A} (Q : A -> Prop) l x : Q x -> (forall y, In y l -> Q y) -> Q (last l x).
  Proof. intros H H'. destruct l as [|a l]; [exact H|]. apply H', last_cons. discriminate. Qed.
  Lemma add_column_inv ds sc p sc' : inv ds sc -> In p ds -> In sc' (fst (add_column sc p)) -> inv ds sc'.
  Proof.
    intros I P H. unfold SchemaModel.add_column in H. destruct (p_dtype p) eqn:D.
    - apply (alter_inv ds sc p (CText (p_multiple p))); auto. split; auto.
    - destruct (enum_type sc p) as [[tr o]|] eqn:E; [|destruct H]. destruct (enum_type_inv ds sc p tr o I P D E) as (F & T & L & _).
      destruct (alter (last tr sc) p _) as [tr' ok] eqn:A. cbn [fst] in H. apply in_app_or in H as [H|H]; [apply T, H|].
      apply (alter_inv ds (last tr sc) p (CEnum o (p_multiple p))); auto; [split; auto|]. rewrite A. exact H.
  Qed.
  Lemma add_each_inv ds ps : incl ps ds -> forall sc sc', inv ds sc -> In sc' (fst (add_each sc ps)) -> inv ds sc'.
  Proof.
    induction ps as [|p ps IH]; intros Ps sc sc' I H; [destruct H|]. cbn [SchemaModel.add_each] in H. destruct (add_column sc p) as [tr ok] eqn:A.
    assert (P : In p ds) by (apply Ps; left; reflexivity).
    assert (T : forall x, In x tr -> inv ds x) by (intros x X; apply (add_column_inv ds sc p); auto; rewrite A; exact X).
    destruct ok; [|apply T, H]. destruct (add_each (last tr sc) ps) as [tr' ok'] eqn:B. cbn [fst] in H. apply in_app_or in H as [H|H]; [apply T, H|].
    apply (IH ltac:(intros x X; apply Ps; right; exact X) (last tr sc)); [apply last_inv; auto|]. rewrite B. exact H.
  Qed.
  Lemma add_columns_inv ds sc props sc' : incl props ds -> inv ds sc -> In sc' (fst (add_columns_typed sc props)) -> inv ds sc'.
  Proof. intros P I H. unfold SchemaModel.add_columns_typed in H. eapply add_each_inv; [|exact I|exact H]. intros p X. apply filter_In in X as [X _]. apply P, X. Qed.

  (** Reachable catalogues. *)
  Definition tinv (ds : list mprop) (s : tdb) : Prop := inv ds (snd s) /\ columns (fst s) = map fst (cols (snd s)).
  Notation insert_samples_typed := (insert_samples_typed show_list parse_list).
  Notation insert_chunks_typed := (insert_chunks_typed show_list parse_list).
  Notation register_typed := (register_typed ident show_list parse_list).
  Lemma insert_chunks_schema meta did props chunks : forall s s', In s' (fst (insert_chunks_typed meta s did props chunks)) ->
    snd s' = snd s /\ columns (fst s') = columns (fst s).
  Proof.
    induction chunks as [|c chunks IH]; intros s s' H; [destruct H|]. cbn [SchemaModel.insert_chunks_typed] in H. destruct (sequence _) as [results|]; [|destruct H].
    destruct (insert_samples_typed s did props results) as [s1|] eqn:E; [|destruct H].
    assert (X : snd s1 = snd s /\ columns (fst s1) = columns (fst s)).
    { unfold SchemaModel.insert_samples_typed in E. destruct (all_some _) as [rows|]; [|discriminate]. destruct (no_dup_keys _); [|discriminate]. injection E as <-. split; reflexivity. }
    destruct (insert_chunks_typed meta s1 did props chunks) as [tr ok] eqn:R. cbn [fst] in H. destruct H as [<-|H]; [exact X|].
    destruct (IH s1 s') as [A B]; [rewrite R; exact H|]. destruct X as [X Y]. split; congruence.
  Qed.
  Lemma register_tinv ds meta s name info vt found props tr o s' : tinv ds s ->
    register_typed meta s name info vt found props = (tr, o) -> In s' (s :: tr) ->
    tinv (ds ++ match props with Some ps => ps | None => [] end) s'.
  Proof.
    intros I H J. set (ds' := ds ++ _). assert (I' : tinv ds' s) by (destruct I as [I C]; split; [apply (inv_mono ds); [apply incl_appl, incl_refl|exact I]|exact C]).
    destruct J as [<-|J]; [exact I'|]. unfold SchemaModel.register_typed in H. destruct (negb vt); [injection H as <- <-; destruct J|].
    unfold insert_dataset in H. destruct (exists_dataset (fst s) name); [injection H as <- <-; destruct J|].
    match type of H with context [incr_version ?x] => set (s1 := x) in * end. set (s2 := incr_version s1) in *.
    assert (T2 : forall x, In x [(s1, snd s); (s2, snd s)] -> tinv ds' x) by (intros x [<-|[<-|[]]]; exact I').
    destruct found as [[|l0 locs]|]; [injection H as <- <-; apply T2, J| |injection H as <- <-; apply T2, J].
    destruct props as [props|]; [|injection H as <- <-; apply T2, J].
    set (ls := l0 :: locs) in *. destruct (add_columns_typed (snd s) props) as [scs ok3] eqn:A.
    assert (T3 : forall x, In x (map (with_schema s2) scs) -> tinv ds' x).
    { intros x X. apply in_map_iff in X as (sc & <- & X). split; [|reflexivity]. cbn [with_schema snd].
      apply (add_columns_inv ds' (snd s) props); [apply incl_appr, incl_refl|apply I'|]. rewrite A. exact X. }
    destruct (negb ok3); [injection H as <- <-; destruct J as [J|[J|J]]; [apply T2; left; exact J|apply T2; right; left; exact J|apply T3, J]|].
    assert (L3 : tinv ds' (last (map (with_schema s2) scs) (s2, snd s))) by (apply last_inv; [exact I'|exact T3]).
    destruct (last (map (with_schema s2) scs) (s2, snd s)) as [s3 sc3] eqn:E3.
    destruct (insert_files s3 (next_dataset (fst s)) ls) as [s4 fids] eqn:F.
    assert (C4 : columns s4 = columns s3) by (unfold insert_files in F; injection F as <- <-; reflexivity).
    destruct L3 as [L3 C3]. cbn [fst snd] in L3, C3.
    assert (T4 : forall x, snd x = sc3 -> columns (fst x) = columns s4 -> tinv ds' x) by (intros [x y] X Y; cbn [fst snd] in X, Y; subst y; split; cbn [fst snd]; [exact L3|congruence]).
    destruct (insert_chunks_typed meta _ _ _ _) as [tr6 ok6] eqn:B.
    assert (T6 : forall x, In x tr6 -> snd x = sc3 /\ columns (fst x) = columns s4) by (intros x X; apply (insert_chunks_schema meta (next_dataset (fst s)) props (chunks_of (length ls) chunk_size (combine fids ls)) (incr_version s4, sc3) x); rewrite B; exact X).
    assert (T45 : forall x, In x [(s4, sc3); (incr_version s4, sc3)] -> tinv ds' x) by (intros x [<-|[<-|[]]]; apply T4; reflexivity).
    destruct (negb ok6); injection H as <- <-.
    - destruct J as [J|[J|J]]; [apply T2; left; exact J|apply T2; right; left; exact J|]. apply in_app_or in J as [J|J]; [apply T3, J|].
      destruct J as [J|[J|J]]; [apply T45; left; exact J|apply T45; right; left; exact J|]. apply T6 in J as [X Y]. apply T4; assumption.
    - destruct J as [J|[J|J]]; [apply T2; left; exact J|apply T2; right; left; exact J|]. apply in_app_or in J as [J|J]; [apply T3, J|].
      destruct J as [J|[J|J]]; [apply T45; left; exact J|apply T45; right; left; exact J|]. apply in_app_or in J as [J|J]; [apply T6 in J as [X Y]; apply T4; assumption|]. destruct J as [<-|[]].
      assert (X : snd (last tr6 (incr_version s4, sc3)) = sc3 /\ columns (fst (last tr6 (incr_version s4, sc3))) = columns s4) by (apply (last_inv (fun x => snd x = sc3 /\ columns (fst x) = columns s4)); [split; reflexivity|exact T6]).
      apply T4; [apply X|]. cbn [fst]. unfold incr_version at 1. cbn [columns]. apply X.
  Qed.
  Lemma past_tinv ds s : past ident show_list parse_list ds s -> tinv ds s.
  Proof.
    induction 1 as [|ds s meta name info vt found props tr o s' P IH R J|ds s meta name info vt found tr o s' P IH R J|ds s name tr o s' P IH R J].
    - split; [split; intros ? ? []|reflexivity].
    - exact (register_tinv ds meta s name info vt found (Some props) tr o s' IH R J).
    - assert (X := register_tinv ds meta s name info vt found None tr o s' IH R J). cbn in X. rewrite app_nil_r in X. exact X.
    - destruct J as [<-|J]; [exact IH|]. unfold remove_typed in R. destruct (remove (fst s) name) as [tr' o'] eqn:E. injection R as <- <-.
      apply in_map_iff in J as (d & <- & J). destruct IH as [I C]. split; [exact I|]. cbn [fst snd]. rewrite <- C.
      unfold remove in E. destruct (negb _); [injection E as <- <-; destruct J|]. injection E as <- <-.
      repeat destruct J as [<-|J]; try reflexivity. destruct J.
  Qed.

  (** ** The columns a registration needs *)
  Definition fits (p : mprop) (t : ctype) : Prop :=
    match t with
    | CText m => p_dtype p = DString /\ p_multiple p = m
    | CEnum o m => p_dtype p = DEnum /\ p_multiple p = m /\ forall s, In s o <-> an_option p s
    end.
  Definition decl (p : mprop) : Prop := ident (p_name p) = true /\ (forall c, In c fixed_columns -> ~ same_name c (p_name p)) /\
     (p_dtype p = DEnum -> ident (enum_name p) = true /\
        exists o, (p_options p = OSet o \/ p_options p = OList o) /\ o <> [] /\ NoDup o /\ (forall s, In s o -> ~ In 39 s)).
  Lemma enum_fits ds p o : (forall q, In q ds -> agree q p) -> decl p -> p_dtype p = DEnum -> from_enum ds (lower (enum_name p)) o ->
    forall s, In s o <-> an_option p s.
  Proof.
    intros Ag D E (q & o0 & Q & N & Dq & Oq & ->) s. apply lower_enum in N.
    destruct (Ag q Q) as (_ & _ & _ & X); [apply same_name_lower, N|]. rewrite <- (X Dq s).
    assert (Y : forall x, In x o0 <-> an_option q x). { intros x. rewrite <- option_list_spec. rewrite Oq. split; [eauto|]. intros (? & [= <-] & ?). assumption. }
    assert (Ne : o0 <> []).
    { intros ->. destruct D as (_ & _ & D). destruct (D E) as (_ & o' & Ho & No & _). destruct o' as [|x o']; [contradiction|].
      assert (Z : an_option p x) by (unfold an_option; destruct Ho as [->| ->]; left; reflexivity). rewrite <- (X Dq x), <- Y in Z. destruct Z. }
    unfold enum_values. destruct o0; [contradiction|]. apply Y.
  Qed.
  Lemma column_fits ds sc p t : inv ds sc -> (forall q, In q ds -> agree q p) -> decl p -> aget str_eqb (p_name p) (cols sc) = Some t -> fits p t.
  Proof.
    intros [H1 _] Ag D A. apply (aget_in str_eqb str_eqb_spec) in A. destruct (H1 _ _ A) as (q & Q & N & O).
    destruct (Ag q Q) as (_ & X1 & X2 & _); [apply same_name_lower; rewrite N; reflexivity|]. destruct t as [m|o m]; cbn [of_decl fits] in *.
    - destruct O. split; congruence.
    - destruct O as (O1 & O2 & O3). split; [congruence|]. split; [congruence|]. apply (enum_fits ds p o Ag D); [congruence|].
      replace (enum_name p) with (enum_name q); [exact O3|]. unfold enum_name. rewrite N. reflexivity.
  Qed.
  Lemma alter_ok ds sc p t : inv ds sc -> (forall q, In q ds -> agree q p) -> decl p -> ~ In (p_name p) (map fst (cols sc)) ->
    alter sc p t = ([Schema (cols sc ++ [(p_name p, t)]) (types sc)], true).
  Proof.
    intros [H1 _] Ag D N. unfold SchemaModel.alter. destruct D as (D1 & D2 & _). rewrite D1. cbn [andb].
    replace (existsb _ _) with false; [reflexivity|]. symmetry. destruct (existsb _ _) eqn:E; [|reflexivity]. exfalso. apply existsb_exists in E as (c & C & E).
    apply str_eqb_spec in E. apply same_name_lower in E. unfold existing in C. apply in_app_or in C as [C|C]; [apply (D2 c C), E|].
    apply in_map_iff in C as ([n u] & <- & C). cbn [fst] in *. destruct (H1 _ _ C) as (q & Q & Nq & _). subst n.
    destruct (Ag q Q E) as (X & _). apply N. rewrite <- X. apply (in_map fst) in C. exact C.
  Qed.
  Lemma add_column_ok ds sc p : inv ds sc -> In p ds -> (forall q, In q ds -> agree q p) -> decl p -> ~ In (p_name p) (map fst (cols sc)) ->
    exists tr t, add_column sc p = (tr, true) /\ tr <> [] /\ cols (last tr sc) = cols sc ++ [(p_name p, t)] /\ fits p t.
  Proof.
    intros I P Ag D N. unfold SchemaModel.add_column. destruct (p_dtype p) eqn:T.
    - rewrite (alter_ok ds) by assumption. eexists _, _. split; [reflexivity|]. split; [discriminate|]. split; [reflexivity|]. split; [exact T|reflexivity].
    - assert (X : exists tr o, enum_type sc p = Some (tr, o)).
      { unfold SchemaModel.enum_type. destruct (aget _ _ _); [eauto|]. destruct D as (_ & _ & D). destruct (D T) as (D1 & o & Ho & Ne & Nd & Nq).
        assert (E : option_list p = Some o) by (unfold option_list; destruct Ho as [->| ->]; reflexivity). rewrite E, D1. cbn [andb].
        replace (enum_values o) with o by (destruct o; [contradiction|reflexivity]). rewrite valid_options_ok by assumption. eauto. }
      destruct X as (tr & o & X). rewrite X. destruct (enum_type_inv ds sc p tr o I P T X) as (F & _ & L & C).
      rewrite (alter_ok ds) by (try assumption; rewrite C; assumption). eexists _, _. split; [reflexivity|].
      split; [destruct tr; discriminate|]. rewrite last_last. cbn [cols]. rewrite C. split; [reflexivity|]. split; [exact T|]. split; [reflexivity|]. apply (enum_fits ds p o Ag D T F).
  Qed.
  Lemma add_each_ok ds ps : incl ps ds -> (forall p q, In q ds -> In p ps -> agree q p) -> Forall decl ps -> NoDup (map p_name ps) ->
    forall sc, inv ds sc -> (forall p, In p ps -> ~ In (p_name p) (map fst (cols sc))) ->
    exists tr, add_each sc ps = (tr, true) /\ map fst (cols (last tr sc)) = map fst (cols sc) ++ map p_name ps /\
      (forall n t, aget str_eqb n (cols sc) = Some t -> aget str_eqb n (cols (last tr sc)) = Some t) /\
      (forall p, In p ps -> exists t, aget str_eqb (p_name p) (cols (last tr sc)) = Some t /\ fits p t).
  Proof.
    induction ps as [|p ps IH]; intros Ps Ag D N sc I F.
    - exists []. split; [reflexivity|]. cbn [last map]. rewrite app_nil_r. split; [reflexivity|]. split; [auto|]. intros p [].
    - inversion D as [|? ? D1 D2]; subst. cbn [map] in N. inversion N as [|? ? N1 N2]; subst. assert (Pd : In p ds) by (apply Ps; left; reflexivity).
      destruct (add_column_ok ds sc p I Pd (fun q Q => Ag p q Q (or_introl eq_refl)) D1 (F p (or_introl eq_refl))) as (tr & t & A & Ne & C & Ft).
      assert (I' : inv ds (last tr sc)). { apply (add_column_inv ds sc p); [exact I|exact Pd|]. rewrite A. apply last_cons, Ne. }
      destruct (IH ltac:(intros x X; apply Ps; right; exact X) ltac:(intros x q Q X; apply Ag; [exact Q|right; exact X]) D2 N2 (last tr sc) I') as (tr' & A' & C' & K & Ft').
      { intros q Q X. rewrite C, map_app in X. apply in_app_or in X as [X|[X|[]]]; [exact (F q (or_intror Q) X)|]. apply N1. cbn [fst] in X. rewrite X. apply in_map, Q. }
      cbn [SchemaModel.add_each]. rewrite A, A'. exists (tr ++ tr'). split; [reflexivity|].
      assert (L : last (tr ++ tr') sc = last tr' (last tr sc)).
      { clear. destruct tr' as [|x tr']; [rewrite app_nil_r; reflexivity|]. destruct (exists_last (l := x :: tr')) as (l & y & ->); [discriminate|]. rewrite app_assoc, !last_last. reflexivity. }
      rewrite L. split; [rewrite C', C, map_app, <- app_assoc; reflexivity|].
      assert (G : forall n u, aget str_eqb n (cols sc) = Some u -> aget str_eqb n (cols (last tr sc)) = Some u).
      { intros n u H. rewrite C. clear - H. induction (cols sc) as [|[k v] l IH]; [discriminate|]. cbn [aget app] in *. destruct (str_eqb n k); auto. }
      split; [intros n u H; apply K, G, H|]. intros q [<-|Q]; [|apply Ft', Q]. exists t. split; [|exact Ft]. apply K. rewrite C.
      assert (X : ~ In (p_name p) (map fst (cols sc))) by (apply F; left; reflexivity). clear - X. induction (cols sc) as [|[k v] l IH]; cbn [aget app].
      + replace (str_eqb (p_name p) (p_name p)) with true; [reflexivity|]. symmetry. apply str_eqb_spec. reflexivity.
      + destruct (str_eqb (p_name p) k) eqn:E; [|apply IH; intros H; apply X; right; exact H]. apply str_eqb_spec in E. exfalso. apply X. left. symmetry. exact E.
  Qed.
End S.
