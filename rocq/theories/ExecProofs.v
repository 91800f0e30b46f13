(** Proofs about the execution of a query (C72): rows, groups and properties. *)
From Coq Require Import String.
From Verif Require Import Base MixtureKeyModel MixtureKeyProofs ParserModel MdcModel SqlModel SpecSql IntervalModel SpecInterval IntervalProofs PropertiesInterval
  ChunkerModel SpecChunker ExecModel SpecChunk SpecExec.
Open Scope Z_scope.

Lemma sval_cmp_eq a b : sval_cmp a b = Eq <-> a = b.
Proof.
  destruct a as [x|x], b as [y|y]; cbn.
  - rewrite Z.compare_eq_iff. split; congruence.
  - split; discriminate.
  - split; discriminate.
  - rewrite str_cmp_eq. split; congruence.
Qed.
Lemma sval_eqb_spec a b : sval_eqb a b = true <-> a = b.
Proof. unfold sval_eqb. rewrite <- sval_cmp_eq. destruct (sval_cmp a b); split; congruence. Qed.
Lemma opt_eqb_spec {A} (eqb : A -> A -> bool) : (forall a b, eqb a b = true <-> a = b) -> forall a b, opt_eqb eqb a b = true <-> a = b.
Proof. intros H [a|] [b|]; cbn; rewrite ?H; split; congruence. Qed.
Lemma cell_eqb_spec a b : cell_eqb a b = true <-> a = b.
Proof.
  destruct a as [x|x], b as [y|y]; cbn; try (split; discriminate).
  - rewrite (opt_eqb_spec _ sval_eqb_spec). split; congruence.
  - rewrite (opt_eqb_spec _ (list_eqb_spec _ (opt_eqb_spec _ sval_eqb_spec))). split; congruence.
Qed.
Lemma group_eqb_spec a b : group_eqb a b = true <-> a = b.
Proof.
  destruct a as [[d f] l], b as [[d' f'] l']. unfold group_eqb. rewrite !andb_true_iff, !Z.eqb_eq, (list_eqb_spec _ cell_eqb_spec). split; [intros [[-> ->] ->]; reflexivity|intros [= -> -> ->]; auto].
Qed.

(** ** Rows *)
Lemma in_cols_aget cols c (m : bool) : NoDup (map fst cols) -> (In (c, m) cols <-> aget str_eqb c cols = Some m).
Proof. intros N. split; [apply (in_aget _ str_eqb_spec); exact N|apply (aget_in _ str_eqb_spec)]. Qed.

Section Table.
  Variable cols : list (str * bool).
  Hypothesis Hc : NoDup (map fst cols).
  Hypothesis Hr : forall c, In c (map fst cols) -> ~ In c reserved.

  Lemma not_ids c m : In (c, m) cols -> str_eqb c n_dataset = false /\ str_eqb c n_file = false /\ str_eqb c n_sample = false.
  Proof using Hr.
    intros H. assert (N := Hr c (in_map fst _ _ H)). unfold reserved in N. cbn [In fst] in N.
    assert (Q : forall n, c <> n -> str_eqb c n = false) by (intros n Hn; apply (eqb_neq_ _ str_eqb_spec), Hn).
    repeat split; apply Q; intros E; apply N; rewrite E; auto.
  Qed.
  Lemma row_property x c m : In (c, m) cols -> row_of cols x c = Some (cell_of m (value_of (snd x) c)).
  Proof using Hc Hr.
    intros H. destruct (not_ids c m H) as (E1 & E2 & E3). destruct x as [[[d f] i] r]. unfold row_of. rewrite E1, E2, E3.
    rewrite (proj1 (in_cols_aget cols c m Hc) H). reflexivity.
  Qed.
  Lemma typed_row x : typed (schema_of cols) (row_of cols x).
  Proof using.
    intros c. destruct x as [[[d f] i] r]. unfold schema_of, row_of. cbn [aget]. destruct (str_eqb c n_dataset); [eexists; reflexivity|]. destruct (str_eqb c n_file); [eexists; reflexivity|].
    destruct (str_eqb c n_sample); [eexists; reflexivity|]. destruct (aget str_eqb c cols) as [[|]|]; [| |exact I]; eexists; reflexivity.
  Qed.
  (** What the model puts into a cell is what the specification says is in the column. *)
  Lemma cell_values multi v : value_ok multi v ->
    cell_of multi v = if multi then CArray (option_map (map (fun s => Some (SText s))) (values_of v))
                      else CScalar (match values_of v with Some (s :: _) => Some (SText s) | _ => None end).
  Proof using.
    destruct v as [|s|z|l|dd]; cbn; try contradiction; intros H.
    - destruct multi; reflexivity.
    - subst multi. reflexivity.
    - destruct H as [-> H]. cbn. unfold cell_of. f_equal. f_equal. induction l as [|e l IH]; [reflexivity|]. destruct (H e (or_introl eq_refl)) as (s & ->).
      cbn. f_equal. apply IH. intros e' He. apply H. right. exact He.
  Qed.
  Lemma scalar_one v : value_ok false v -> values_of v = None \/ exists s, values_of v = Some [s].
  Proof using. destruct v as [|s|z|l|dd]; cbn; try contradiction; [auto|eauto|intros [H _]; discriminate]. Qed.
  Lemma row_in_column x c v : sample_ok cols x -> (row_of cols x c = Some v <-> in_column cols x c v).
  Proof using Hc Hr.
    intros Hx. split.
    - intros E. destruct x as [[[d f] i] r]. assert (E' := E). unfold row_of in E.
      destruct (str_eqb c n_dataset) eqn:E1; [apply str_eqb_spec in E1; injection E as <-; subst c; constructor|].
      destruct (str_eqb c n_file) eqn:E2; [apply str_eqb_spec in E2; injection E as <-; subst c; constructor|].
      destruct (str_eqb c n_sample) eqn:E3; [apply str_eqb_spec in E3; injection E as <-; subst c; constructor|].
      destruct (aget str_eqb c cols) as [m|] eqn:Ea; [|discriminate]. apply (in_cols_aget cols c m Hc) in Ea. injection E as <-.
      assert (Hv := Hx c m Ea). cbn [snd] in Hv. rewrite (cell_values m _ Hv). destruct m.
      + destruct (values_of (value_of r c)) eqn:Ev; cbn; constructor; assumption.
      + destruct (scalar_one _ Hv) as [Ev|(s & Ev)]; rewrite Ev; constructor; assumption.
    - intros H. destruct H; [reflexivity|reflexivity|reflexivity| | | |]; (erewrite row_property by eassumption; rewrite (cell_values _ _ (Hx _ _ H)), H0; reflexivity).
  Qed.
  Lemma matches_row na sels x : sample_ok cols x ->
    ((exists cs, In cs sels /\ all_hold sval_cmp na (schema_of cols) (row_of cols x) cs) <-> matches na cols sels x).
  Proof using Hc Hr.
    intros Hx. split; intros (cs & H1 & H2); exists cs; (split; [exact H1|]); intros [[fd op] v] Hi He; destruct (H2 _ Hi He) as (y & o & A1 & A2); exists y, o;
      (split; [apply (row_in_column x _ _ Hx); exact A1|exact A2]).
  Qed.

  (** ** Groups *)
  Definition the_cells (r : record) : list (cell sval) := map (fun c => cell_of (match aget str_eqb c cols with Some m => m | None => false end) (value_of r c)) (group_cols cols).
  Definition the_group (x : sample) : group := let '((d, f, i), r) := x in (d, f, the_cells r).
  Definition the_id (x : sample) : Z := snd (fst x).
  Lemma group_row_eq x : group_row cols (row_of cols x) = (the_group x, the_id x).
  Proof using Hc Hr.
    destruct x as [[[d f] i] r]. unfold group_row, the_group, the_id, the_cells. cbn [fst snd].
    change (int_at (row_of cols (d, f, i, r)) n_dataset) with d. change (int_at (row_of cols (d, f, i, r)) n_file) with f. change (int_at (row_of cols (d, f, i, r)) n_sample) with i.
    do 2 f_equal. apply map_ext_in. intros c Hi. unfold group_cols in Hi. rewrite in_isort in Hi. apply in_map_iff in Hi as ([c' m] & <- & Hi). cbn [fst].
    unfold cell_at. rewrite (row_property (d, f, i, r) c' m Hi). rewrite (proj1 (in_cols_aget cols c' m Hc) Hi). reflexivity.
  Qed.
  Lemma group_cols_in c : In c (group_cols cols) <-> exists m, In (c, m) cols.
  Proof using. unfold group_cols. rewrite in_isort, in_map_iff. split; [intros ([c' m] & <- & H); eauto|intros (m & H); exists (c, m); auto]. Qed.
  Lemma group_cols_nodup : NoDup (group_cols cols).
  Proof using Hc. apply isort_NoDup, Hc. Qed.

  Lemma cell_vals_of m v : value_ok m v -> cell_vals (vcell_of (cell_of m v)) = values_of v.
  Proof using.
    destruct v as [|s|z|l|dd]; cbn; try contradiction; intros H.
    - destruct m; reflexivity.
    - subst m. reflexivity.
    - destruct H as [-> H]. cbn. f_equal. induction l as [|e l IH]; [reflexivity|]. destruct (H e (or_introl eq_refl)) as (s & ->). cbn. f_equal. apply IH. intros e' He. apply H. right. exact He.
  Qed.
  Lemma not_bad m v : vcell_of (cell_of m v) <> VBad.
  Proof using. destruct m, v; discriminate. Qed.
  Lemma combo_properties x : sample_ok cols x -> combo (group_cols cols) (map vcell_of (the_cells (snd x))) = properties cols (snd x).
  Proof using Hc Hr.
    intros Hx. unfold properties, the_cells. change (isort str_ltb (map fst cols)) with (group_cols cols). rewrite map_map.
    assert (Q : forall c, In c (group_cols cols) -> cell_vals (vcell_of (cell_of (match aget str_eqb c cols with Some m => m | None => false end) (value_of (snd x) c))) = values_of (value_of (snd x) c)).
    { intros c Hi. apply group_cols_in in Hi as (m & Hi). rewrite (proj1 (in_cols_aget cols c m Hc) Hi). apply cell_vals_of, Hx, Hi. }
    revert Q. generalize (group_cols cols). intros l. induction l as [|c l IH]; intros Q; [reflexivity|]. cbn [map combo flat_map]. rewrite (Q c (or_introl eq_refl)).
    specialize (IH (fun c H => Q c (or_intror H))). destruct (values_of (value_of (snd x) c)); cbn [app]; rewrite IH; reflexivity.
  Qed.
  Lemma properties_keys r : incl (map fst (properties cols r)) (group_cols cols) /\ NoDup (map fst (properties cols r)).
  Proof using Hc.
    unfold properties. change (isort str_ltb (map fst cols)) with (group_cols cols). assert (N := group_cols_nodup). revert N. generalize (group_cols cols). intros l N.
    induction N as [|c l Hn N [IH1 IH2]]; cbn [flat_map]; [split; [intros ? []|constructor]|]. destruct (values_of (value_of r c)); cbn [app map fst].
    - split; [intros y [<-|Hy]; [left; reflexivity|right; apply IH1, Hy]|constructor; [intros Hi; apply Hn, IH1, Hi|exact IH2]].
    - split; [intros y Hy; right; apply IH1, Hy|exact IH2].
  Qed.
  Lemma properties_lookup r c : In c (group_cols cols) -> aget str_eqb c (properties cols r) = values_of (value_of r c).
  Proof using Hc.
    unfold properties. change (isort str_ltb (map fst cols)) with (group_cols cols). assert (N := group_cols_nodup). revert N. generalize (group_cols cols). intros l N.
    induction N as [|c0 l Hn N IH]; [intros []|]. intros Hi. cbn [flat_map].
    destruct (str_eqb c c0) eqn:E.
    - apply str_eqb_spec in E. subst c0. destruct (values_of (value_of r c)) as [vs|]; cbn [app aget].
      + rewrite (eqb_refl_ _ str_eqb_spec). reflexivity.
      + apply (aget_none _ str_eqb_spec). intros Hk. apply Hn. apply in_map_iff in Hk as ([c1 vs] & <- & Hk). apply in_flat_map in Hk as (c2 & Hc2 & Hk).
        destruct (values_of (value_of r c2)); [destruct Hk as [Hk|[]]; injection Hk as <- _; exact Hc2|destruct Hk].
    - destruct Hi as [->|Hi]; [rewrite (eqb_refl_ _ str_eqb_spec) in E; discriminate|]. destruct (values_of (value_of r c0)); cbn [app aget]; [rewrite E|]; apply IH, Hi.
  Qed.
  (** Samples with the same properties are in the same group. *)
  Lemma same_properties x y : sample_ok cols x -> sample_ok cols y -> properties cols (snd x) = properties cols (snd y) -> the_cells (snd x) = the_cells (snd y).
  Proof using Hc.
    intros Hx Hy E. unfold the_cells. apply map_ext_in. intros c Hi. assert (V : values_of (value_of (snd x) c) = values_of (value_of (snd y) c)) by (rewrite <- !properties_lookup by exact Hi; rewrite E; reflexivity).
    apply group_cols_in in Hi as (m & Hi). rewrite (proj1 (in_cols_aget cols c m Hc) Hi). rewrite (cell_values m _ (Hx c m Hi)), (cell_values m _ (Hy c m Hi)), V. reflexivity.
  Qed.
End Table.

Lemma selects_map {A B} (P : B -> Prop) (f : A -> B) l r : selects P (map f l) r -> exists l', r = map f l' /\ selects (fun x => P (f x)) l l'.
Proof.
  revert r. induction l as [|x l IH]; intros r H; inversion H; subst.
  - exists []. split; [reflexivity|constructor].
  - destruct (IH _ H4) as (l' & -> & S). exists (x :: l'). split; [reflexivity|constructor; assumption].
  - destruct (IH _ H4) as (l' & -> & S). exists l'. split; [reflexivity|apply sel_out; assumption].
Qed.
Lemma selects_in {A} (P : A -> Prop) l r x : selects P l r -> (In x r <-> In x l /\ P x).
Proof.
  induction 1 as [|y l r Hy H IH|y l r Hy H IH]; cbn; [tauto| |].
  - rewrite IH. split; [intros [->|[]]; auto|intros [[->|Hx] Hp]; auto].
  - rewrite IH. split; [intros []; auto|intros [[->|Hx] Hp]; [contradiction|auto]].
Qed.
Lemma selects_nodup {A B} (P : A -> Prop) (f : A -> B) l r : selects P l r -> NoDup (map f l) -> NoDup (map f r).
Proof.
  induction 1 as [|y l r Hy H IH|y l r Hy H IH]; cbn; [auto| |]; intros N; inversion N; subst; [constructor|]; auto.
  intros Hi. apply H2. apply in_map_iff in Hi as (z & <- & Hz). apply in_map. apply (selects_in P l r z H) in Hz. tauto.
Qed.
