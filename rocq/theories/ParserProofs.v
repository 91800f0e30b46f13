(** Lemmas about metadata records. *)
From Coq Require Import String.
From Verif Require Import Base MixtureKeyModel MixtureKeyProofs ParserModel SpecParser.
Open Scope Z_scope.

Lemma existsb_str s o : existsb (str_eqb s) o = true <-> In s o.
Proof.
  rewrite existsb_exists. split.
  - intros (x & I & E). apply str_eqb_spec in E. now subst.
  - intros I. exists s. split; [assumption|]. now apply str_eqb_spec.
Qed.
Lemma contains_true o b v : contains o b v = POk true <-> exists s, v = PStr s /\ In s o.
Proof.
  unfold contains. destruct v as [|s|z|l|d]; cbn [hashable negb]; try (split; [destruct b; discriminate|intros (s' & H & _); discriminate]).
  rewrite andb_false_r. split.
  - intros H. exists s. split; [reflexivity|]. apply existsb_str. congruence.
  - intros (s' & [= <-] & I). apply existsb_str in I. now rewrite I.
Qed.
Lemma all_contained_true o b l : all_contained o b l = POk true <-> Forall (fun v => exists s, v = PStr s /\ In s o) l.
Proof.
  induction l as [|v l IH]; cbn [all_contained]; [split; auto; constructor|]. split.
  - destruct (contains o b v) as [[]|e] eqn:E; try discriminate. intros H. constructor; [now apply contains_true in E|now apply IH].
  - intros F. inversion F; subst. apply (contains_true o b) in H1. rewrite H1. now apply IH.
Qed.

Definition accepts (p : mprop) (v : pval) : Prop := well_typed p (to_record p v).

Lemma pval_none_dec (v : pval) : {v = PNone} + {v <> PNone}.
Proof. destruct v; (now left) || (right; discriminate). Qed.

Lemma check_enum_ok p v : (p_dtype p = DEnum -> p_options p <> NoOptions) -> (p_multiple p = true <-> is_list v) ->
  check_enum p v = POk tt <->
  (p_dtype p = DEnum -> (forall l, v = PList l -> Forall (allowed p) l) /\ (~ is_list v -> allowed p v)).
Proof.
  intros HO HM. unfold check_enum, allowed. destruct (p_dtype p); [split; [discriminate|reflexivity]|].
  specialize (HO eq_refl).
  assert (X : exists o b, (match p_options p with NoOptions => None | OSet o => Some (o, true) | OList o => Some (o, false) end) = Some (o, b) /\
              (forall w, match p_options p with NoOptions => False | OSet o | OList o => exists s, w = PStr s /\ In s o end <-> exists s, w = PStr s /\ In s o)).
  { destruct (p_options p) as [|o|o]; [congruence| |]; [exists o, true|exists o, false]; split; reflexivity. }
  destruct X as (o & b & -> & A).
  destruct (p_multiple p).
  - destruct HM as [HM _]. destruct (HM eq_refl) as [l ->].
    split.
    + intros H _. split.
      * intros l' [= <-]. destruct (all_contained o b l) as [[]|] eqn:E; [|destruct (forallb hashable l); discriminate|discriminate].
        apply all_contained_true in E. eapply Forall_impl; [|exact E]. intros w. apply A.
      * intros N. exfalso. apply N. now exists l.
    + intros H. destruct (H eq_refl) as [H1 _]. specialize (H1 l eq_refl).
      assert (E : all_contained o b l = POk true). { apply all_contained_true. eapply Forall_impl; [|exact H1]. intros w. apply A. }
      now rewrite E.
  - assert (N : ~ is_list v) by (intros L; apply HM in L; discriminate).
    split.
    + intros H _. split; [intros l ->; exfalso; apply N; now exists l|]. intros _. apply A.
      apply (contains_true o b). destruct (contains o b v) as [[]|]; congruence.
    + intros H. destruct (H eq_refl) as [_ H2]. specialize (H2 N). apply A in H2. apply (contains_true o b) in H2. now rewrite H2.
Qed.

Lemma add_prop_ok kwargs metadata k p :
  (p_dtype p = DEnum -> p_options p <> NoOptions) ->
  (accepts p (passed kwargs k) -> add_prop kwargs metadata (k, p) = POk (aset str_eqb k (to_record p (passed kwargs k)) metadata)) /\
  (~ accepts p (passed kwargs k) -> exists e, add_prop kwargs metadata (k, p) = PErr e).
Proof.
  intros HO.
  assert (E0 : passed kwargs k <> PNone -> add_prop kwargs metadata (k, p) =
      let w := to_record p (passed kwargs k) in
      if p_multiple p then match check_enum p w with PErr e => PErr e | POk _ => POk (aset str_eqb k w metadata) end
      else match w with PList _ => PErr RuntimeErr | _ => match check_enum p w with PErr e => PErr e | POk _ => POk (aset str_eqb k w metadata) end end).
  { unfold add_prop. fold (passed kwargs k). unfold to_record.
    destruct (passed kwargs k); intros X; try congruence; destruct (p_multiple p); reflexivity. }
  assert (E1 : passed kwargs k = PNone -> add_prop kwargs metadata (k, p) =
      if p_nullable p then POk (aset str_eqb k PNone metadata) else PErr RuntimeErr).
  { unfold add_prop. fold (passed kwargs k). now intros ->. }
  set (v := passed kwargs k) in *. clearbody v.
  destruct (pval_none_dec v) as [->|N].
  - rewrite E1 by reflexivity. cbn [to_record]. split.
    + intros [A _]. cbn in A. now rewrite A.
    + intros A. destruct (p_nullable p) eqn:E; [|eauto]. exfalso. apply A. split; [auto|]. cbn. congruence.
  - assert (NR : to_record p v <> PNone) by (destruct v; cbn; try congruence; destruct (p_multiple p); congruence).
    set (w := to_record p v) in *.
    rewrite E0 by assumption. cbn zeta. fold w.
    assert (ML : p_multiple p = true -> is_list w).
    { intros M. unfold w, to_record. rewrite M. destruct v; try congruence; eexists; reflexivity. }
    unfold accepts. fold w. split.
    + intros [_ A]. destruct (A NR) as (A1 & A2 & A3).
      assert (C : check_enum p w = POk tt).
      { apply check_enum_ok; [assumption|assumption|]. intros D. auto. }
      rewrite C. destruct (p_multiple p) eqn:M; [reflexivity|]. destruct w; try reflexivity.
      exfalso. assert (false = true) by (apply A1; eexists; reflexivity). discriminate.
    + intros A. destruct (p_multiple p) eqn:M.
      * destruct (check_enum p w) as [[]|] eqn:C; [|eauto]. exfalso. apply A.
        assert (HM : p_multiple p = true <-> is_list w) by (rewrite M; split; auto).
        assert (C' := proj1 (check_enum_ok p w HO HM) C).
        split; [congruence|]. intros _. split; [assumption|]. split; intros D; now apply C'.
      * assert (X : (exists l, w = PList l) \/ ~ is_list w).
        { destruct w; try (right; intros [? ?]; discriminate). left. eauto. }
        destruct X as [[l ->]|NL]; [eauto|].
        assert (Y : match w with PList _ => PErr RuntimeErr | _ => match check_enum p w with PErr e => PErr e | POk _ => POk (aset str_eqb k w metadata) end end
                    = match check_enum p w with PErr e => PErr e | POk _ => POk (aset str_eqb k w metadata) end).
        { destruct w; try reflexivity. exfalso. apply NL. eexists. reflexivity. }
        match goal with |- exists e, ?x = _ => change x with (match w with PList _ => PErr RuntimeErr | _ => match check_enum p w with PErr e => PErr e | POk _ => POk (aset str_eqb k w metadata) end end) end.
        rewrite Y. destruct (check_enum p w) as [[]|] eqn:C; [|eauto]. exfalso. apply A.
        assert (HM : p_multiple p = true <-> is_list w) by (rewrite M; split; [discriminate|intros L; contradiction]).
        assert (C' := proj1 (check_enum_ok p w HO HM) C).
        split; [congruence|]. intros _. split; [assumption|]. split; intros D; now apply C'.
Qed.

Definition rows_of (kwargs : record) (props : list mprop) : record :=
  map (fun p => (p_name p, to_record p (passed kwargs (p_name p)))) props.
Lemma aset_fresh_str {V} k (v : V) m : ~ In k (map fst m) -> aset str_eqb k v m = m ++ [(k, v)].
Proof.
  induction m as [|[a b] m IH]; intros H; [reflexivity|]. cbn [aset map fst app] in *.
  destruct (str_eqb k a) eqn:E; [apply str_eqb_spec in E; subst; exfalso; apply H; now left|].
  rewrite IH; [reflexivity|]. intros X. apply H. now right.
Qed.
Lemma property_map_id props : NoDup (map p_name props) -> property_map props = map (fun p => (p_name p, p)) props.
Proof.
  unfold property_map. intros N.
  assert (G : forall ps m, NoDup (map fst m ++ map p_name ps) ->
     fold_left (fun m p => aset str_eqb (p_name p) p m) ps m = m ++ map (fun p => (p_name p, p)) ps).
  { induction ps as [|p ps IH]; intros m X; cbn [fold_left map]; [now rewrite app_nil_r|].
    cbn [map] in X. rewrite aset_fresh_str.
    - rewrite IH; [now rewrite <- app_assoc|]. rewrite map_app. cbn. rewrite <- app_assoc. exact X.
    - intros I. apply NoDup_remove_2 in X. apply X. apply in_or_app. now left. }
  apply (G props []). exact N.
Qed.
Lemma add_props_ok kwargs props : forall metadata,
  NoDup (map fst metadata ++ map p_name props) ->
  Forall (fun p => p_dtype p = DEnum -> p_options p <> NoOptions) props ->
  (Forall (fun p => accepts p (passed kwargs (p_name p))) props ->
     add_props kwargs metadata (map (fun p => (p_name p, p)) props) = POk (metadata ++ rows_of kwargs props)) /\
  (~ Forall (fun p => accepts p (passed kwargs (p_name p))) props ->
     exists e, add_props kwargs metadata (map (fun p => (p_name p, p)) props) = PErr e).
Proof.
  induction props as [|p props IH]; intros metadata N F; cbn [map add_props rows_of].
  - split; [now rewrite app_nil_r|]. intros H. exfalso. apply H. constructor.
  - inversion F as [|? ? FO F']; subst. destruct (add_prop_ok kwargs metadata (p_name p) p FO) as [A1 A2].
    cbn [map] in N.
    assert (FR : aset str_eqb (p_name p) (to_record p (passed kwargs (p_name p))) metadata =
                 metadata ++ [(p_name p, to_record p (passed kwargs (p_name p)))]).
    { apply aset_fresh_str. intros I. apply NoDup_remove_2 in N. apply N. apply in_or_app. now left. }
    rewrite FR in A1.
    assert (N' : NoDup (map fst (metadata ++ [(p_name p, to_record p (passed kwargs (p_name p)))]) ++ map p_name props)).
    { rewrite map_app. cbn. rewrite <- app_assoc. exact N. }
    destruct (IH _ N' F') as [I1 I2].
    split.
    + intros H. inversion H; subst. rewrite A1 by assumption. rewrite I1 by assumption. now rewrite <- app_assoc.
    + intros H. destruct (add_prop kwargs metadata (p_name p, p)) as [m|e] eqn:E; [|eauto].
      assert (AC : ~ ~ accepts p (passed kwargs (p_name p))).
      { intros X. destruct (A2 X). discriminate. }
      destruct (add_props kwargs m (map (fun p0 => (p_name p0, p0)) props)) as [m2|e] eqn:E2; [|eauto].
      exfalso. apply AC. intros AP. specialize (A1 AP). injection A1 as ->.
      assert (X : ~ ~ Forall (fun p => accepts p (passed kwargs (p_name p))) props).
      { intros Y. destruct (I2 Y). congruence. }
      apply X. intros Y. apply H. now constructor.
Qed.
