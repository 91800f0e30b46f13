(** Lemmas about MixtureModel: hierarchical and inferred mixtures, schedules. *)
From Verif Require Import Base MixtureKeyModel MixtureKeyProofs UtilsModel UtilsProofs ChunkGenModel MixtureModel SpecMixture SpecChunk
  ChunkGenProofs1 MixtureProofs.
From Coq Require Import QArith Qround Qabs Lqa ZifyBool ZifyNat.
Open Scope Z_scope.

(** ** Sorting twice, sorting permutations *)
Section SortMore.
  Context {A : Type} (lt : A -> A -> bool).
  Lemma isort_id l : StronglySorted (fun a b => lt b a = false) l -> isort lt l = l.
  Proof.
    induction 1 as [|a l Hs IH Hf]; [reflexivity|]. cbn. rewrite IH. destruct l as [|b l]; [reflexivity|]. cbn.
    inversion Hf as [|? ? Hb]; subst. rewrite Hb. reflexivity.
  Qed.

  Lemma sorted_perm_eq (R : A -> A -> Prop) a b : (forall x y, R x y -> R y x -> x = y) ->
    StronglySorted R a -> StronglySorted R b -> Permutation a b -> a = b.
  Proof.
    intros Hanti Ha. revert b. induction Ha as [|x a Ha IH Hx]; intros b Hb Hp.
    - apply Permutation_nil in Hp. congruence.
    - destruct b as [|y b]; [symmetry in Hp; apply Permutation_nil in Hp; discriminate|].
      inversion Hb as [|? ? Hb' Hy]; subst.
      assert (E : x = y).
      { assert (I1 : In y (x :: a)) by (eapply Permutation_in; [symmetry; exact Hp|left; reflexivity]).
        assert (I2 : In x (y :: b)) by (eapply Permutation_in; [exact Hp|left; reflexivity]).
        destruct I1 as [E|I1]; [exact E|]. destruct I2 as [E|I2]; [congruence|].
        rewrite Forall_forall in Hx, Hy. apply Hanti; auto. }
      subst y. f_equal. apply IH; [exact Hb'|]. eapply Permutation_cons_inv. exact Hp.
  Qed.
End SortMore.

Lemma isort_str_sorted v : StronglySorted (fun a b => str_ltb b a = false) (isort str_ltb v).
Proof.
  apply isort_sorted.
  - intros a b. unfold str_ltb. rewrite (str_cmp_anti b a). destruct (str_cmp b a); cbn; congruence.
  - intros a b c. unfold str_ltb. rewrite (str_cmp_anti a b), (str_cmp_anti b c), (str_cmp_anti a c).
    destruct (str_cmp a b) eqn:E1, (str_cmp b c) eqn:E2; cbn; try congruence; intros _ _.
    all: repeat match goal with H : str_cmp _ _ = Eq |- _ => apply str_cmp_eq in H; subst end.
    all: try (rewrite E1; reflexivity). all: try (rewrite E2; reflexivity).
    + assert (str_cmp c c = Eq) as -> by (apply str_cmp_eq; reflexivity). reflexivity.
    + rewrite (str_cmp_trans _ _ _ E1 E2). reflexivity.
Qed.

Definition sv (kv : str * list str) : str * list str := (fst kv, isort str_ltb (snd kv)).

Lemma str_ltb_irr a : str_ltb a a = false.
Proof. unfold str_ltb. assert (str_cmp a a = Eq) as -> by (apply str_cmp_eq; reflexivity). reflexivity. Qed.

Lemma str_nlt_trans a b c : str_ltb b a = false -> str_ltb c b = false -> str_ltb c a = false.
Proof.
  unfold str_ltb. rewrite (str_cmp_anti a b), (str_cmp_anti b c), (str_cmp_anti a c).
  destruct (str_cmp a b) eqn:E1, (str_cmp b c) eqn:E2; cbn; try congruence; intros _ _.
  all: repeat match goal with H : str_cmp _ _ = Eq |- _ => apply str_cmp_eq in H; subst end.
  all: try (rewrite E1; reflexivity). all: try (rewrite E2; reflexivity).
  - assert (str_cmp c c = Eq) as -> by (apply str_cmp_eq; reflexivity). reflexivity.
  - rewrite (str_cmp_trans _ _ _ E1 E2). reflexivity.
Qed.

Lemma str_nlt_anti a b : str_ltb a b = false -> str_ltb b a = false -> a = b.
Proof.
  unfold str_ltb. rewrite (str_cmp_anti a b). destruct (str_cmp a b) eqn:E; cbn; try congruence. intros _ _. apply str_cmp_eq, E.
Qed.

Lemma props_sorted_sorted k : StronglySorted (fun a b => str_ltb (fst b) (fst a) = false) (props_sorted k).
Proof.
  unfold props_sorted. apply (isort_sorted (fun a b : str * list str => str_ltb (fst a) (fst b))).
  - intros a b. unfold str_ltb. rewrite (str_cmp_anti (fst a) (fst b)). destruct (str_cmp (fst a) (fst b)); cbn; congruence.
  - intros a b c. apply str_nlt_trans.
Qed.

Lemma canon_sv k : Permutation (canon k) (map sv k).
Proof. unfold canon. fold sv. apply Permutation_map, isort_perm. Qed.

Lemma canon_sorted k : StronglySorted (fun a b => str_ltb (fst b) (fst a) = false) (canon k).
Proof.
  unfold canon. pose proof (props_sorted_sorted k) as H. induction H as [|x l Hs IH Hf]; cbn; constructor; [exact IH|].
  rewrite Forall_map. exact Hf.
Qed.

Lemma map_fst_sv k : map fst (map sv k) = map fst k.
Proof. rewrite map_map. reflexivity. Qed.

(** The canonical form only depends on the name -> set-of-values mapping. *)
Lemma canon_perm a b : NoDup (map fst a) -> Permutation (map sv a) (map sv b) -> canon a = canon b.
Proof.
  intros Hnd Hp.
  assert (Hab : Permutation (canon a) (canon b)) by (rewrite (canon_sv a), (canon_sv b); exact Hp).
  assert (Hn : NoDup (map fst (canon a))).
  { eapply Permutation_NoDup; [apply Permutation_map; symmetry; apply canon_sv|]. rewrite map_fst_sv. exact Hnd. }
  pose proof (canon_sorted a) as Sa. pose proof (canon_sorted b) as Sb.
  generalize dependent (canon b). generalize dependent (canon a). clear. intros a Hn Sa.
  induction Sa as [|x a Sa IH Hx]; intros b Hp Sb.
  - apply Permutation_nil in Hp. congruence.
  - destruct b as [|y b]; [symmetry in Hp; apply Permutation_nil in Hp; discriminate|].
    inversion Sb as [|? ? Sb' Hy]; subst. inversion Hn as [|? ? Hx1 Hn']; subst.
    assert (E : x = y).
    { assert (I1 : In y (x :: a)) by (eapply Permutation_in; [symmetry; exact Hp|left; reflexivity]).
      destruct I1 as [E|I1]; [exact E|]. exfalso.
      assert (I2 : In x (y :: b)) by (eapply Permutation_in; [exact Hp|left; reflexivity]).
      destruct I2 as [E|I2]; [subst; apply Hx1, in_map, I1|].
      rewrite Forall_forall in Hx, Hy. pose proof (str_nlt_anti _ _ (Hx _ I1) (Hy _ I2)) as E.
      apply Hx1. rewrite <- E. apply in_map, I1. }
    subst y. f_equal. apply IH; [exact Hn'| |exact Sb']. eapply Permutation_cons_inv. exact Hp.
Qed.

Lemma sv_idem kv : sv (sv kv) = sv kv.
Proof. unfold sv. cbn. f_equal. apply isort_id, isort_str_sorted. Qed.

Lemma canon_add name vs p : NoDup (map fst p) -> ~ In name (map fst p) ->
  canon (add_property name vs (canon p)) = canon ((name, vs) :: p).
Proof.
  intros Hnd Hn. symmetry. apply canon_perm; [cbn; constructor; assumption|].
  assert (Hk : ~ In name (map fst (canon p))).
  { intros H. apply Hn. rewrite <- (map_fst_sv p). eapply Permutation_in; [apply Permutation_map, canon_sv|exact H]. }
  unfold add_property. rewrite aset_perm_new by (apply (aget_none _ str_eqb_spec); exact Hk).
  rewrite map_app. cbn [map]. rewrite <- Permutation_cons_append. apply perm_skip.
  assert (E : map sv p = map sv (map sv p)) by (rewrite map_map; apply map_ext; intros; symmetry; apply sv_idem).
  rewrite E. apply Permutation_map. symmetry. apply canon_sv.
Qed.

(** ** Induction over hierarchical mixtures *)
Definition comp_sub (c : mcomp) : option mnode := match c with Comp _ _ s => s end.
Lemma mnode_ind' (P : mnode -> Prop)
  (H : forall name cs, (forall c s, In c cs -> comp_sub c = Some s -> P s) -> P (Node name cs)) : forall n, P n.
Proof.
  fix IH 1. intros [name cs]. apply H.
  assert (G : Forall (fun c => match comp_sub c with Some s => P s | None => True end) cs).
  { clear name. induction cs as [|[v w [s|]] cs IHcs]; constructor; cbn; auto. }
  intros c s Hc Es. rewrite Forall_forall in G. specialize (G c Hc). rewrite Es in G. exact G.
Qed.

Definition comp_entries (fl : Q -> Q) (name : str) (c : mcomp) : list (mkey * Q) :=
  match c with
  | Comp values weight (Some sub) =>
      map (fun kv => (canon (add_property name values (fst kv)), fl (snd kv * weight)%Q)) (convert fl sub)
  | Comp values weight None => [(canon [(name, values)], weight)]
  end.
Definition put (d : list (mkey * Q)) (kv : mkey * Q) := aset mkey_eqb (fst kv) (snd kv) d.

Lemma fold_left_map_ {A B C} (f : A -> B -> A) (g : C -> B) l : forall a, fold_left f (map g l) a = fold_left (fun a c => f a (g c)) l a.
Proof. induction l as [|x l IH]; intros a; cbn; auto. Qed.

Lemma convert_eq fl name cs : convert fl (Node name cs) = fold_left put (flat_map (comp_entries fl name) cs) [].
Proof.
  cbn [convert]. generalize (@nil (mkey * Q)).
  induction cs as [|[vs w [sub|]] cs IH]; intros acc; [reflexivity| |].
  - rewrite IH. cbn [flat_map comp_entries]. rewrite fold_left_app, fold_left_map_. reflexivity.
  - rewrite IH. cbn [flat_map comp_entries]. reflexivity.
Qed.

Lemma put_new es : forall acc, NoDup (map fst (acc ++ es)) -> fold_left put es acc = acc ++ es.
Proof.
  induction es as [|[k w] es IH]; intros acc H; cbn [fold_left]; [rewrite app_nil_r; reflexivity|].
  unfold put at 2. cbn [fst snd]. rewrite aset_perm_new.
  - rewrite IH; rewrite <- app_assoc; [reflexivity|exact H].
  - apply (aget_none _ mkey_eqb_spec). rewrite map_app in H. cbn in H. apply NoDup_remove_2 in H. intros Hin. apply H. apply in_or_app. auto.
Qed.

Definition same_entry (kv p : mkey * Q) : Prop := fst kv = canon (fst p) /\ (snd kv == snd p)%Q.

Lemma Forall2_map_both {A B C D} (R : A -> B -> Prop) (S : C -> D -> Prop) (f : A -> C) (g : B -> D) l l' :
  (forall a b, In b l' -> R a b -> S (f a) (g b)) -> Forall2 R l l' -> Forall2 S (map f l) (map g l').
Proof.
  intros H HR. induction HR as [|a b l l' Hab HR IH]; cbn; constructor.
  - apply H; [left; reflexivity|exact Hab].
  - apply IH. intros; apply H; [right|]; assumption.
Qed.

Lemma same_keys l l' : Forall2 same_entry l l' -> map fst l = map (fun p => canon (fst p)) l'.
Proof. induction 1 as [|a b l l' [H _] _ IH]; cbn; congruence. Qed.

(** Names are distinct along every path. *)
Lemma convert_paths n : (forall p, In p (paths n) -> NoDup (map fst (fst p))) ->
  NoDup (map (fun p => canon (fst p)) (paths n)) -> Forall2 same_entry (convert exactly n) (paths n).
Proof.
  induction n as [name cs IH] using mnode_ind'. intros Hp Hnd. rewrite convert_eq.
  assert (HF : Forall2 same_entry (flat_map (comp_entries exactly name) cs) (paths (Node name cs))).
  { cbn [paths] in *.
    induction cs as [|c cs IHcs]; [constructor|]. cbn [flat_map] in *.
    rewrite map_app in Hnd. apply NoDup_app_iff in Hnd as (Hnd1 & Hnd2 & _).
    apply Forall2_app.
    2:{ apply IHcs; [|intros; apply Hp, in_or_app; auto|exact Hnd2]. intros c' s' Hc'. apply IH. right. exact Hc'. }
    clear IHcs Hnd2. destruct c as [vs w [sub|]]; cbn [comp_entries] in *.
    - assert (Hp' : forall p, In p (paths sub) -> NoDup (map fst (fst p)) /\ ~ In name (map fst (fst p))).
      { intros p Hin. specialize (Hp ((name, vs) :: fst p, (w * snd p)%Q)). cbn in Hp.
        assert (H : NoDup (name :: map fst (fst p))).
        { apply Hp. apply in_or_app. left. apply in_map_iff. exists p. auto. }
        inversion H; auto. }
      assert (HI : Forall2 same_entry (convert exactly sub) (paths sub)).
      { apply (IH (Comp vs w (Some sub)) sub); [left; reflexivity|reflexivity|intros; apply Hp'; assumption|].
        clear - Hnd1 Hp'. rewrite map_map in Hnd1. cbn [fst] in Hnd1.
        induction (paths sub) as [|p l IH]; cbn [map] in *; constructor; inversion Hnd1 as [|? ? H1 H2]; subst.
        - intros Hin. apply H1. apply in_map_iff in Hin as (q & Eq & Hq). apply in_map_iff. exists q. split; [|exact Hq].
          transitivity (canon (add_property name vs (canon (fst q)))); [symmetry; apply canon_add; apply Hp'; right; exact Hq|].
          rewrite Eq. apply canon_add; apply Hp'; left; reflexivity.
        - apply IH; [exact H2|]. intros q Hq. apply Hp'. right. exact Hq. }
      eapply Forall2_map_both; [|exact HI]. intros kv p Hin [E1 E2]. split; cbn [fst snd].
      + rewrite E1. apply canon_add; apply Hp'; exact Hin.
      + unfold exactly. rewrite E2. apply Qmult_comm.
    - constructor; [|constructor]. split; reflexivity. }
  rewrite put_new; [exact HF|]. cbn [app]. rewrite (same_keys _ _ HF). exact Hnd.
Qed.

Lemma paths_sum n : weights_ok n -> (qsum (map snd (paths n)) == 1)%Q /\ Forall (fun p => (0 <= snd p)%Q) (paths n).
Proof.
  induction n as [name cs IH] using mnode_ind'. cbn [weights_ok paths]. intros [Hs Hc].
  enough (G : (qsum (map snd (flat_map (fun c => match c with
                         | Comp values weight None => [([(name, values)], weight)]
                         | Comp values weight (Some sub) => map (fun p => ((name, values) :: fst p, (weight * snd p)%Q)) (paths sub)
                         end) cs)) == qsum (map weight_of cs))%Q /\ Forall (fun p => (0 <= snd p)%Q) (flat_map (fun c => match c with
                         | Comp values weight None => [([(name, values)], weight)]
                         | Comp values weight (Some sub) => map (fun p => ((name, values) :: fst p, (weight * snd p)%Q)) (paths sub)
                         end) cs)) by (rewrite Hs in G; exact G).
  clear Hs. induction cs as [|c cs IHcs]; [split; [reflexivity|constructor]|].
  cbn [fold_right] in Hc. destruct Hc as [Hc Hcs].
  destruct IHcs as [I1 I2]; [intros c' s' Hc'; apply IH; right; exact Hc'|exact Hcs|].
  cbn [flat_map map weight_of]. rewrite map_app, qsum_app, qsum_cons, I1.
  destruct c as [vs w [sub|]]; cbn [weight_of].
  - destruct Hc as [Hw Hsub]. destruct (IH (Comp vs w (Some sub)) sub (or_introl eq_refl) eq_refl Hsub) as [J1 J2]. split.
    + assert (E : (qsum (map snd (map (fun p => ((name, vs) :: fst p, w * snd p)) (paths sub))) == w * qsum (map snd (paths sub)))%Q).
      { clear. induction (paths sub) as [|p l IH]; [cbn; ring|]. cbn [map snd]. rewrite !qsum_cons, IH. unfold mkey. ring. }
      rewrite E, J1. ring.
    + apply Forall_app. split; [|exact I2]. rewrite Forall_map. eapply Forall_impl; [|exact J2]. cbn. intros p Hp. apply Qmult_le_0_compat; assumption.
  - cbn [map snd qsum fold_right]. split; [ring|]. constructor; [apply Hc|exact I2].
Qed.

(** ** Rows of hierarchical mixtures *)
Lemma qsum_ext l l' : Forall2 Qeq l l' -> (qsum l == qsum l')%Q.
Proof. induction 1 as [|x y l l' H _ IH]; [reflexivity|]. rewrite !qsum_cons, H, IH. reflexivity. Qed.

Lemma zsum_trunc_bounds l : Forall (fun x => (0 <= x)%Q) l ->
  (inject_Z (zsum (map qtrunc l)) <= qsum l)%Q /\ (qsum l <= inject_Z (zsum (map qtrunc l)) + inject_Z (Z.of_nat (length l)))%Q.
Proof.
  induction 1 as [|x l Hx Hl IH]; [split; vm_compute; discriminate|].
  cbn [map length]. rewrite zsum_cons, qsum_cons, Nat2Z.inj_succ. unfold Z.succ. rewrite !inject_Z_plus.
  pose proof (qtrunc_bounds x Hx). change (inject_Z 1) with 1%Q. lra.
Qed.

Lemma hierarchical_rows c n um : 0 <= c -> convert exactly n = um -> Forall (fun kv => (0 <= snd kv)%Q) um -> (qsum (map snd um) == 1)%Q ->
  exists counts, hierarchical_mixture exactly c n = Ok (combine (map fst um) counts)
    /\ length counts = length um /\ zsum counts = c
    /\ forall i k w, nth_error um i = Some (k, w) -> exists v, nth_error counts i = Some v /\ Qfloor (inject_Z c * w) <= v
         /\ (i <> 0%nat -> v = Qfloor (inject_Z c * w)) /\ v < Qfloor (inject_Z c * w) + Z.of_nat (length um) + 1.
Proof.
  intros Hc Eum Hpos Hs. unfold hierarchical_mixture. rewrite Eum.
  assert (E1 : forallb (fun kv : mkey * Q => Qle_bool 0 (snd kv)) um = true).
  { apply forallb_forall. intros kv Hkv. apply Qle_bool_iff. rewrite Forall_forall in Hpos. auto. }
  rewrite E1. cbn [negb].
  set (ideal := map (fun kv : mkey * Q => (inject_Z c * snd kv)%Q) um).
  assert (Hcq : (0 <= inject_Z c)%Q) by (change 0%Q with (inject_Z 0); rewrite <- Zle_Qle; exact Hc).
  assert (Hid : Forall (fun x => (0 <= x)%Q) ideal).
  { unfold ideal. rewrite Forall_map. eapply Forall_impl; [|exact Hpos]. cbn. intros kv Hkv. apply Qmult_le_0_compat; assumption. }
  assert (Hsi : (qsum ideal == inject_Z c)%Q).
  { transitivity (inject_Z c * qsum (map snd um))%Q; [|rewrite Hs; apply Qmult_1_r]. unfold ideal. clear.
    induction um as [|[k w] l IH]; [cbn; ring|]. cbn [map snd]. rewrite !qsum_cons, IH. ring. }
  destruct (zsum_trunc_bounds ideal Hid) as [B1 B2]. rewrite Hsi in B1, B2.
  replace (length ideal) with (length um) in B2 by (unfold ideal; rewrite map_length; reflexivity).
  rewrite <- inject_Z_plus in B2. rewrite <- Zle_Qle in B1, B2.
  set (mix := map (fun kv : mkey * Q => (fst kv, qtrunc (exactly (inject_Z c * snd kv)))) um).
  assert (Hmix : mix = combine (map fst um) (map qtrunc ideal)).
  { unfold mix, ideal, exactly. clear. induction um as [|[k w] l IH]; [reflexivity|]. cbn [map combine fst snd]. rewrite IH. reflexivity. }
  assert (Hsnd : map snd mix = map qtrunc ideal) by (unfold mix, ideal, exactly; rewrite !map_map; reflexivity).
  rewrite Hsnd. set (diff := c - zsum (map qtrunc ideal)) in *.
  assert (Hflo : forall i k w, nth_error um i = Some (k, w) -> nth_error (map qtrunc ideal) i = Some (Qfloor (inject_Z c * w))).
  { intros i k w Hi. unfold ideal. rewrite !nth_error_map, Hi. cbn [option_map snd]. f_equal. apply qtrunc_floor.
    rewrite Forall_forall in Hpos. apply Qmult_le_0_compat; [assumption|]. apply (Hpos (k, w)). eapply nth_error_In; exact Hi. }
  destruct (0 <? diff) eqn:Ed.
  - destruct um as [|[k0 w0] um'] eqn:Eu; [cbn in Hs; lra|]. rewrite <- Eu in *.
    exists (match map qtrunc ideal with [] => [] | v :: vs => (v + diff) :: vs end).
    assert (Em : exists v0 vs, map qtrunc ideal = v0 :: vs /\ mix = (k0, v0) :: combine (map fst um') vs).
    { rewrite Hmix. unfold ideal. rewrite Eu. cbn [map fst combine]. eauto. }
    destruct Em as (v0 & vs & Ev & Em). rewrite Em, Ev. rewrite Ev in *.
    split; [rewrite Eu; reflexivity|]. split; [transitivity (length (v0 :: vs)); [reflexivity|]; rewrite <- Ev; unfold ideal; rewrite !map_length, Eu; reflexivity|].
    assert (Hdf : diff = c - (v0 + zsum vs)) by (unfold diff; rewrite Ev, zsum_cons; reflexivity).
    rewrite zsum_cons in B1, B2. split; [rewrite !zsum_cons; lia|]. intros i k w Hi. specialize (Hflo i k w Hi).
    destruct i as [|i]; cbn [nth_error] in *.
    + injection Hflo as ->. exists (Qfloor (inject_Z c * w) + diff). repeat split; try lia. 
    + exists (Qfloor (inject_Z c * w)). split; [exact Hflo|]. repeat split; lia.
  - exists (map qtrunc ideal). split; [rewrite Hmix; reflexivity|]. split; [unfold ideal; rewrite !map_length; reflexivity|].
    split; [lia|]. intros i k w Hi. exists (Qfloor (inject_Z c * w)). split; [eauto|]. repeat split; lia.
Qed.

(** ** Inferred mixtures *)
Lemma part_mass_size p : part_mass p = part_size p.
Proof.
  unfold part_mass, part_size. induction p as [|[d fs] p IH]; [reflexivity|]. cbn [flat_map map fst snd]. rewrite zsum_app, zsum_cons, IH. f_equal.
  clear. induction fs as [|[f rs] fs IH]; [reflexivity|]. cbn [flat_map map fst snd]. rewrite zsum_app, zsum_cons, IH. reflexivity.
Qed.

Lemma zsum_len_rows (idx : index) : zsum (map (fun kp => Z.of_nat (length (rows_of (snd kp)))) idx) = Z.of_nat (length (all_rows idx)).
Proof.
  induction idx as [|kp idx IH]; [reflexivity|]. cbn [map all_rows flat_map]. rewrite zsum_cons, IH, app_length. unfold all_rows. lia.
Qed.

Lemma infer_exact idx : (forall k p, In (k, p) idx -> part_ok p) -> all_rows idx <> [] ->
  let T := inject_Z (Z.of_nat (length (all_rows idx))) in
  infer_mixture exactly idx = Ok (Z.of_nat (length (all_rows idx)), map (fun kp => (fst kp, inject_Z (Z.of_nat (length (rows_of (snd kp)))) / T)%Q) idx)
  /\ (qsum (map snd (map (fun kp => (fst kp, inject_Z (Z.of_nat (length (rows_of (snd kp)))) / T)%Q) idx)) == 1)%Q.
Proof.
  intros Hok Hne T.
  assert (E : map (fun kp : mkey * part => (fst kp, part_mass (snd kp))) idx = map (fun kp => (fst kp, Z.of_nat (length (rows_of (snd kp))))) idx).
  { apply map_ext_in. intros [k p] Hin. cbn [fst snd]. rewrite part_mass_size, part_size_rows; [reflexivity|]. eapply Hok; exact Hin. }
  assert (Ht : 0 < Z.of_nat (length (all_rows idx))) by (destruct (all_rows idx); [congruence|cbn [length]; lia]).
  assert (HT : (0 < T)%Q) by (unfold T; change 0%Q with (inject_Z 0); rewrite <- Zlt_Qlt; exact Ht).
  unfold infer_mixture. rewrite E. rewrite map_map. cbn [snd]. rewrite zsum_len_rows. split.
  - destruct (map (fun kp : mkey * part => (fst kp, Z.of_nat (length (rows_of (snd kp))))) idx) eqn:El; [destruct idx; [cbn in Hne; congruence|discriminate]|].
    rewrite <- El. replace (Z.of_nat (length (all_rows idx)) =? 0) with false by lia. rewrite map_map. reflexivity.
  - rewrite map_map. cbn [snd]. transitivity (T / T)%Q; [|field; lra]. unfold T at 2. rewrite <- zsum_len_rows, inject_Z_zsum, map_map.
    clearbody T. clear - HT. induction idx as [|kp idx IH]; cbn [map]; [cbn; field; lra|]. rewrite !qsum_cons, IH. field. lra.
Qed.

(** ** Schedules *)
Section Sched.
  Variable s : Z.
  Fixpoint lastle (l : list (Z * mixture)) : option (Z * mixture) :=
    match l with
    | [] => None
    | e :: l' => match lastle l' with Some x => Some x | None => if fst e <=? s then Some e else None end
    end.

  Lemma find_rev_lastle l : find (fun e => fst e <=? s) (rev l) = lastle l.
  Proof.
    induction l as [|e l IH]; [reflexivity|]. cbn [rev lastle].
    assert (H : forall (a b : list (Z * mixture)) f, find f (a ++ b) = match find f a with Some x => Some x | None => find f b end).
    { clear. induction a as [|x a IH]; intros b f; cbn; [reflexivity|]. destruct (f x); auto. }
    rewrite H, IH. destruct (lastle l); [reflexivity|]. cbn. destruct (fst e <=? s); reflexivity.
  Qed.

  Let ins := insert_sorted (fun a b : Z * mixture => fst a <? fst b).
  Let srt := isort (fun a b : Z * mixture => fst a <? fst b).
  Let sorted := StronglySorted (fun a b : Z * mixture => (fst b <? fst a) = false).

  Lemma lastle_above l : Forall (fun e : Z * mixture => s < fst e) l -> lastle l = None.
  Proof. induction 1 as [|e l He Hl IH]; [reflexivity|]. cbn. rewrite IH. replace (fst e <=? s) with false by lia. reflexivity. Qed.

  Lemma lastle_ins x l : sorted l -> lastle (ins x l) =
    if fst x <=? s then match lastle l with Some y => if fst y <? fst x then Some x else Some y | None => Some x end else lastle l.
  Proof.
    unfold ins. induction 1 as [|y l Hs IH Hf]; cbn [insert_sorted lastle].
    - destruct (fst x <=? s); reflexivity.
    - destruct (fst y <? fst x) eqn:Eyx; cbn [lastle].
      + rewrite IH. destruct (fst x <=? s) eqn:Ex.
        * destruct (lastle l) as [z|] eqn:El; [destruct (fst z <? fst x); reflexivity|].
          replace (fst y <=? s) with true by lia. rewrite Eyx. reflexivity.
        * reflexivity.
      + destruct (lastle l) as [z|] eqn:El.
        * assert (Hz : In z l).
          { clear - El. revert El. induction l as [|e l IH]; cbn; [discriminate|]. destruct (lastle l); [intros [= <-]; right; apply IH; reflexivity|].
            destruct (fst e <=? s); [intros [= <-]; left; reflexivity|discriminate]. }
          rewrite Forall_forall in Hf. specialize (Hf z Hz). cbn in Hf.
          destruct (fst x <=? s); [|reflexivity]. replace (fst z <? fst x) with false by lia. reflexivity.
        * destruct (fst y <=? s) eqn:Ey; [|destruct (fst x <=? s); reflexivity].
          rewrite Eyx. destruct (fst x <=? s); reflexivity.
  Qed.

  Lemma srt_sorted l : sorted (srt l).
  Proof. apply isort_sorted; intros; lia. Qed.

  Lemma lastle_spec l : match lastle (srt l) with
    | Some e => exists i, nth_error l i = Some e /\ fst e <= s
                /\ forall j e', nth_error l j = Some e' -> fst e' <= s -> fst e' < fst e \/ (fst e' = fst e /\ (j <= i)%nat)
    | None => forall j e', nth_error l j = Some e' -> s < fst e'
    end.
  Proof.
    induction l as [|x l IH]; [intros [|j] e' H; discriminate|].
    change (srt (x :: l)) with (ins x (srt l)). rewrite lastle_ins by apply srt_sorted.
    destruct (lastle (srt l)) as [y|].
    - destruct IH as (i & Hi & Hy & Hall). destruct (fst x <=? s) eqn:Ex.
      + destruct (fst y <? fst x) eqn:Eyx.
        * exists 0%nat. split; [reflexivity|]. split; [lia|]. intros [|j] e' Hj He'; cbn in Hj; [injection Hj as <-; lia|].
          destruct (Hall j e' Hj He'); lia.
        * exists (S i). split; [exact Hi|]. split; [exact Hy|]. intros [|j] e' Hj He'; cbn in Hj; [injection Hj as <-; lia|].
          destruct (Hall j e' Hj He'); lia.
      + exists (S i). split; [exact Hi|]. split; [exact Hy|]. intros [|j] e' Hj He'; cbn in Hj; [injection Hj as <-; lia|].
        destruct (Hall j e' Hj He'); lia.
    - destruct (fst x <=? s) eqn:Ex.
      + exists 0%nat. split; [reflexivity|]. split; [lia|]. intros [|j] e' Hj He'; cbn in Hj; [injection Hj as <-; lia|].
        specialize (IH j e' Hj). lia.
      + intros [|j] e' Hj; cbn in Hj; [injection Hj as <-; lia|]. apply (IH j e' Hj).
  Qed.

  Lemma hd_spec l : l <> [] -> exists e i, nth_error (srt l) 0 = Some e /\ nth_error l i = Some e
    /\ forall j e', nth_error l j = Some e' -> fst e < fst e' \/ (fst e = fst e' /\ (i <= j)%nat).
  Proof.
    induction l as [|x l IH]; [congruence|]. intros _. change (srt (x :: l)) with (ins x (srt l)).
    destruct l as [|x2 l'].
    - exists x, 0%nat. cbn. split; [reflexivity|]. split; [reflexivity|]. intros [|j] e' Hj; cbn in Hj; [injection Hj as <-; lia|destruct j; discriminate].
    - destruct IH as (y & i & H0 & Hi & Hall); [discriminate|]. destruct (srt (x2 :: l')) as [|y0 L]; [discriminate|]. injection H0 as ->.
      unfold ins. cbn [insert_sorted]. destruct (fst y <? fst x) eqn:Eyx.
      + exists y, (S i). split; [reflexivity|]. split; [exact Hi|]. intros [|j] e' Hj; cbn [nth_error] in Hj; [injection Hj as <-; lia|].
        destruct (Hall j e' Hj); lia.
      + exists x, 0%nat. split; [reflexivity|]. split; [reflexivity|]. intros [|j] e' Hj; cbn [nth_error] in Hj; [injection Hj as <-; lia|].
        destruct (Hall j e' Hj); lia.
  Qed.

  Lemma pick_spec l : l <> [] -> exists i e, pick s (srt l) = Some e /\ prescribed l s i e.
  Proof.
    intros Hne. unfold pick. rewrite find_rev_lastle. pose proof (lastle_spec l) as H. destruct (lastle (srt l)) as [e|].
    - destruct H as (i & H1 & H2 & H3). exists i, e. split; [reflexivity|]. split; [exact H1|]. left. auto.
    - destruct (hd_spec l Hne) as (e & i & H1 & H2 & H3). exists i, e. split; [exact H1|]. split; [exact H2|]. right. auto.
  Qed.
End Sched.

Lemma depth_entry (e : Z * mixture) l : In e l -> (depth (snd e) <= fold_right (fun e d => Nat.max (depth (snd e)) d) 0 l)%nat.
Proof. induction l as [|x l IH]; cbn; [tauto|]. intros [->|H]; [lia|]. specialize (IH H). lia. Qed.

Lemma pick_in st l e : pick st l = Some e -> In e l.
Proof.
  unfold pick. destruct (find _ (rev l)) as [x|] eqn:E; [|apply nth_error_In].
  intros [= <-]. apply find_some in E as [E _]. apply in_rev. exact E.
Qed.

Lemma rows_fuel_enough : forall n m, (depth m <= n)%nat -> mixture_in_rows_fuel n m = mixture_in_rows m.
Proof.
  induction n as [n IH] using lt_wf_ind. intros [c st b k] Hd. unfold mixture_in_rows. destruct k as [rows| |rows|entries]; try (destruct n; reflexivity).
  cbn [depth] in *. set (d := fold_right _ _ entries) in *. destruct n as [|n']; [lia|]. cbn [mixture_in_rows_fuel].
  destruct (pick st entries) as [[s0 e]|] eqn:Ep; [|reflexivity].
  pose proof (depth_entry _ _ (pick_in _ _ _ Ep)) as Hde. cbn [snd] in Hde. fold d in Hde.
  rewrite (IH n') by lia. destruct (Nat.eq_dec n' d) as [->|]; [rewrite (IH d) by lia; reflexivity|rewrite (IH d) by lia; reflexivity].
Qed.

Lemma rows_set_csize c m : mixture_in_rows (set_csize c m) = mixture_in_rows m.
Proof. destruct m as [c0 st b k]. unfold mixture_in_rows. destruct k; reflexivity. Qed.

Lemma fold_feedback fbs : forall m, fold_left feedback fbs m =
  match m with Mixture c st b k => Mixture c (fold_left Z.max fbs st) b k end.
Proof. induction fbs as [|t fbs IH]; intros [c st b k]; cbn [fold_left]; [reflexivity|]. rewrite IH. reflexivity. Qed.

Lemma fold_max_largest fbs : forall a, largest (a :: fbs) (fold_left Z.max fbs a).
Proof.
  induction fbs as [|t fbs IH]; intros a; cbn [fold_left].
  - split; [left; reflexivity|]. intros t [<-|[]]. lia.
  - destruct (IH (Z.max a t)) as [H1 H2]. split.
    + destruct H1 as [H1|H1]; [|right; right; exact H1]. rewrite <- H1. destruct (Z.max_spec a t) as [[_ ->]|[_ ->]]; cbn; auto.
    + intros x [<-|[<-|Hx]]; [|  |apply H2; right; exact Hx]; pose proof (H2 (Z.max a t) (or_introl eq_refl)); lia.
Qed.
