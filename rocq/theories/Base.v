(** Basic vocabulary shared by all models.  Nothing here is specific to mixtera: association lists stand for Python
    dicts (insertion ordered), [isort] for Python's stable [sorted], [lexb] for Python's list/str comparison. *)
From Coq Require Export List ZArith Lia Bool Arith Permutation Sorting.Sorted.
Export ListNotations.
From Coq Require Import ZifyBool ZifyNat.
Open Scope Z_scope.
Global Arguments Z.add : simpl never.
Global Arguments Z.sub : simpl never.
Global Arguments Z.mul : simpl never.
Global Arguments Z.opp : simpl never.
Global Arguments Z.div : simpl never.
Global Arguments Z.modulo : simpl never.
Global Arguments Z.ltb : simpl never.
Global Arguments Z.leb : simpl never.
Global Arguments Z.eqb : simpl never.
Global Arguments Z.of_nat : simpl never.
Global Arguments Z.to_nat : simpl never.

(** ** Association lists = Python dicts in insertion order *)
Notation akeys := (map fst) (only parsing).
Notation avals := (map snd) (only parsing).
Section Assoc.
  Context {K V : Type} (eqb : K -> K -> bool).

  Fixpoint aget (k : K) (l : list (K * V)) : option V :=
    match l with
    | [] => None
    | (k', v) :: l' => if eqb k k' then Some v else aget k l'
    end.

  (** [d[k] = v]: overwrite in place, or append at the end (Python dict order). *)
  Fixpoint aset (k : K) (v : V) (l : list (K * V)) : list (K * V) :=
    match l with
    | [] => [(k, v)]
    | (k', v') :: l' => if eqb k k' then (k', v) :: l' else (k', v') :: aset k v l'
    end.

  (** [d.pop(k)] / [del d[k]] *)
  Fixpoint adel (k : K) (l : list (K * V)) : list (K * V) :=
    match l with
    | [] => []
    | (k', v') :: l' => if eqb k k' then l' else (k', v') :: adel k l'
    end.

  Definition amem (k : K) (l : list (K * V)) : bool :=
    match aget k l with Some _ => true | None => false end.
End Assoc.

(** ** Python's [sorted]: a stable sort that only uses [<] *)
Section Sort.
  Context {A : Type} (lt : A -> A -> bool).
  Fixpoint insert_sorted (x : A) (l : list A) : list A :=
    match l with
    | [] => [x]
    | y :: l' => if lt y x then y :: insert_sorted x l' else x :: y :: l'
    end.
  Fixpoint isort (l : list A) : list A :=
    match l with [] => [] | x :: l' => insert_sorted x (isort l') end.
End Sort.

(** ** Lexicographic order, as used by Python on lists, tuples and strings *)
Section Lex.
  Context {A : Type} (cmp : A -> A -> comparison).
  Fixpoint lex (a b : list A) : comparison :=
    match a, b with
    | [], [] => Eq
    | [], _ :: _ => Lt
    | _ :: _, [] => Gt
    | x :: a', y :: b' => match cmp x y with Eq => lex a' b' | c => c end
    end.
End Lex.

Fixpoint list_eqb {A} (eqb : A -> A -> bool) (a b : list A) : bool :=
  match a, b with
  | [], [] => true
  | x :: a', y :: b' => eqb x y && list_eqb eqb a' b'
  | _, _ => false
  end.

Definition zsum (l : list Z) : Z := fold_right Z.add 0 l.

(** The integers [s, s+1, ..., e-1] ([range(s, e)] in Python). *)
Definition zrange (s e : Z) : list Z :=
  map (fun i => s + Z.of_nat i) (seq 0 (Z.to_nat (e - s))).

(** * Lemmas *)

Lemma zsum_app a b : zsum (a ++ b) = zsum a + zsum b.
Proof. unfold zsum; induction a as [|x a IH]; cbn [app fold_right]; [lia|]. rewrite IH; lia. Qed.

Lemma zsum_cons x l : zsum (x :: l) = x + zsum l.
Proof. reflexivity. Qed.

Lemma zsum_perm a b : Permutation a b -> zsum a = zsum b.
Proof. induction 1; rewrite ?zsum_cons; lia. Qed.

Lemma zsum_nonneg l : Forall (fun x => 0 <= x) l -> 0 <= zsum l.
Proof. induction 1 as [|x l Hx Hl IH]; rewrite ?zsum_cons; cbn; lia. Qed.

Lemma zrange_nil s e : e <= s -> zrange s e = [].
Proof. intros H. unfold zrange. replace (Z.to_nat (e - s)) with O by lia. reflexivity. Qed.

Lemma zrange_length s e : Z.of_nat (length (zrange s e)) = Z.max 0 (e - s).
Proof. unfold zrange. rewrite map_length, seq_length. lia. Qed.

Lemma in_zrange x s e : In x (zrange s e) <-> s <= x < e.
Proof.
  unfold zrange. rewrite in_map_iff. split.
  - intros [i [Hi Hin]]. apply in_seq in Hin. lia.
  - intros H. exists (Z.to_nat (x - s)). split; [lia|]. apply in_seq. lia.
Qed.

Lemma zrange_app s m e : s <= m -> m <= e -> zrange s e = zrange s m ++ zrange m e.
Proof.
  intros H1 H2. unfold zrange.
  replace (Z.to_nat (e - s)) with (Z.to_nat (m - s) + Z.to_nat (e - m))%nat by lia.
  rewrite seq_app, map_app. f_equal.

  assert (Hs : forall n a, seq (a + n) (Z.to_nat (e - m)) = map (fun i => (i + n)%nat) (seq a (Z.to_nat (e - m)))).
  { generalize (Z.to_nat (e - m)) as len. induction len as [|len IH]; intros n a; [reflexivity|].
    cbn [seq map]. f_equal. rewrite <- IH. reflexivity. }
  rewrite (Hs (Z.to_nat (m - s)) O). rewrite map_map. apply map_ext. intros i. lia.
Qed.

Lemma zrange_cons s e : s < e -> zrange s e = s :: zrange (s + 1) e.
Proof.
  intros H. rewrite (zrange_app s (s + 1) e) by lia.
  replace (zrange s (s + 1)) with [s]; [reflexivity|].
  unfold zrange. replace (Z.to_nat (s + 1 - s)) with 1%nat by lia. cbn [seq map]. f_equal. lia.
Qed.

Lemma NoDup_zrange s e : NoDup (zrange s e).
Proof.
  unfold zrange. apply FinFun.Injective_map_NoDup; [|apply seq_NoDup].
  intros a b H. lia.
Qed.

Section AssocLemmas.
  Context {K V : Type} (eqb : K -> K -> bool).
  Hypothesis eqb_spec : forall a b, eqb a b = true <-> a = b.

  Lemma eqb_refl_ a : eqb a a = true.
  Proof. apply eqb_spec. reflexivity. Qed.
  Lemma eqb_neq_ a b : a <> b -> eqb a b = false.
  Proof. intros H. destruct (eqb a b) eqn:E; [|reflexivity]. apply eqb_spec in E. contradiction. Qed.

  Lemma aget_in k (v : V) l : aget eqb k l = Some v -> In (k, v) l.
  Proof.
    induction l as [|[k' v'] l IH]; cbn; [discriminate|].
    destruct (eqb k k') eqn:E; [|auto].
    apply eqb_spec in E. intros [= ->]. subst. auto.
  Qed.

  Lemma aget_none k (l : list (K * V)) : aget eqb k l = None <-> ~ In k (akeys l).
  Proof.
    induction l as [|[k' v'] l IH]; cbn; [tauto|].
    destruct (eqb k k') eqn:E.
    - apply eqb_spec in E. subst. split; [discriminate|]. tauto.
    - rewrite IH. split; [|tauto]. intros H [->|Hin]; [|tauto].
      rewrite eqb_refl_ in E. discriminate.
  Qed.

  Lemma aget_some_in k (l : list (K * V)) : In k (akeys l) -> exists v, aget eqb k l = Some v.
  Proof.
    intros H. destruct (aget eqb k l) as [v|] eqn:E; [eauto|].
    apply aget_none in E. contradiction.
  Qed.

  Lemma in_aget k v (l : list (K * V)) : NoDup (akeys l) -> In (k, v) l -> aget eqb k l = Some v.
  Proof.
    induction l as [|[k' v'] l IH]; cbn; [tauto|].
    intros Hnd [H|H]; inversion Hnd as [|? ? Hni Hnd']; subst.
    - injection H as -> ->. rewrite eqb_refl_. reflexivity.
    - destruct (eqb k k') eqn:E.
      + apply eqb_spec in E. subst. exfalso. apply Hni. apply (in_map fst) in H. exact H.
      + auto.
  Qed.

  Lemma akeys_aset k (v : V) l :
    akeys (aset eqb k v l) = if amem eqb k l then akeys l else akeys l ++ [k].
  Proof.
    unfold amem. induction l as [|[k' v'] l IH]; cbn; [reflexivity|].
    destruct (eqb k k') eqn:E; cbn; [reflexivity|].
    rewrite IH. destruct (aget eqb k l); reflexivity.
  Qed.

  Lemma NoDup_akeys_aset k (v : V) l : NoDup (akeys l) -> NoDup (akeys (aset eqb k v l)).
  Proof.
    intros H. rewrite akeys_aset. unfold amem. destruct (aget eqb k l) eqn:E; [exact H|].
    apply aget_none in E.
    rewrite <- (rev_involutive (akeys l ++ [k])). apply NoDup_rev.
    rewrite rev_app_distr. cbn. constructor; [|apply NoDup_rev; exact H].
    rewrite <- in_rev. exact E.
  Qed.

  Lemma aget_aset_same k (v : V) l : aget eqb k (aset eqb k v l) = Some v.
  Proof.
    induction l as [|[k' v'] l IH]; cbn; [rewrite eqb_refl_; reflexivity|].
    destruct (eqb k k') eqn:E; cbn; rewrite E; auto.
  Qed.

  Lemma aget_aset_other k k0 (v : V) l : k <> k0 -> aget eqb k0 (aset eqb k v l) = aget eqb k0 l.
  Proof.
    intros Hne. induction l as [|[k' v'] l IH]; cbn.
    - rewrite eqb_neq_ by congruence. reflexivity.
    - destruct (eqb k k') eqn:E; cbn.
      + apply eqb_spec in E. subst k'. rewrite eqb_neq_ by congruence. reflexivity.
      + rewrite IH. reflexivity.
  Qed.

  Lemma aget_aset k k0 (v : V) l :
    aget eqb k0 (aset eqb k v l) = if eqb k k0 then Some v else aget eqb k0 l.
  Proof.
    destruct (eqb k k0) eqn:E.
    - apply eqb_spec in E. subst. apply aget_aset_same.
    - apply aget_aset_other. intros ->. rewrite eqb_refl_ in E. discriminate.
  Qed.

  Lemma akeys_adel k (l : list (K * V)) : incl (akeys (adel eqb k l)) (akeys l).
  Proof.
    induction l as [|[k' v'] l IH]; cbn; [apply incl_refl|].
    destruct (eqb k k'); cbn.
    - apply incl_tl, incl_refl.
    - intros x [->|H]; [left; reflexivity|right; apply IH; exact H].
  Qed.

  Lemma in_akeys_adel k x (l : list (K * V)) :
    NoDup (akeys l) -> In x (akeys (adel eqb k l)) <-> In x (akeys l) /\ x <> k.
  Proof.
    induction l as [|[k' v'] l IH]; cbn; [tauto|].
    intros Hnd. inversion Hnd as [|? ? Hni Hnd']; subst.
    destruct (eqb k k') eqn:E; cbn.
    - apply eqb_spec in E. subst k'. split.
      + intros H. split; [tauto|]. intros ->. contradiction.
      + intros [[H|H] Hne]; [congruence|exact H].
    - rewrite IH by exact Hnd'. split.
      + intros [<-|[H1 H2]]; [|tauto]. split; [tauto|]. intros ->. rewrite eqb_refl_ in E. discriminate.
      + tauto.
  Qed.

  Lemma NoDup_akeys_adel k (l : list (K * V)) : NoDup (akeys l) -> NoDup (akeys (adel eqb k l)).
  Proof.
    induction l as [|[k' v'] l IH]; cbn; [auto|].
    intros Hnd. inversion Hnd as [|? ? Hni Hnd']; subst.
    destruct (eqb k k') eqn:E; cbn; [exact Hnd'|].
    constructor; [|auto]. intros H. apply akeys_adel in H. contradiction.
  Qed.

  Lemma aget_adel_other k k0 (l : list (K * V)) : k <> k0 -> aget eqb k0 (adel eqb k l) = aget eqb k0 l.
  Proof.
    intros Hne. induction l as [|[k' v'] l IH]; cbn; [reflexivity|].
    destruct (eqb k k') eqn:E; cbn.
    - apply eqb_spec in E. subst. rewrite eqb_neq_ by congruence. reflexivity.
    - rewrite IH. reflexivity.
  Qed.

  Lemma aget_adel_same k (l : list (K * V)) : NoDup (akeys l) -> aget eqb k (adel eqb k l) = None.
  Proof.
    intros Hnd. apply aget_none. rewrite in_akeys_adel by exact Hnd. tauto.
  Qed.

  Lemma aset_perm_new k (v : V) l : aget eqb k l = None -> aset eqb k v l = l ++ [(k, v)].
  Proof.
    induction l as [|[k' v'] l IH]; cbn; [reflexivity|].
    destruct (eqb k k') eqn:E; [discriminate|]. intros H. rewrite IH by exact H. reflexivity.
  Qed.

  (** [d[k] = v] on an existing key: split at the key. *)
  Lemma aset_split k (v v0 : V) l :
    aget eqb k l = Some v0 -> exists l1 l2, l = l1 ++ (k, v0) :: l2 /\ aset eqb k v l = l1 ++ (k, v) :: l2
                                          /\ adel eqb k l = l1 ++ l2.
  Proof.
    induction l as [|[k' v'] l IH]; cbn; [discriminate|].
    destruct (eqb k k') eqn:E.
    - apply eqb_spec in E. subst. intros [= ->]. exists [], l. repeat split.
    - intros H. destruct (IH H) as (l1 & l2 & -> & -> & ->). exists ((k', v') :: l1), l2. repeat split.
  Qed.
End AssocLemmas.

Section SortLemmas.
  Context {A : Type} (lt : A -> A -> bool).
  Lemma insert_sorted_perm x l : Permutation (insert_sorted lt x l) (x :: l).
  Proof.
    induction l as [|y l IH]; cbn; [reflexivity|].
    destruct (lt y x); [|reflexivity].
    rewrite IH. apply perm_swap.
  Qed.
  Lemma isort_perm l : Permutation (isort lt l) l.
  Proof.
    induction l as [|x l IH]; cbn; [reflexivity|].
    rewrite insert_sorted_perm. constructor. exact IH.
  Qed.
  Lemma in_isort x l : In x (isort lt l) <-> In x l.
  Proof. split; apply Permutation_in; [|symmetry]; apply isort_perm. Qed.
  Lemma isort_length l : length (isort lt l) = length l.
  Proof. apply Permutation_length, isort_perm. Qed.
  Lemma isort_NoDup l : NoDup l -> NoDup (isort lt l).
  Proof. intros H. eapply Permutation_NoDup; [symmetry; apply isort_perm|exact H]. Qed.

  Hypothesis lt_asym : forall a b, lt a b = true -> lt b a = false.
  Hypothesis nlt_trans : forall a b c, lt b a = false -> lt c b = false -> lt c a = false.

  Lemma insert_sorted_sorted x l :
    StronglySorted (fun a b => lt b a = false) l -> StronglySorted (fun a b => lt b a = false) (insert_sorted lt x l).
  Proof.
    induction l as [|y l IH]; cbn; intros H.
    - repeat constructor.
    - inversion H as [|? ? Hs Hf]; subst. destruct (lt y x) eqn:E.
      + constructor; [auto|]. rewrite Forall_forall in *. intros z Hz.
        apply (Permutation_in _ (insert_sorted_perm x l)) in Hz. destruct Hz as [<-|Hz]; [auto|auto].
      + constructor; [exact H|]. constructor; [exact E|]. rewrite Forall_forall in *. intros z Hz.
        apply nlt_trans with y; auto.
  Qed.
  Lemma isort_sorted l : StronglySorted (fun a b => lt b a = false) (isort lt l).
  Proof. induction l as [|x l IH]; cbn; [constructor|apply insert_sorted_sorted, IH]. Qed.
End SortLemmas.

Lemma list_eqb_spec {A} (eqb : A -> A -> bool) :
  (forall a b, eqb a b = true <-> a = b) -> forall a b, list_eqb eqb a b = true <-> a = b.
Proof.
  intros H a. induction a as [|x a IH]; intros [|y b]; cbn; try (split; congruence).
  rewrite andb_true_iff, H, IH. split; [intros [-> ->]; reflexivity|intros [= -> ->]; auto].
Qed.

Section LexLemmas.
  Context {A : Type} (cmp : A -> A -> comparison).
  Hypothesis cmp_eq : forall a b, cmp a b = Eq <-> a = b.
  Hypothesis cmp_antisym : forall a b, cmp b a = CompOpp (cmp a b).
  Hypothesis cmp_trans : forall a b c, cmp a b = Lt -> cmp b c = Lt -> cmp a c = Lt.

  Lemma lex_eq a b : lex cmp a b = Eq <-> a = b.
  Proof.
    revert b. induction a as [|x a IH]; intros [|y b]; cbn; try (split; congruence).
    destruct (cmp x y) eqn:E.
    - apply cmp_eq in E. subst. rewrite IH. split; congruence.
    - split; [discriminate|]. intros [= -> ->]. assert (cmp y y = Eq) by (apply cmp_eq; reflexivity). congruence.
    - split; [discriminate|]. intros [= -> ->]. assert (cmp y y = Eq) by (apply cmp_eq; reflexivity). congruence.
  Qed.
  Lemma lex_antisym a b : lex cmp b a = CompOpp (lex cmp a b).
  Proof.
    revert b. induction a as [|x a IH]; intros [|y b]; cbn; try reflexivity.
    rewrite cmp_antisym. destruct (cmp x y); cbn; auto.
  Qed.
  Lemma lex_trans a b c : lex cmp a b = Lt -> lex cmp b c = Lt -> lex cmp a c = Lt.
  Proof.
    revert b c. induction a as [|x a IH]; intros [|y b] [|z c]; cbn; try congruence.
    destruct (cmp x y) eqn:E1; destruct (cmp y z) eqn:E2; try discriminate; intros H1 H2.
    - apply cmp_eq in E1, E2. subst. assert (cmp z z = Eq) as -> by (apply cmp_eq; reflexivity). eauto.
    - apply cmp_eq in E1. subst. rewrite E2. reflexivity.
    - apply cmp_eq in E2. subst. rewrite E1. reflexivity.
    - rewrite (cmp_trans _ _ _ E1 E2). reflexivity.
  Qed.
End LexLemmas.

Lemma NoDup_app_iff {A} (a b : list A) :
  NoDup (a ++ b) <-> NoDup a /\ NoDup b /\ (forall x, In x a -> ~ In x b).
Proof.
  induction a as [|x a IH]; cbn.
  - split; [intros H; repeat split; [constructor|exact H|tauto]|tauto].
  - split.
    + intros H. inversion H as [|? ? Hni Hnd]; subst. apply IH in Hnd as (Ha & Hb & Hd).
      rewrite in_app_iff in Hni. repeat split; [constructor; tauto|exact Hb|].
      intros y [<-|Hy]; [tauto|auto].
    + intros (Ha & Hb & Hd). inversion Ha as [|? ? Hni Hnd]; subst. constructor.
      * rewrite in_app_iff. intros [H|H]; [contradiction|]. apply (Hd x); auto.
      * apply IH. repeat split; auto.
Qed.

Lemma flat_map_perm {A B} (f : A -> list B) a b : Permutation a b -> Permutation (flat_map f a) (flat_map f b).
Proof.
  induction 1 as [|x a b _ IH|x y a|a b c _ IH1 _ IH2]; cbn.
  - reflexivity.
  - apply Permutation_app_head. exact IH.
  - rewrite !app_assoc. apply Permutation_app_tail, Permutation_app_comm.
  - etransitivity; eassumption.
Qed.

Lemma filter_app_ {A} (f : A -> bool) a b : filter f (a ++ b) = filter f a ++ filter f b.
Proof. apply filter_app. Qed.
