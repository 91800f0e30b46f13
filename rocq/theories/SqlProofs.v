(** The generated WHERE clause is read back as the intended expression. *)
From Verif Require Import Base MixtureKeyModel MixtureKeyProofs SqlModel SpecSql.
Open Scope Z_scope.

Definition follow (lvl : nat) (rest : list tok) : Prop :=
  match rest with
  | TAnd :: _ => (2 <= lvl)%nat
  | TOr :: _ => (1 <= lvl)%nat
  | _ => True
  end.
Definition Pars (lvl n : nat) (t : list tok) (e : expr) (n' : nat) : Prop :=
  forall fuel rest, (3 * length t + 3 - lvl <= fuel)%nat -> follow lvl rest -> parse fuel lvl n (t ++ rest) = Some (e, n', rest).

Lemma parse_1 fuel n l : parse (S fuel) 1 n l =
  match parse fuel 2 n l with
  | Some (e1, n1, TAnd :: r) => match parse fuel 1 n1 r with Some (e2, n2, r') => Some (EAnd e1 e2, n2, r') | None => None end
  | x => x
  end.
Proof. reflexivity. Qed.
Lemma parse_0 fuel n l : parse (S fuel) 0 n l =
  match parse fuel 1 n l with
  | Some (e1, n1, TOr :: r) => match parse fuel 0 n1 r with Some (e2, n2, r') => Some (EOr e1 e2, n2, r') | None => None end
  | x => x
  end.
Proof. reflexivity. Qed.

Lemma follow_up rest : follow 0 rest -> follow 1 rest /\ follow 2 rest.
Proof. destruct rest as [|[] ?]; cbn; intros; try (split; exact I); lia. Qed.
Lemma follow_up1 rest : follow 1 rest -> follow 2 rest.
Proof. destruct rest as [|[] ?]; cbn; intros; try exact I; lia. Qed.

Lemma pars_up1 n t e n' : Pars 2 n t e n' -> Pars 1 n t e n'.
Proof.
  intros H fuel rest Hf Hr. destruct fuel as [|fuel]; [lia|]. rewrite parse_1, H; [|lia|apply follow_up1; exact Hr].
  destruct rest as [|[] ?]; try reflexivity. cbn in Hr. lia.
Qed.
Lemma pars_up0 n t e n' : Pars 1 n t e n' -> Pars 0 n t e n'.
Proof.
  intros H fuel rest Hf Hr. destruct fuel as [|fuel]; [lia|]. rewrite parse_0, H; [|lia|apply follow_up; exact Hr].
  destruct rest as [|[] ?]; try reflexivity. cbn in Hr. lia.
Qed.
Lemma pars_and n t1 e1 n1 t2 e2 n2 : Pars 2 n t1 e1 n1 -> Pars 1 n1 t2 e2 n2 -> Pars 1 n (t1 ++ TAnd :: t2) (EAnd e1 e2) n2.
Proof.
  intros H1 H2 fuel rest Hf Hr. rewrite app_length in Hf. cbn [length] in Hf. destruct fuel as [|fuel]; [lia|].
  rewrite parse_1, <- app_assoc, H1; [|lia|cbn; lia]. cbn [app]. rewrite H2; [reflexivity|lia|exact Hr].
Qed.
Lemma pars_or n t1 e1 n1 t2 e2 n2 : Pars 1 n t1 e1 n1 -> Pars 0 n1 t2 e2 n2 -> Pars 0 n (t1 ++ TOr :: t2) (EOr e1 e2) n2.
Proof.
  intros H1 H2 fuel rest Hf Hr. rewrite app_length in Hf. cbn [length] in Hf. destruct fuel as [|fuel]; [lia|].
  rewrite parse_0, <- app_assoc, H1; [|lia|cbn; lia]. cbn [app]. rewrite H2; [reflexivity|lia|exact Hr].
Qed.
Lemma pars_paren n t e n' : Pars 0 n t e n' -> Pars 2 n (TLP :: t ++ [TRP]) e n'.
Proof.
  intros H fuel rest Hf Hr. cbn [length] in Hf. rewrite app_length in Hf. cbn [length] in Hf. destruct fuel as [|fuel]; [lia|].
  cbn [parse app]. rewrite <- app_assoc, H; [reflexivity|lia|exact I].
Qed.
Lemma pars_not n t e n' : Pars 2 n t e n' -> Pars 2 n (TNot :: t) (ENot e) n'.
Proof.
  intros H fuel rest Hf Hr. cbn [length] in Hf. destruct fuel as [|fuel]; [lia|].
  cbn [parse app]. rewrite H; [reflexivity|lia|exact Hr].
Qed.

Lemma join_cons sep x y l : join sep (x :: y :: l) = x ++ sep :: join sep (y :: l).
Proof. reflexivity. Qed.
Lemma p_qs_join {A} (x : A) l rest : match rest with TComma :: _ => False | _ => True end ->
  p_qs (placeholders (x :: l) ++ rest) = Some (length (x :: l), rest).
Proof.
  intros Hr. revert x. induction l as [|y l IH]; intros x.
  - cbn. destruct rest as [|[] ?]; try reflexivity. contradiction.
  - unfold placeholders in *. cbn [map] in *. rewrite join_cons. cbn [app p_qs]. rewrite (IH y). reflexivity.
Qed.

(** ** Meaning of a piece of text with its parameters *)
Section Means.
  Context {V : Type}.
  Variable cmp : V -> V -> comparison.
  Variable na : option bool.
  Hypothesis cmp_eq : forall a b, cmp a b = Eq <-> a = b.
  (** An array function never returns true for a NULL array. *)
  Hypothesis na_ok : na <> Some true.
  Variable sch : schema.

  (** In a larger text whose parameters contain [p] at position [n]. *)
  Definition at_ {A} (n : nat) (p params : list A) : Prop := exists a b, params = a ++ p ++ b /\ length a = n.
  Definition Means (lvl : nat) (t : list tok) (p : list (option V)) (g : bool) (P : (str -> option (cell V)) -> Prop) : Prop :=
    forall n, exists e, Pars lvl n t e (n + length p) /\ has_aggregate e = g /\
      forall params row, g = false -> at_ n p params -> typed sch row -> exists r, eval cmp na params row e = Some r /\ (r = Some true <-> P row).

  Lemma at_nth {A} n (x : A) l params : at_ n (x :: l) params -> nth_error params n = Some x.
  Proof. intros (a & b & -> & <-). rewrite nth_error_app2 by lia. rewrite Nat.sub_diag. reflexivity. Qed.
  Lemma at_firstn {A} n (l : list A) params : at_ n l params -> firstn (length l) (skipn n params) = l.
  Proof.
    intros (a & b & -> & <-). induction a as [|x a IH]; [|exact IH]. cbn [app length skipn]. induction l as [|y l IHl]; [reflexivity|]. cbn. f_equal. exact IHl.
  Qed.
  Lemma at_app1 {A} n (l1 l2 params : list A) : at_ n (l1 ++ l2) params -> at_ n l1 params.
  Proof. intros (a & b & -> & <-). exists a, (l2 ++ b). rewrite !app_assoc. auto. Qed.
  Lemma at_app2 {A} n (l1 l2 params : list A) : at_ n (l1 ++ l2) params -> at_ (n + length l1) l2 params.
  Proof. intros (a & b & -> & <-). exists (a ++ l1), b. rewrite app_length, !app_assoc. auto. Qed.

  Lemma means_up1 t p g P : Means 2 t p g P -> Means 1 t p g P.
  Proof. intros H n. destruct (H n) as (e & He & Ha & Hv). exists e. split; [apply pars_up1; exact He|]. split; assumption. Qed.
  Lemma means_up0 t p g P : Means 1 t p g P -> Means 0 t p g P.
  Proof. intros H n. destruct (H n) as (e & He & Ha & Hv). exists e. split; [apply pars_up0; exact He|]. split; assumption. Qed.
  Lemma means_paren t p g P : Means 0 t p g P -> Means 2 (TLP :: t ++ [TRP]) p g P.
  Proof. intros H n. destruct (H n) as (e & He & Ha & Hv). exists e. split; [apply pars_paren; exact He|]. split; assumption. Qed.
  Lemma means_iff lvl t p g P Q : (forall row, g = false -> typed sch row -> P row <-> Q row) -> Means lvl t p g P -> Means lvl t p g Q.
  Proof.
    intros E H n. destruct (H n) as (e & He & Ha & Hv). exists e. split; [exact He|]. split; [exact Ha|].
    intros params row G A T. destruct (Hv params row G A T) as (r & Er & Hr). exists r. split; [exact Er|]. rewrite Hr. apply E; assumption.
  Qed.

  Lemma and3_true a b : and3 a b = Some true <-> a = Some true /\ b = Some true.
  Proof. destruct a as [[]|], b as [[]|]; cbn; intuition congruence. Qed.
  Lemma or3_true a b : or3 a b = Some true <-> a = Some true \/ b = Some true.
  Proof. destruct a as [[]|], b as [[]|]; cbn; intuition congruence. Qed.

  Lemma means_and t1 p1 g1 P1 t2 p2 g2 P2 : Means 2 t1 p1 g1 P1 -> Means 1 t2 p2 g2 P2 -> Means 1 (t1 ++ TAnd :: t2) (p1 ++ p2) (g1 || g2) (fun row => P1 row /\ P2 row).
  Proof.
    intros H1 H2 n. destruct (H1 n) as (e1 & He1 & Ha1 & Hv1). destruct (H2 (n + length p1)%nat) as (e2 & He2 & Ha2 & Hv2).
    exists (EAnd e1 e2). split; [|split].
    - rewrite app_length, Nat.add_assoc. eapply pars_and; eassumption.
    - cbn. rewrite Ha1, Ha2. reflexivity.
    - intros params row G A T. apply orb_false_iff in G as [G1 G2].
      destruct (Hv1 params row G1 (at_app1 _ _ _ _ A) T) as (r1 & E1 & R1). destruct (Hv2 params row G2 (at_app2 _ _ _ _ A) T) as (r2 & E2 & R2).
      exists (and3 r1 r2). cbn [eval]. rewrite E1, E2. split; [reflexivity|]. rewrite and3_true, R1, R2. reflexivity.
  Qed.
  Lemma means_or t1 p1 g1 P1 t2 p2 g2 P2 : Means 1 t1 p1 g1 P1 -> Means 0 t2 p2 g2 P2 -> Means 0 (t1 ++ TOr :: t2) (p1 ++ p2) (g1 || g2) (fun row => P1 row \/ P2 row).
  Proof.
    intros H1 H2 n. destruct (H1 n) as (e1 & He1 & Ha1 & Hv1). destruct (H2 (n + length p1)%nat) as (e2 & He2 & Ha2 & Hv2).
    exists (EOr e1 e2). split; [|split].
    - rewrite app_length, Nat.add_assoc. eapply pars_or; eassumption.
    - cbn. rewrite Ha1, Ha2. reflexivity.
    - intros params row G A T. apply orb_false_iff in G as [G1 G2].
      destruct (Hv1 params row G1 (at_app1 _ _ _ _ A) T) as (r1 & E1 & R1). destruct (Hv2 params row G2 (at_app2 _ _ _ _ A) T) as (r2 & E2 & R2).
      exists (or3 r1 r2). cbn [eval]. rewrite E1, E2. split; [reflexivity|]. rewrite or3_true, R1, R2. reflexivity.
  Qed.

  (** Joined lists: [l] pairs a text with its parameters and meaning. *)
  Record piece := mkPiece { pc_text : list tok; pc_params : list (option V); pc_agg : bool; pc_mean : (str -> option (cell V)) -> Prop }.
  Definition piece_ok (lvl : nat) (x : piece) : Prop := Means lvl (pc_text x) (pc_params x) (pc_agg x) (pc_mean x).
  Lemma means_join_and (l : list piece) : l <> [] -> Forall (piece_ok 2) l ->
    Means 1 (join TAnd (map pc_text l)) (flat_map pc_params l) (existsb pc_agg l) (fun row => forall x, In x l -> pc_mean x row).
  Proof.
    intros Hne H. induction H as [|x l Hx Hl IH]; [contradiction|]. destruct l as [|y l].
    - cbn. rewrite app_nil_r, orb_false_r. eapply means_iff; [|apply means_up1, Hx]. intros row _ _. split; [intros Hr z [<-|[]]; exact Hr|intros Hr; apply Hr; left; reflexivity].
    - cbn [map] in *. rewrite join_cons. cbn [flat_map existsb]. eapply means_iff; [|eapply means_and; [exact Hx|apply IH; discriminate]].
      intros row _ _. split; [intros [Ha Hb] z [<-|Hz]; [exact Ha|apply Hb, Hz]|intros Hr; split; [apply Hr; left; reflexivity|intros z Hz; apply Hr; right; exact Hz]].
  Qed.
  Lemma means_join_or (l : list piece) : l <> [] -> Forall (piece_ok 1) l ->
    Means 0 (join TOr (map pc_text l)) (flat_map pc_params l) (existsb pc_agg l) (fun row => exists x, In x l /\ pc_mean x row).
  Proof.
    intros Hne H. induction H as [|x l Hx Hl IH]; [contradiction|]. destruct l as [|y l].
    - cbn. rewrite app_nil_r, orb_false_r. eapply means_iff; [|apply means_up0, Hx]. intros row _ _. split; [intros Hr; exists x; auto|intros (z & [<-|[]] & Hr); exact Hr].
    - cbn [map] in *. rewrite join_cons. cbn [flat_map existsb]. eapply means_iff; [|eapply means_or; [exact Hx|apply IH; discriminate]].
      intros row _ _. split; [intros [Ha|(z & Hz & Hb)]; [exists x; split; [left; reflexivity|exact Ha]|exists z; split; [right; exact Hz|exact Hb]]|].
      intros (z & [<-|Hz] & Hr); [left; exact Hr|right; exists z; auto].
  Qed.

  (** ** The predicates *)
  Lemma holds_rel o x y : holds o (cmp x y) = true <-> rel cmp o x y.
  Proof.
    assert (Q := cmp_eq x y). destruct o; cbn [rel]; destruct (cmp x y) eqn:E; cbn [holds]; intuition congruence.
  Qed.

  Lemma pars_atom n n' t e : (forall fuel rest, parse (S fuel) 2 n (t ++ rest) = Some (e, n', rest)) -> Pars 2 n t e n'.
  Proof. intros H fuel rest Hf _. destruct fuel; [lia|]. apply H. Qed.

  Definition value_some (v : pyval V) : Prop := match v with PNone => False | _ => True end.
  Lemma row_scalar f (row : str -> option (cell V)) : typed sch row -> aget str_eqb f sch = Some false -> exists x, row f = Some (CScalar x).
  Proof. intros T E. specialize (T f). rewrite E in T. exact T. Qed.
  Lemma row_array f (row : str -> option (cell V)) : typed sch row -> aget str_eqb f sch = Some true -> exists x, row f = Some (CArray x).
  Proof. intros T E. specialize (T f). rewrite E in T. exact T. Qed.

  Lemma cmp3_true o x y : cmp3 cmp o (Some x) y = Some true <-> exists z, y = Some z /\ rel cmp o x z.
  Proof.
    destruct y as [z|]; cbn; [|split; [discriminate|intros (z & E & _); discriminate]].
    assert (Q := holds_rel o x z). split; [intros E; exists z; split; [reflexivity|apply Q; congruence]|]. intros (z' & E & Hh). injection E as <-. apply Q in Hh. congruence.
  Qed.
  Lemma in3_true x l : in3 cmp (Some x) l = Some true <-> exists z, In (Some z) l /\ x = z.
  Proof.
    unfold in3. induction l as [|y l IH]; cbn [map fold_right In]; [split; [discriminate|intros (z & [] & _)]|].
    rewrite or3_true, IH, cmp3_true. cbn [rel]. split.
    - intros [(z & -> & E)|(z & Hz & E)]; exists z; auto.
    - intros (z & [->|Hz] & E); [left; exists z; auto|right; exists z; auto].
  Qed.
  Lemma in3_false x l : not3 (in3 cmp (Some x) l) = Some true <-> forall y, In y l -> exists z, y = Some z /\ x <> z.
  Proof.
    assert (Hor : forall a b, not3 (or3 a b) = Some true <-> not3 a = Some true /\ not3 b = Some true).
    { intros [[]|] [[]|]; cbn; intuition congruence. }
    unfold in3. induction l as [|y l IH]; cbn [map fold_right In]; [split; [intros _ y []|reflexivity]|].
    rewrite Hor, IH. assert (E : not3 (cmp3 cmp OEq (Some x) y) = Some true <-> exists z, y = Some z /\ x <> z).
    { destruct y as [z|]; cbn [cmp3 not3 option_map]; [|split; [discriminate|intros (z & E & _); discriminate]].
      assert (Q := holds_rel OEq x z). cbn [rel] in Q. destruct (holds OEq (cmp x z)); cbn; split.
      - discriminate.
      - intros (z' & E & Hn). injection E as <-. exfalso. apply Hn, Q. reflexivity.
      - intros _. exists z. split; [reflexivity|]. intros E. apply Q in E. discriminate.
      - reflexivity. }
    rewrite E. split; [intros [H1 H2] z [<-|Hz]; [exact H1|apply H2, Hz]|intros H; split; [apply H; left; reflexivity|intros z Hz; apply H; right; exact Hz]].
  Qed.
  Lemma elem_true v l : elem cmp v l = true <-> exists z, v = Some z /\ In (Some z) l.
  Proof.
    unfold elem. rewrite existsb_exists. split.
    - intros (x & Hx & Hc). destruct (cmp3 cmp OEq x v) as [[]|] eqn:E; try discriminate. destruct x as [x|]; [|discriminate].
      apply cmp3_true in E as (z & -> & Hr). cbn in Hr. subst z. exists x. auto.
    - intros (z & -> & Hi). exists (Some z). split; [exact Hi|]. replace (cmp3 cmp OEq (Some z) (Some z)) with (Some true); [reflexivity|].
      symmetry. apply cmp3_true. exists z. split; reflexivity.
  Qed.
  Lemma has_any_true (l p : list (option V)) : existsb (fun y => elem cmp y l) p = true <-> exists z, In (Some z) l /\ In (Some z) p.
  Proof.
    rewrite existsb_exists. split.
    - intros (y & Hy & He). apply elem_true in He as (z & -> & Hz). exists z. auto.
    - intros (z & H1 & H2). exists (Some z). split; [exact H2|]. apply elem_true. exists z. auto.
  Qed.
  Lemma neg_some_true b : Some (negb b) = Some true <-> ~ b = true.
  Proof. destruct b; cbn; intuition congruence. Qed.
  Lemma some_true (b : bool) : Some b = Some true <-> b = true.
  Proof. split; congruence. Qed.

  Ltac atom e := intros n; exists e; split; [apply pars_atom; intros fuel rest; cbn [app parse length]; rewrite ?Nat.add_0_r, ?Nat.add_1_r; try reflexivity|split; [reflexivity|]].

  Lemma means_is_null f : amem str_eqb f sch = true -> Means 2 [TId f; TIs; TNull] [] false (fun row => exists x, row f = Some x /\ satisfied cmp na x OEq PNone).
  Proof.
    intros Hm. intros n. exists (EIsNull f false). split; [|split; [reflexivity|]].
    - apply pars_atom. intros fuel rest. cbn [app parse length]. rewrite Nat.add_0_r. reflexivity.
    - intros params row _ _ T. unfold amem in Hm. destruct (aget str_eqb f sch) as [[]|] eqn:E; [| |discriminate].
      + destruct (row_array _ _ T E) as (x & Er). cbn [eval eval_atom]. rewrite Er. destruct x as [x|]; eexists; split; try reflexivity; cbn; (split; [try discriminate|]).
        * intros (y & [= <-] & Hy). discriminate.
        * intros _. exists (CArray None). split; reflexivity.
        * reflexivity.
      + destruct (row_scalar _ _ T E) as (x & Er). cbn [eval eval_atom]. rewrite Er. destruct x as [x|]; eexists; split; try reflexivity; cbn; (split; [try discriminate|]).
        * intros (y & [= <-] & Hy). discriminate.
        * intros _. exists (CScalar None). split; reflexivity.
        * reflexivity.
  Qed.
  Lemma means_is_not_null f : amem str_eqb f sch = true -> Means 2 [TId f; TIs; TNot; TNull] [] false (fun row => exists x, row f = Some x /\ satisfied cmp na x ONe PNone).
  Proof.
    intros Hm. intros n. exists (EIsNull f true). split; [|split; [reflexivity|]].
    - apply pars_atom. intros fuel rest. cbn [app parse length]. rewrite Nat.add_0_r. reflexivity.
    - intros params row _ _ T. unfold amem in Hm. destruct (aget str_eqb f sch) as [[]|] eqn:E; [| |discriminate].
      + destruct (row_array _ _ T E) as (x & Er). cbn [eval eval_atom]. rewrite Er. destruct x as [x|]; eexists; split; try reflexivity; cbn; (split; [try discriminate|]).
        * intros _. exists (CArray (Some x)). split; [reflexivity|discriminate].
        * reflexivity.
        * intros (y & [= <-] & Hy). contradiction Hy; reflexivity.
      + destruct (row_scalar _ _ T E) as (x & Er). cbn [eval eval_atom]. rewrite Er. destruct x as [x|]; eexists; split; try reflexivity; cbn; (split; [try discriminate|]).
        * intros _. exists (CScalar (Some x)). split; [reflexivity|discriminate].
        * reflexivity.
        * intros (y & [= <-] & Hy). contradiction Hy; reflexivity.
  Qed.

  Lemma means_cmp f o p : aget str_eqb f sch = Some false ->
    Means 2 [TId f; TOp o; TQ] [p] false (fun row => exists x y z, row f = Some (CScalar (Some x)) /\ p = Some z /\ y = z /\ rel cmp o x z).
  Proof.
    intros E n. exists (ECmp f o n). split; [|split; [reflexivity|]].
    - apply pars_atom. intros fuel rest. cbn [app parse length]. rewrite Nat.add_1_r. reflexivity.
    - intros params row _ A T. destruct (row_scalar _ _ T E) as (x & Er). cbn [eval eval_atom]. rewrite Er, (at_nth _ _ _ _ A). eexists. split; [reflexivity|].
      destruct x as [x|]; [|cbn; split; [discriminate|intros (x & y & z & Hx & _); discriminate]].
      rewrite cmp3_true. split; [intros (z & -> & Hr); exists x, z, z; auto|]. intros (x' & y & z & Hx & -> & _ & Hr). injection Hx as <-. exists z. auto.
  Qed.
  Lemma means_in f (v0 : option V) l : aget str_eqb f sch = Some false ->
    Means 2 (TId f :: TIn :: TLP :: placeholders (v0 :: l) ++ [TRP]) (v0 :: l) false (fun row => exists x, row f = Some (CScalar (Some x)) /\ exists z, In (Some z) (v0 :: l) /\ x = z).
  Proof.
    intros E n. exists (EIn f false n (length (v0 :: l))). split; [|split; [reflexivity|]].
    - apply pars_atom. intros fuel rest. cbn [app parse]. rewrite <- app_assoc. rewrite p_qs_join by exact I. reflexivity.
    - intros params row _ A T. destruct (row_scalar _ _ T E) as (x & Er). cbn [eval eval_atom]. rewrite Er, (at_firstn _ _ _ A). eexists. split; [reflexivity|].
      destruct x as [x|].
      + rewrite in3_true. split; [intros H; exists x; auto|]. intros (x' & Hx & H). injection Hx as <-. exact H.
      + split; [|intros (x & Hx & _); discriminate]. intros H. exfalso. unfold in3 in H.
        assert (Q : forall m, fold_right or3 (Some false) (map (cmp3 cmp OEq None) m) <> Some true) by (induction m as [|y m IH]; cbn [map fold_right]; [discriminate|rewrite or3_true; intros [Q|Q]; [discriminate|contradiction]]).
        exact (Q _ H).
  Qed.
  Lemma means_not_in f (v0 : option V) l : aget str_eqb f sch = Some false ->
    Means 2 (TId f :: TNot :: TIn :: TLP :: placeholders (v0 :: l) ++ [TRP]) (v0 :: l) false
      (fun row => exists x, row f = Some (CScalar (Some x)) /\ forall y, In y (v0 :: l) -> exists z, y = Some z /\ x <> z).
  Proof.
    intros E n. exists (EIn f true n (length (v0 :: l))). split; [|split; [reflexivity|]].
    - apply pars_atom. intros fuel rest. cbn [app parse]. rewrite <- app_assoc. rewrite p_qs_join by exact I. reflexivity.
    - intros params row _ A T. destruct (row_scalar _ _ T E) as (x & Er). cbn [eval eval_atom]. rewrite Er, (at_firstn _ _ _ A). eexists. split; [reflexivity|].
      destruct x as [x|].
      + rewrite in3_false. split; [intros H; exists x; auto|]. intros (x' & Hx & H). injection Hx as <-. exact H.
      + split; [|intros (x & Hx & _); discriminate]. intros H. exfalso.
        assert (Q : forall m b, fold_right or3 (Some b) (map (cmp3 cmp OEq None) m) <> Some false \/ m = []).
        { induction m as [|y m IH]; intros b; [right; reflexivity|left]. cbn [map fold_right]. cbn [cmp3].
          destruct (fold_right or3 (Some b) (map (cmp3 cmp OEq None) m)) as [[]|]; cbn; discriminate. }
        unfold in3 in H. destruct (Q (v0 :: l) false) as [Q1|Q1]; [|discriminate]. destruct (fold_right or3 (Some false) (map (cmp3 cmp OEq None) (v0 :: l))) as [[]|]; cbn in H; congruence.
  Qed.
  Lemma means_has_any f (v0 : option V) l (neg : bool) : aget str_eqb f sch = Some true ->
    Means 2 ((if neg then [TNot] else []) ++ TFn ArrayHasAny :: TLP :: TId f :: TComma :: TLB :: placeholders (v0 :: l) ++ [TRB; TRP]) (v0 :: l) false
      (fun row => exists x, row f = Some x /\ satisfied cmp na x (if neg then ONe else OEq) (PList (v0 :: l))).
  Proof.
    intros E.
    assert (P : forall n, Pars 2 n (TFn ArrayHasAny :: TLP :: TId f :: TComma :: TLB :: placeholders (v0 :: l) ++ [TRB; TRP]) (EHasAny f n (length (v0 :: l))) (n + length (v0 :: l))).
    { intros n. apply pars_atom. intros fuel rest. cbn [app parse]. rewrite <- app_assoc. rewrite p_qs_join by exact I. reflexivity. }
    intros n. exists (if neg then ENot (EHasAny f n (length (v0 :: l))) else EHasAny f n (length (v0 :: l))). split; [|split].
    - destruct neg; [apply pars_not, P|apply P].
    - destruct neg; reflexivity.
    - intros params row _ A T. destruct (row_array _ _ T E) as (x & Er). assert (F := at_firstn _ _ _ A).
      destruct neg; cbn [eval eval_atom]; rewrite Er; destruct x as [x|]; cbn [option_map]; eexists; (split; [reflexivity|]).
      + rewrite F. cbn [not3 option_map]. rewrite neg_some_true, has_any_true. cbn [satisfied]. split; [intros H; eexists; split; [reflexivity|exact H]|]. intros (y & [= <-] & H). exact H.
      + split; [intros H; eexists; split; [reflexivity|]; split; [reflexivity|]; destruct na as [[]|]; cbn in H; congruence|].
        intros (y & [= <-] & _ & H). rewrite H. reflexivity.
      + rewrite F, some_true, has_any_true. cbn [satisfied]. split; [intros H; eexists; split; [reflexivity|exact H]|]. intros (y & [= <-] & H). exact H.
      + split; [|intros (y & [= <-] & H & _); discriminate]. intros H. exfalso. apply na_ok. exact H.
  Qed.
End Means.
