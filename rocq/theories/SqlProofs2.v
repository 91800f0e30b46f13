(** Conditions, selects and queries. *)
From Verif Require Import Base MixtureKeyModel MixtureKeyProofs SqlModel SpecSql SqlProofs.
Open Scope Z_scope.

Lemma some_pair {A B} (a c : A) (b d : B) : Some (a, b) = Some (c, d) -> a = c /\ b = d.
Proof. intros [= -> ->]. auto. Qed.

Lemma op_map_spec op : op_map op = aget str_eqb op operators.
Proof.
  unfold op_map. change operators with [([61; 61], OEq); ([33; 61], ONe); ([62], OGt); ([60], OLt); ([62; 61], OGe); ([60; 61], OLe)]. cbn [aget].
  reflexivity.
Qed.

Section Query.
  Context {V : Type}.
  Variable cmp : V -> V -> comparison.
  Variable na : option bool.
  Hypothesis cmp_eq : forall a b, cmp a b = Eq <-> a = b.
  Hypothesis na_ok : na <> Some true.
  Variable sch : schema.
  Notation Means := (Means cmp na sch).
  Notation cond_holds := (cond_holds cmp na).

  Lemma means_contains f (v : V) (neg : bool) : aget str_eqb f sch = Some true ->
    Means 2 ((if neg then [TNot] else []) ++ [TFn ArrayContains; TLP; TId f; TComma; TQ; TRP]) [Some v] false
      (fun row => exists x, row f = Some x /\ satisfied cmp na x (if neg then ONe else OEq) (PScalar v)).
  Proof using cmp_eq na_ok.
    intros E.
    assert (P : forall n, Pars 2 n [TFn ArrayContains; TLP; TId f; TComma; TQ; TRP] (EContains f n) (n + 1)).
    { intros n. apply pars_atom. intros fuel rest. cbn [app parse]. rewrite Nat.add_1_r. reflexivity. }
    intros n. exists (if neg then ENot (EContains f n) else EContains f n). split; [|split].
    - destruct neg; [apply pars_not, P|apply P].
    - destruct neg; reflexivity.
    - intros params row _ A T. destruct (row_array _ _ _ T E) as (x & Er). assert (F := at_nth _ _ _ _ A).
      assert (El : forall l, elem cmp (Some v) l = true <-> In (Some v) l).
      { intros l. rewrite (elem_true cmp cmp_eq). split; [intros (z & [= <-] & H); exact H|intros H; exists v; auto]. }
      destruct neg; cbn [eval eval_atom]; rewrite Er, F; destruct x as [x|]; cbn [option_map]; eexists; (split; [reflexivity|]).
      + cbn [not3 option_map]. rewrite neg_some_true, El. cbn [satisfied]. split; [intros H; eexists; split; [reflexivity|exact H]|]. intros (y & [= <-] & H). exact H.
      + split; [intros H; eexists; split; [reflexivity|]; split; [reflexivity|]; destruct na as [[]|]; cbn in H; congruence|].
        intros (y & [= <-] & _ & H). rewrite H. reflexivity.
      + rewrite some_true, El. cbn [satisfied]. split; [intros H; eexists; split; [reflexivity|exact H]|]. intros (y & [= <-] & H). exact H.
      + split; [|intros (y & [= <-] & H & _); discriminate]. intros H. exfalso. apply na_ok. exact H.
  Qed.
  Lemma means_agg f o p P : Means 2 [TFn AnyValue; TLP; TId f; TRP; TOp o; TQ] [p] true P.
  Proof using.
    intros n. exists (EAggCmp f o n). split; [|split; [reflexivity|discriminate]]. apply pars_atom. intros fuel rest. cbn [app parse length]. rewrite Nat.add_1_r. reflexivity.
  Qed.
  (** (f op ? OR f op ? ...) *)
  Lemma means_any f o (v0 : option V) l : aget str_eqb f sch = Some false ->
    Means 2 (TLP :: join TOr (map (fun _ => [TId f; TOp o; TQ]) (v0 :: l)) ++ [TRP]) (v0 :: l) false
      (fun row => exists x, row f = Some (CScalar (Some x)) /\ exists z, In (Some z) (v0 :: l) /\ rel cmp o x z).
  Proof using cmp_eq.
    intros E. apply means_paren.
    set (pc := fun p : option V => mkPiece [TId f; TOp o; TQ] [p] false (fun row => exists x y z, row f = Some (CScalar (Some x)) /\ p = Some z /\ y = z /\ rel cmp o x z)).
    assert (H := means_join_or cmp na sch (map pc (v0 :: l))).
    assert (E1 : map pc_text (map pc (v0 :: l)) = map (fun _ => [TId f; TOp o; TQ]) (v0 :: l)) by (rewrite map_map; apply map_ext; reflexivity).
    assert (E2 : flat_map pc_params (map pc (v0 :: l)) = v0 :: l).
    { clear. induction (v0 :: l) as [|x m IH]; [reflexivity|]. cbn. f_equal. exact IH. }
    assert (E3 : existsb pc_agg (map pc (v0 :: l)) = false).
    { clear. induction (v0 :: l) as [|x m IH]; [reflexivity|]. cbn. exact IH. }
    rewrite E1, E2, E3 in H. eapply means_iff; [|apply H; [discriminate|]].
    - intros row _ T. cbv beta. split.
      + intros (x & Hx & Hr). apply in_map_iff in Hx as (p & <- & Hp). cbn in Hr. destruct Hr as (x & y & z & Hx & -> & -> & Hr). exists x. split; [exact Hx|]. exists z. auto.
      + intros (x & Hx & z & Hz & Hr). exists (pc (Some z)). split; [apply in_map, Hz|]. cbn. exists x, z, z. auto.
    - apply Forall_forall. intros x Hx. apply in_map_iff in Hx as (p & <- & Hp). apply means_up1; apply means_cmp; assumption.
  Qed.

  Definition agg_of (c : cond V) : bool :=
    let '(field, op, value) := c in
    match aget str_eqb field sch, op_map op, value with
    | Some true, Some o, (PScalar _ | PList (_ :: _)) => negb (is_eq o || is_ne o)
    | _, _, _ => false
    end.
  Lemma agg_of_spec (c : cond V) : agg_of c = true <-> array_order sch c.
  Proof using.
    destruct c as [[f op] v]. unfold agg_of, array_order. rewrite <- op_map_spec. destruct (aget str_eqb f sch) as [[]|].
    2,3: split; [discriminate|intros [H _]; discriminate].
    destruct (op_map op) as [o|]; [|split; [discriminate|intros (_ & _ & _ & o & H & _); discriminate]].
    destruct v as [|v|[|v0 l]].
    - split; [discriminate|]. intros (_ & H & _). contradiction.
    - split.
      + intros H. repeat split; try discriminate. exists o. split; [reflexivity|]. destruct o; try discriminate; split; discriminate.
      + intros (_ & _ & _ & o' & [= <-] & H1 & H2). destruct o; try reflexivity; contradiction.
    - split; [discriminate|]. intros (_ & _ & H & _). contradiction.
    - split.
      + intros H. repeat split; try discriminate. exists o. split; [reflexivity|]. destruct o; try discriminate; split; discriminate.
      + intros (_ & _ & _ & o' & [= <-] & H1 & H2). destruct o; try reflexivity; contradiction.
  Qed.

  Lemma process_none (c : cond V) : process_condition sch c = None <-> ~ effective sch c.
  Proof using.
    destruct c as [[f op] v]. unfold process_condition, effective, amem. rewrite <- op_map_spec.
    destruct (aget str_eqb f sch) as [a|]; [|split; [intros _ [H _]; discriminate|reflexivity]].
    destruct (op_map op) as [o|]; [|split; [intros _ (_ & (o & H & _) & _); discriminate|reflexivity]].
    assert (W : forall v, v <> PNone -> v <> PList [] -> true = true /\ (exists o0, Some o = Some o0 /\ (v = @PNone V -> o0 = OEq \/ o0 = ONe)) /\ v <> PList []).
    { intros w H1 H2. split; [reflexivity|]. split; [|exact H2]. exists o. split; [reflexivity|]. intros H; contradiction. }
    destruct v as [|v|[|v0 [|v1 l]]].
    - destruct o; cbn [is_eq is_ne]; (split; [try discriminate|]); try (intros H; exfalso; apply H; repeat split; try discriminate; eexists; split; [reflexivity|]; intros; tauto).
      all: try reflexivity. all: intros _ (_ & (o & [= <-] & H) & _); destruct (H eq_refl); discriminate.
    - assert (X := W (PScalar v) ltac:(discriminate) ltac:(discriminate)). destruct a, o; cbn [is_eq is_ne]; (split; [discriminate|intros H; contradiction]).
    - destruct a; (split; [intros _ (_ & _ & H); contradiction|reflexivity]).
    - assert (X := W (PList [v0]) ltac:(discriminate) ltac:(discriminate)). destruct a, o; cbn [is_eq is_ne]; (split; [discriminate|intros H; contradiction]).
    - assert (X := W (PList (v0 :: v1 :: l)) ltac:(discriminate) ltac:(discriminate)). destruct a, o; cbn [is_eq is_ne]; (split; [discriminate|intros H; contradiction]).
  Qed.

  Lemma cond_holds_row (row : str -> option (cell V)) f op o v : op_map op = Some o ->
    cond_holds row (f, op, v) <-> exists x, row f = Some x /\ satisfied cmp na x o v.
  Proof using.
    intros E. cbn [cond_holds]. rewrite <- op_map_spec, E. split; [intros (x & o' & Hx & [= <-] & H); exists x; auto|intros (x & Hx & H); exists x, o; auto].
  Qed.

  Lemma means_condition c t p : process_condition sch c = Some (t, p) -> Means 2 t p (agg_of c) (fun row => cond_holds row c).
  Proof using cmp_eq na_ok.
    destruct c as [[f op] v]. unfold process_condition, agg_of.
    destruct (aget str_eqb f sch) as [a|] eqn:Ef; [|discriminate]. destruct (op_map op) as [o|] eqn:Eo; [|discriminate].
    assert (Hm : amem str_eqb f sch = true) by (unfold amem; rewrite Ef; reflexivity).
    assert (CH := fun row => cond_holds_row row f op o v Eo).
    assert (Hscal : forall g t p P, a = false -> Means 2 t p g P ->
        (forall row x, row f = Some (CScalar (Some x)) -> P row <-> satisfied cmp na (CScalar (Some x)) o v) -> v <> PNone ->
        (forall row, P row -> exists x, row f = Some (CScalar (Some x))) -> Means 2 t p g (fun row => cond_holds row (f, op, v))).
    { intros g t' p' P -> HM HP Hv Hsc. eapply means_iff; [|exact HM]. intros row _ T. cbv beta. rewrite CH. destruct (row_scalar _ _ _ T Ef) as (x & Er).
      destruct x as [x|].
      - rewrite (HP _ _ Er). rewrite Er. split; [intros H; eexists; split; [reflexivity|exact H]|]. intros (y & [= <-] & H). exact H.
      - split; [intros H; destruct (Hsc _ H) as (x & Hx); congruence|]. rewrite Er. intros (y & [= <-] & H). destruct v; [contradiction|destruct H|destruct H]. }
    destruct v as [|v|l].
    - destruct o; cbn [is_eq is_ne]; try discriminate; intros [= <- <-].
      + replace (match a with true => _ | false => _ end) with false by (destruct a; reflexivity). eapply means_iff; [|apply means_is_null, Hm]. intros row _ _. cbv beta. rewrite CH. reflexivity.
      + replace (match a with true => _ | false => _ end) with false by (destruct a; reflexivity). eapply means_iff; [|apply means_is_not_null, Hm]. intros row _ _. cbv beta. rewrite CH. reflexivity.
    - destruct a.
      + destruct o; cbn [is_eq is_ne orb negb]; intros [= <- <-]; try apply means_agg.
        * eapply means_iff; [|apply (means_contains f v false), Ef]. intros row _ _. cbv beta. rewrite CH. reflexivity.
        * eapply means_iff; [|apply (means_contains f v true), Ef]. intros row _ _. cbv beta. rewrite CH. reflexivity.
      + intros [= <- <-]. eapply Hscal; [reflexivity|apply means_cmp; assumption| |discriminate|].
        * cbn. intros row x Er. rewrite Er. split; [intros (x' & y & z & [= <-] & [= <-] & _ & H); exact H|intros H; exists x, v, v; auto].
        * intros row (x & y & z & H & _). exists x. exact H.
    - destruct a.
      + destruct l as [|v0 l]; [discriminate|].
        destruct o; cbn [is_eq is_ne orb negb]; intros [= <- <-]; try apply means_agg.
        * eapply means_iff; [|apply (means_has_any cmp na cmp_eq na_ok sch f v0 l false), Ef]. intros row _ _. cbv beta. rewrite CH. reflexivity.
        * eapply means_iff; [|apply (means_has_any cmp na cmp_eq na_ok sch f v0 l true), Ef]. intros row _ _. cbv beta. rewrite CH. reflexivity.
      + destruct l as [|v0 [|v1 l]]; [discriminate| |].
        * intros [= <- <-]. eapply Hscal; [reflexivity|apply means_cmp; assumption| |discriminate|].
          -- cbn [satisfied]. intros row x Er. rewrite Er. destruct o.
             all: split; [intros (x' & y & z & [= <-] & -> & _ & H)|].
             all: try (exists z; split; [left; reflexivity|exact H]).
             all: try (intros (z & [->|[]] & H); exists x, z, z; auto).
             ++ intros y' [<-|[]]. exists z. auto.
             ++ intros H. destruct (H v0 (or_introl eq_refl)) as (z & -> & Hz). exists x, z, z. auto.
          -- intros row (x & y & z & H & _). exists x. exact H.
        * destruct o; cbn [is_eq is_ne]; intros E0; apply some_pair in E0 as [<- <-]; (eapply Hscal; [reflexivity| | |discriminate|]).
          all: try (apply means_in; assumption). all: try (apply means_not_in; assumption). all: try (apply means_any; assumption).
          all: try (intros row (x & H & _); exists x; exact H).
          all: intros row x Er; cbn [satisfied]; rewrite Er; (split; [intros (x' & [= <-] & H); exact H|intros H; exists x; split; [reflexivity|exact H]]).
  Qed.

  Notation all_hold := (all_hold cmp na sch).
  Lemma agg_effective (c : cond V) : agg_of c = true -> effective sch c.
  Proof using.
    rewrite agg_of_spec. destruct c as [[f op] v]. cbn [array_order effective]. intros (H1 & H2 & H3 & o & H4 & H5). unfold amem. rewrite H1. split; [reflexivity|]. split; [|exact H3].
    exists o. split; [exact H4|]. intros H; contradiction.
  Qed.
  Lemma conditions_pieces (cs : list (cond V)) : exists l : list piece,
    process_conditions sch cs = (map pc_text l, flat_map pc_params l) /\ Forall (piece_ok cmp na sch 2) l
    /\ existsb pc_agg l = existsb agg_of cs /\ (forall row, (forall x, In x l -> pc_mean x row) <-> all_hold row cs)
    /\ (l <> [] <-> some_effective sch cs).
  Proof using cmp_eq na_ok.
    induction cs as [|c cs (l & E & Hl & Ha & Hm & Hs)].
    { exists []. split; [reflexivity|]. split; [constructor|]. split; [reflexivity|]. split.
      - intros row. split; [intros _ c []|intros _ x []].
      - split; [intros H; contradiction H; reflexivity|intros (c & [] & _)]. }
    cbn [process_conditions]. rewrite E. destruct (process_condition sch c) as [[t p]|] eqn:Ec.
    - exists (mkPiece t p (agg_of c) (fun row => cond_holds row c) :: l).
      assert (He : effective sch c). { destruct c as [[f op] v]. destruct (process_none (f, op, v)) as [_ H]. 
        assert (D : effective sch (f, op, v) \/ ~ effective sch (f, op, v)).
        { unfold effective, amem. rewrite <- op_map_spec. destruct (aget str_eqb f sch); [|right; intros [X _]; discriminate].
          destruct (op_map op) as [o|]; [|right; intros (_ & (o & X & _) & _); discriminate].
          destruct v as [|v|[|v0 l0]].
          - destruct o; try (left; split; [reflexivity|]; split; [eexists; split; [reflexivity|]; intros; tauto|discriminate]); right; intros (_ & (o & [= <-] & X) & _); destruct (X eq_refl); discriminate.
          - left. split; [reflexivity|]. split; [exists o; split; [reflexivity|discriminate]|discriminate].
          - right. intros (_ & _ & X). contradiction.
          - left. split; [reflexivity|]. split; [exists o; split; [reflexivity|discriminate]|discriminate]. }
        destruct D as [D|D]; [exact D|]. rewrite H in Ec by exact D. discriminate. }
      split; [reflexivity|]. split; [constructor; [apply means_condition, Ec|exact Hl]|]. split; [cbn; rewrite Ha; reflexivity|]. split.
      + intros row. split.
        * intros H c' [<-|Hc] Hc'; [apply (H _ (or_introl eq_refl))|]. apply (proj1 (Hm row)); [|exact Hc|exact Hc']. intros x Hx. apply H. right. exact Hx.
        * intros H x [<-|Hx]; [apply H; [left; reflexivity|exact He]|]. apply (proj2 (Hm row)); [|exact Hx]. intros c' Hc Hc'. apply H; [right; exact Hc|exact Hc'].
      + split; [intros _; exists c; split; [left; reflexivity|exact He]|discriminate].
    - assert (He : ~ effective sch c) by (apply process_none, Ec). exists l. split; [reflexivity|]. split; [exact Hl|]. split; [|split].
      + cbn. destruct (agg_of c) eqn:Ea; [apply agg_effective in Ea; contradiction|exact Ha].
      + intros row. rewrite Hm. split; intros H c' Hc Hc'.
        * destruct Hc as [<-|Hc]; [contradiction|]. apply H; assumption.
        * apply H; [right; exact Hc|exact Hc'].
      + rewrite Hs. split; [intros (c' & Hc & Hc'); exists c'; split; [right; exact Hc|exact Hc']|]. intros (c' & [<-|Hc] & Hc'); [contradiction|exists c'; auto].
  Qed.

  (** one select without children *)
  Lemma leaf_piece (cs : list (cond V)) :
    (generate_conditions sch (Select cs []) = ([], []) /\ ~ some_effective sch cs /\ existsb agg_of cs = false)
    \/ (exists t p, generate_conditions sch (Select cs []) = (t, p) /\ t <> [] /\ some_effective sch cs
        /\ Means 2 t p (existsb agg_of cs) (fun row => all_hold row cs)).
  Proof using cmp_eq na_ok.
    destruct (conditions_pieces cs) as (l & E & Hl & Ha & Hm & Hs). cbn [generate_conditions]. rewrite E. destruct l as [|x l].
    - left. cbn. split; [reflexivity|]. split; [rewrite <- Hs; intros H; contradiction|rewrite <- Ha; reflexivity].
    - right. cbn [map fst snd]. cbn [app join]. rewrite app_nil_r. eexists _, _. split; [reflexivity|]. split; [discriminate|]. split; [apply Hs; discriminate|].
      rewrite <- Ha. apply means_paren. change (pc_text x :: map pc_text l) with (map pc_text (x :: l)).
      eapply means_iff; [|apply means_up0, (means_join_and cmp na sch (x :: l)); [discriminate|exact Hl]]. intros row _ _. apply Hm.
  Qed.

  Lemma query_of_cons cs rest : query_of (V:=V) (cs :: rest) = Some (Select cs (map (fun c => Select c []) rest)).
  Proof using.
    unfold query_of. cbn [fold_left plan_add].
    assert (H : forall rest ch, fold_left (fun root cs => plan_add root (Select cs [])) rest (Some (Select cs ch)) = Some (Select cs (ch ++ map (fun c => Select (V:=V) c []) rest))).
    { clear. intros rest. induction rest as [|c rest IH]; intros ch; cbn; [rewrite app_nil_r; reflexivity|]. rewrite IH, <- app_assoc. reflexivity. }
    apply H.
  Qed.

  (** the children of the root *)
  Definition children_clauses : list (select V) -> list (list tok) * list (option V) :=
    fix go (l : list (select V)) : list (list tok) * list (option V) :=
      match l with
      | [] => ([], [])
      | c :: l' =>
          let '(clauses, params) := go l' in
          match generate_conditions sch c with
          | ([], _) => (clauses, params)
          | (t, p) => ((TLP :: t ++ [TRP]) :: clauses, p ++ params)
          end
      end.
  Lemma children_pieces (rest : list (list (cond V))) : exists l : list piece,
    children_clauses (map (fun c => Select c []) rest) = (map pc_text l, flat_map pc_params l) /\ Forall (piece_ok cmp na sch 2) l
    /\ existsb pc_agg l = existsb (existsb agg_of) rest
    /\ (forall row, (exists x, In x l /\ pc_mean x row) <-> exists cs, In cs rest /\ some_effective sch cs /\ all_hold row cs)
    /\ (l <> [] <-> exists cs, In cs rest /\ some_effective sch cs).
  Proof using cmp_eq na_ok.
    induction rest as [|cs rest (l & E & Hl & Ha & Hm & Hs)].
    { exists []. split; [reflexivity|]. split; [constructor|]. split; [reflexivity|]. split.
      - intros row. split; [intros (x & [] & _)|intros (x & [] & _)].
      - split; [intros H; contradiction H; reflexivity|intros (c & [] & _)]. }
    cbn [map children_clauses]. fold children_clauses. rewrite E. destruct (leaf_piece cs) as [(El & Hn & Hg)|(t & p & El & Ht & Hn & HM)].
    - rewrite El. exists l. split; [reflexivity|]. split; [exact Hl|]. split; [cbn; rewrite Hg; exact Ha|]. split.
      + intros row. rewrite Hm. split; intros (c & Hc & H1 & H2).
        * exists c. split; [right; exact Hc|]. auto.
        * destruct Hc as [<-|Hc]; [contradiction|]. exists c. auto.
      + rewrite Hs. split; intros (c & Hc & H1).
        * exists c. split; [right; exact Hc|exact H1].
        * destruct Hc as [<-|Hc]; [contradiction|]. exists c. auto.
    - rewrite El. destruct t as [|t0 t]; [contradiction|].
      exists (mkPiece (TLP :: (t0 :: t) ++ [TRP]) p (existsb agg_of cs) (fun row => all_hold row cs) :: l).
      split; [reflexivity|]. split; [constructor; [apply means_paren, means_up0, means_up1, HM|exact Hl]|]. split; [cbn; rewrite Ha; reflexivity|]. split.
      + intros row. split.
        * intros (x & [<-|Hx] & Hr); [exists cs; split; [left; reflexivity|]; split; [exact Hn|exact Hr]|].
          destruct (proj1 (Hm row) (ex_intro _ x (conj Hx Hr))) as (c & Hc & H1). exists c. split; [right; exact Hc|exact H1].
        * intros (c & [<-|Hc] & H1 & H2); [eexists; split; [left; reflexivity|]; exact H2|].
          destruct (proj2 (Hm row) (ex_intro _ c (conj Hc (conj H1 H2)))) as (x & Hx & Hr). exists x. split; [right; exact Hx|exact Hr].
      + split; [intros _; exists cs; split; [left; reflexivity|exact Hn]|discriminate].
  Qed.

  Lemma generate_root cs children : generate_conditions sch (Select cs children) =
    let own := match process_conditions sch cs with ([], _) => ([], []) | (clauses, params) => ([TLP :: join TAnd clauses ++ [TRP]], params) end in
    (join TOr (fst own ++ fst (children_clauses children)), snd own ++ snd (children_clauses children)).
  Proof using. reflexivity. Qed.

  Lemma join_app_ne sep (l : list (list tok)) : l <> [] -> Forall (fun t => t <> []) l -> join sep l <> [].
  Proof using. destruct l as [|x [|y l]]; intros H F; [contradiction|inversion F; assumption|]. rewrite join_cons. destruct x; discriminate. Qed.

  Definition query_sel (sels : list (list (cond V))) (row : str -> option (cell V)) : Prop :=
    exists cs, In cs sels /\ some_effective sch cs /\ all_hold row cs.
  Lemma query_text (sels : list (list (cond V))) root : query_of sels = Some root ->
    (generate_conditions sch root = ([], []) /\ (forall cs, In cs sels -> ~ some_effective sch cs))
    \/ (exists t p, generate_conditions sch root = (t, p) /\ t <> [] /\ (exists cs, In cs sels /\ some_effective sch cs)
        /\ Means 0 t p (existsb (existsb agg_of) sels) (query_sel sels)).
  Proof using cmp_eq na_ok.
    destruct sels as [|cs rest]; [discriminate|]. rewrite query_of_cons. intros [= <-]. rewrite generate_root. cbv zeta.
    destruct (conditions_pieces cs) as (l & E & Hl & Ha & Hm & Hs). destruct (children_pieces rest) as (lc & Ec & Hlc & Hac & Hmc & Hsc).
    rewrite E, Ec. cbn [fst snd].
    destruct l as [|x l].
    - cbn [map flat_map fst snd app]. cbn [existsb] in *. rewrite <- Ha. cbn [orb]. destruct lc as [|y lc].
      + left. split; [reflexivity|]. intros c [<-|Hc] H; [apply Hs in H; contradiction|].
        assert (X : [] <> @nil (@piece V)) by (apply Hsc; exists c; auto). contradiction.
      + right. eexists _, _. split; [reflexivity|]. split; [|split].
        * apply join_app_ne; [discriminate|]. apply Forall_forall. intros t Ht. apply in_map_iff in Ht as (z & <- & Hz). rewrite Forall_forall in Hlc. specialize (Hlc z Hz).
          destruct (Hlc 0%nat) as (e & He & _). intros Et. rewrite Et in He. specialize (He 4%nat [] ltac:(cbn; lia) I). discriminate.
        * destruct (proj1 Hsc ltac:(discriminate)) as (c & Hc & Hc'). exists c. split; [right; exact Hc|exact Hc'].
        * rewrite <- Hac. eapply means_iff; [|apply means_join_or; [discriminate|]].
          -- intros row _ _. cbv beta. rewrite Hmc. unfold query_sel. split; intros (c & Hc & H1 & H2).
             ++ exists c. split; [right; exact Hc|auto].
             ++ destruct Hc as [<-|Hc]; [apply Hs in H1; contradiction|exists c; auto].
          -- eapply Forall_impl; [|exact Hlc]. intros z Hz. apply means_up1, Hz.
    - right. assert (Hse : some_effective sch cs) by (apply Hs; discriminate). cbn [map fst snd app].
      set (own := mkPiece (TLP :: join TAnd (map pc_text (x :: l)) ++ [TRP]) (flat_map pc_params (x :: l)) (existsb pc_agg (x :: l)) (fun row => all_hold row cs)).
      assert (Hown : piece_ok cmp na sch 2 own).
      { apply means_paren. eapply means_iff; [|apply means_up0, (means_join_and cmp na sch (x :: l)); [discriminate|exact Hl]]. intros row _ _. apply Hm. }
      change ((TLP :: join TAnd (pc_text x :: map pc_text l) ++ [TRP]) :: map pc_text lc) with (map pc_text (own :: lc)).
      change (flat_map pc_params (x :: l) ++ flat_map pc_params lc) with (flat_map pc_params (own :: lc)).
      eexists _, _. split; [reflexivity|]. split; [|split].
      + cbn [map]. destruct (map pc_text lc); discriminate.
      + exists cs. split; [left; reflexivity|exact Hse].
      + cbn [existsb]. rewrite <- Ha, <- Hac. change (existsb pc_agg (x :: l) || existsb pc_agg lc)%bool with (existsb pc_agg (own :: lc)).
        eapply means_iff; [|apply means_join_or; [discriminate|]].
        * intros row _ _. cbv beta. unfold query_sel. split.
          -- intros (z & [<-|Hz] & Hr); [exists cs; split; [left; reflexivity|auto]|].
             destruct (proj1 (Hmc row) (ex_intro _ z (conj Hz Hr))) as (c & Hc & H1). exists c. split; [right; exact Hc|exact H1].
          -- intros (c & [<-|Hc] & H1 & H2); [exists own; split; [left; reflexivity|exact H2]|].
             destruct (proj2 (Hmc row) (ex_intro _ c (conj Hc (conj H1 H2)))) as (z & Hz & Hr). exists z. split; [right; exact Hz|exact Hr].
        * constructor; [apply means_up1, Hown|]. eapply Forall_impl; [|exact Hlc]. intros z Hz. apply means_up1, Hz.
  Qed.

  Lemma run_text t p g P rows : t <> [] -> Means 0 t p g P -> Forall (typed sch) rows ->
    (g = true -> run_where cmp na t p rows = None) /\ (g = false -> exists res, run_where cmp na t p rows = Some res /\ selects P rows res).
  Proof using.
    intros Ht HM HT. destruct (HM 0%nat) as (e & He & Hg & Hv).
    assert (Ep := He (3 * length t + 3)%nat [] ltac:(lia) I). rewrite app_nil_r in Ep. cbn [Nat.add] in Ep.
    unfold run_where. destruct t as [|t0 t]; [contradiction|]. rewrite Ep, Hg, Nat.eqb_refl. cbn [negb]. rewrite orb_false_r. split; intros ->; [reflexivity|].
    clear Ep He HM. induction HT as [|row rows Hr HT (res & IH & IHs)]; [exists []; split; [reflexivity|constructor]|].
    cbn [fold_right]. rewrite IH. destruct (Hv p row eq_refl) as (r & Er & Hr'); [exists [], []; rewrite app_nil_r; auto|exact Hr|].
    rewrite Er. destruct r as [[]|].
    - exists (row :: res). split; [reflexivity|]. constructor; [apply Hr'; reflexivity|exact IHs].
    - exists res. split; [reflexivity|]. apply sel_out; [|exact IHs]. intros H. apply Hr' in H. discriminate.
    - exists res. split; [reflexivity|]. apply sel_out; [|exact IHs]. intros H. apply Hr' in H. discriminate.
  Qed.
  Lemma agg_exists (sels : list (list (cond V))) : existsb (existsb agg_of) sels = true <-> exists cs c, In cs sels /\ In c cs /\ array_order sch c.
  Proof using.
    rewrite existsb_exists. split.
    - intros (cs & H & Hc). apply existsb_exists in Hc as (c & Hc & Ha). apply agg_of_spec in Ha. exists cs, c. auto.
    - intros (cs & c & H1 & H2 & H3). exists cs. split; [exact H1|]. apply existsb_exists. exists c. split; [exact H2|]. apply agg_of_spec, H3.
  Qed.
End Query.
