(** C30: queries select exactly the matching samples. *)
From Verif Require Import Base MixtureKeyModel MixtureKeyProofs SqlModel SpecSql SqlProofs SqlProofs2.
Open Scope Z_scope.

Section Props.
  Context {V : Type}.
  Variable cmp : V -> V -> comparison.
  Variable na : option bool.
  Hypothesis cmp_eq : forall a b, cmp a b = Eq <-> a = b.
  Hypothesis na_ok : na <> Some true.

  (** The exact meaning of every chain of selects without order comparisons on array columns: a row is selected iff it
      satisfies all conditions of a select that has an effective condition, or no select has one. *)
  Theorem C30_exact (sch : schema) (sels : list (list (cond V))) (rows : list (str -> option (cell V))) :
    sels <> [] -> Forall (typed sch) rows -> (forall cs c, In cs sels -> In c cs -> ~ array_order sch c) ->
    exists res, run_query cmp na sch (query_of sels) rows = Some res
      /\ selects (fun row => (exists cs, In cs sels /\ some_effective sch cs /\ all_hold cmp na sch row cs)
                             \/ (forall cs, In cs sels -> ~ some_effective sch cs)) rows res.
  Proof using cmp_eq na_ok.
    intros Hne HT Ho. destruct (query_of sels) as [root|] eqn:Eq; [|destruct sels as [|cs rest]; [contradiction|rewrite query_of_cons in Eq; discriminate]].
    unfold run_query. destruct (query_text cmp na cmp_eq na_ok sch sels root Eq) as [(E & Hn)|(t & p & E & Ht & He & HM)]; rewrite E.
    - exists rows. split; [reflexivity|]. clear E. induction rows as [|r rows IH]; [constructor|]. inversion HT; subst. constructor; [right; exact Hn|apply IH; assumption].
    - destruct (run_text cmp na sch t p _ _ rows Ht HM HT) as [_ H]. destruct H as (res & E1 & E2).
      { destruct (existsb (existsb (agg_of sch)) sels) eqn:Ea; [|reflexivity]. apply agg_exists in Ea as (cs & c & H1 & H2 & H3). exfalso. exact (Ho cs c H1 H2 H3). }
      exists res. split; [exact E1|]. destruct He as (cs0 & Hc0 & He0). clear - E2 Hc0 He0.
      induction E2 as [|x l r Hx H IH|x l r Hx H IH]; [constructor|constructor; [left; exact Hx|exact IH]|].
      apply sel_out; [|exact IH]. intros [H0|H0]; [exact (Hx H0)|exact (H0 cs0 Hc0 He0)].
  Qed.

  (** The property as documented holds if every select of the chain has an effective condition, or none has. *)
  Theorem C30_matching_partial (sch : schema) (sels : list (list (cond V))) (rows : list (str -> option (cell V))) :
    sels <> [] -> Forall (typed sch) rows -> (forall cs c, In cs sels -> In c cs -> ~ array_order sch c) ->
    (forall cs, In cs sels -> some_effective sch cs) \/ (forall cs, In cs sels -> ~ some_effective sch cs) ->
    exists res, run_query cmp na sch (query_of sels) rows = Some res
      /\ selects (fun row => exists cs, In cs sels /\ all_hold cmp na sch row cs) rows res.
  Proof using cmp_eq na_ok.
    intros Hne HT Ho Hor. destruct (C30_exact sch sels rows Hne HT Ho) as (res & E & Hs). exists res. split; [exact E|]. clear E HT.
    assert (Q : forall row, ((exists cs, In cs sels /\ some_effective sch cs /\ all_hold cmp na sch row cs) \/ (forall cs, In cs sels -> ~ some_effective sch cs))
                <-> exists cs, In cs sels /\ all_hold cmp na sch row cs).
    { intros row. destruct Hor as [H|H].
      - split; [intros [(cs & Hc & _ & Ha)|Hn]; [exists cs; auto|]|intros (cs & Hc & Ha); left; exists cs; auto].
        destruct sels as [|cs rest]; [contradiction|]. exfalso. exact (Hn cs (or_introl eq_refl) (H cs (or_introl eq_refl))).
      - split; [|intros _; right; exact H]. intros _. destruct sels as [|cs rest]; [contradiction|]. exists cs. split; [left; reflexivity|].
        intros c Hc He. exfalso. apply (H cs (or_introl eq_refl)). exists c. auto. }
    induction Hs as [|x l r Hx H IH|x l r Hx H IH]; [constructor|constructor; [apply Q, Hx|exact IH]|]. apply sel_out; [rewrite <- Q; exact Hx|exact IH].
  Qed.

  (** An order comparison on an array column anywhere in the chain: the query raises. *)
  Theorem C30_array_order_raises (sch : schema) (sels : list (list (cond V))) (rows : list (str -> option (cell V))) cs c :
    Forall (typed sch) rows -> In cs sels -> In c cs -> array_order sch c -> run_query cmp na sch (query_of sels) rows = None.
  Proof using cmp_eq na_ok.
    intros HT Hcs Hc Ho. destruct (query_of sels) as [root|] eqn:Eq; [|reflexivity]. unfold run_query.
    destruct (query_text cmp na cmp_eq na_ok sch sels root Eq) as [(E & Hn)|(t & p & E & Ht & He & HM)]; rewrite E.
    - exfalso. apply (Hn cs Hcs). exists c. split; [exact Hc|]. apply agg_effective. apply agg_of_spec, Ho.
    - apply (run_text cmp na sch t p _ _ rows Ht HM HT). apply agg_exists. exists cs, c. auto.
  Qed.
End Props.

(** There are as many placeholders as parameters, whatever the tree of selects is. *)
Definition is_q (t : tok) : bool := match t with TQ => true | _ => false end.
Definition count_q (t : list tok) : nat := length (filter is_q t).
Lemma count_q_app a b : count_q (a ++ b) = (count_q a + count_q b)%nat.
Proof. unfold count_q. rewrite filter_app, app_length. reflexivity. Qed.
Lemma count_q_join sep l : is_q sep = false -> count_q (join sep l) = list_sum (map count_q l).
Proof.
  intros Hs. induction l as [|x [|y l] IH]; [reflexivity|cbn [join map]; unfold list_sum; cbn [fold_right]; lia|]. rewrite join_cons, count_q_app. cbn [map list_sum fold_right] in *.
  replace (count_q (sep :: join sep (y :: l))) with (count_q (join sep (y :: l))) by (unfold count_q; cbn [filter]; rewrite Hs; reflexivity). rewrite IH. reflexivity.
Qed.
Lemma count_q_placeholders {A} (l : list A) : count_q (placeholders l) = length l.
Proof. unfold placeholders. rewrite count_q_join by reflexivity. induction l as [|x l IH]; [reflexivity|]. cbn [map length]. unfold list_sum in *. cbn [fold_right]. rewrite IH. reflexivity. Qed.
Lemma count_q_condition {V} sch (c : cond V) t p : process_condition sch c = Some (t, p) -> count_q t = length p.
Proof.
  destruct c as [[f op] v]. unfold process_condition. destruct (aget str_eqb f sch) as [a|]; [|discriminate]. destruct (op_map op) as [o|]; [|discriminate].
  assert (C : forall x (y : list tok), count_q (x :: y) = ((if is_q x then 1 else 0) + count_q y)%nat) by (intros x y; unfold count_q; cbn [filter]; destruct (is_q x); reflexivity).
  destruct v as [|v|l].
  - destruct (is_eq o); [|destruct (is_ne o); [|discriminate]]; intros [= <- <-]; reflexivity.
  - destruct a, (is_eq o), (is_ne o); intros [= <- <-]; reflexivity.
  - destruct a; destruct l as [|v0 l]; try discriminate.
    + destruct (is_eq o); [|destruct (is_ne o)]; intros E; apply some_pair in E as [<- <-]; rewrite ?C, ?count_q_app, ?count_q_placeholders; cbn; lia.
    + destruct l as [|v1 l]; [intros [= <- <-]; reflexivity|].
      destruct (is_eq o); [|destruct (is_ne o)]; intros E; apply some_pair in E as [<- <-]; rewrite ?C, ?count_q_app, ?count_q_placeholders; [cbn; lia|cbn; lia|].
      rewrite count_q_join by reflexivity. rewrite map_map. cbn [is_q]. change (count_q [TRP]) with 0%nat. rewrite Nat.add_0_r. cbn [Nat.add].
      generalize (v0 :: v1 :: l). intros m. induction m as [|z m IH]; [reflexivity|]. cbn [map length]. unfold list_sum in *. cbn [fold_right]. rewrite IH. reflexivity.
Qed.
Lemma count_q_conditions {V} sch (cs : list (cond V)) : list_sum (map count_q (fst (process_conditions sch cs))) = length (snd (process_conditions sch cs)).
Proof.
  induction cs as [|c cs IH]; [reflexivity|]. cbn [process_conditions]. destruct (process_conditions sch cs) as [cl ps]. destruct (process_condition sch c) as [[t p]|] eqn:E; [|exact IH].
  cbn [fst snd map list_sum fold_right] in *. rewrite app_length, <- IH, (count_q_condition _ _ _ _ E). reflexivity.
Qed.
Theorem C30_parameters {V} sch (s : select V) : count_q (fst (generate_conditions sch s)) = length (snd (generate_conditions sch s)).
Proof.
  revert s. fix IH 1. intros [cs children]. rewrite generate_root. cbv zeta. cbn [fst snd]. rewrite count_q_join by reflexivity. rewrite map_app.
  assert (S : forall a b, list_sum (a ++ b) = (list_sum a + list_sum b)%nat) by (intros a b; unfold list_sum; induction a as [|x a IHa]; cbn; lia).
  rewrite S, app_length. f_equal.
  - assert (Q := count_q_conditions sch cs). destruct (process_conditions sch cs) as [[|t cl] ps]; cbn [fst snd] in *; [reflexivity|]. cbn [map list_sum fold_right].
    change (count_q (TLP :: join TAnd (t :: cl) ++ [TRP])) with (count_q (join TAnd (t :: cl) ++ [TRP])). rewrite count_q_app, count_q_join by reflexivity.
    change (count_q [TRP]) with 0%nat. rewrite <- Q. unfold list_sum. lia.
  - clear cs. induction children as [|c children IHc]; [reflexivity|]. cbn [children_clauses]. fold (@children_clauses V sch). destruct (children_clauses sch children) as [cl ps]. cbn [fst snd] in *.
    specialize (IH c). destruct (generate_conditions sch c) as [[|t0 t] p]; cbn [fst snd] in *; [exact IHc|]. cbn [map list_sum fold_right]. rewrite app_length.
    change (count_q (TLP :: (t0 :: t) ++ [TRP])) with (count_q ((t0 :: t) ++ [TRP])). rewrite count_q_app, IH. change (count_q [TRP]) with 0%nat. unfold list_sum in IHc. lia.
Qed.

(** ** Where the property fails *)
Definition lang : str := [108]. Definition lic : str := [99]. Definition EQ : str := [61; 61]. Definition NE : str := [33; 61]. Definition GT : str := [62].
Definition sch_ex : schema := [(lang, false); (lic, true)].
Definition row_ex (l : option Z) (c : option (list (option Z))) (f : str) : option (cell Z) :=
  if str_eqb f lang then Some (CScalar l) else if str_eqb f lic then Some (CArray c) else None.
(** select(None).select(("lang", "==", 1)): the first select matches every sample, but only lang == 1 is returned. *)
Theorem C30_unconditional_refuted : exists (sels : list (list (cond Z))) rows row,
  Forall (typed sch_ex) rows /\ In row rows /\ (exists cs, In cs sels /\ all_hold Z.compare None sch_ex row cs)
  /\ (exists res, run_query Z.compare None sch_ex (query_of sels) rows = Some res /\ ~ In row res).
Proof.
  exists [[]; [(lang, EQ, PScalar 1)]], [row_ex (Some 2) None], (row_ex (Some 2) None). split; [|split; [left; reflexivity|split]].
  - constructor; [|constructor]. intros f. unfold sch_ex, row_ex. cbn [aget]. destruct (str_eqb f lang); [eexists; reflexivity|]. destruct (str_eqb f lic); [eexists; reflexivity|exact I].
  - exists []. split; [left; reflexivity|]. intros c [].
  - exists []. split; [vm_compute; reflexivity|intros []].
Qed.
(** A condition on a column that does not exist (a misspelt name) is dropped: everything is selected. *)
Theorem C30_skipped_selects_all {V} (cmp : V -> V -> comparison) na sch f op v rows : aget str_eqb f sch = None ->
  run_query cmp na sch (query_of [[(f, op, v)]]) rows = Some rows.
Proof. intros E. cbn. rewrite E. reflexivity. Qed.

(** ** The hypotheses are met *)
Definition sels_ex : list (list (cond Z)) := [[(lang, EQ, PList [Some 1; Some 2]); (lic, NE, PScalar 7)]; [(lang, GT, PScalar 5)]; [(lang, EQ, PNone)]].
Definition rows_ex := [row_ex (Some 1) (Some [Some 3]); row_ex (Some 1) (Some [Some 7]); row_ex (Some 6) (Some [Some 7]); row_ex None None; row_ex (Some 2) None].
Example C30_ex_hyp : Forall (typed sch_ex) rows_ex /\ (forall cs c, In cs sels_ex -> In c cs -> ~ array_order sch_ex c) /\ (forall cs, In cs sels_ex -> some_effective sch_ex cs).
Proof.
  assert (T : forall l c, typed sch_ex (row_ex l c)).
  { intros l c f. unfold sch_ex, row_ex. cbn [aget]. destruct (str_eqb f lang); [eexists; reflexivity|]. destruct (str_eqb f lic); [eexists; reflexivity|exact I]. }
  split; [repeat constructor; apply T|]. split.
  - intros cs c Hcs Hc Ho. apply agg_of_spec in Ho. cbn in Hcs. destruct Hcs as [<-|[<-|[<-|[]]]]; cbn in Hc.
    + destruct Hc as [<-|[<-|[]]]; vm_compute in Ho; discriminate.
    + destruct Hc as [<-|[]]; vm_compute in Ho; discriminate.
    + destruct Hc as [<-|[]]; vm_compute in Ho; discriminate.
  - intros cs Hcs. destruct Hcs as [<-|[<-|[<-|[]]]].
    + exists (lang, EQ, PList [Some 1; Some 2]). split; [left; reflexivity|]. split; [reflexivity|]. split; [exists OEq; split; [reflexivity|discriminate]|discriminate].
    + exists (lang, GT, PScalar 5). split; [left; reflexivity|]. split; [reflexivity|]. split; [exists OGt; split; [reflexivity|discriminate]|discriminate].
    + exists (lang, EQ, PNone). split; [left; reflexivity|]. split; [reflexivity|]. split; [exists OEq; split; [reflexivity|intros; left; reflexivity]|discriminate].
Qed.
Example C30_ex_run : run_query Z.compare None sch_ex (query_of sels_ex) rows_ex = Some [row_ex (Some 1) (Some [Some 3]); row_ex (Some 6) (Some [Some 7]); row_ex None None].
Proof. vm_compute. reflexivity. Qed.
Example C30_ex_run_false : run_query Z.compare (Some false) sch_ex (query_of sels_ex) rows_ex
  = Some [row_ex (Some 1) (Some [Some 3]); row_ex (Some 6) (Some [Some 7]); row_ex None None; row_ex (Some 2) None].
Proof. vm_compute. reflexivity. Qed.
Example C30_ex_order : array_order sch_ex (lic, GT, PScalar 5).
Proof. repeat split; try discriminate. exists OGt. repeat split; discriminate. Qed.

Print Assumptions C30_exact.
Print Assumptions C30_matching_partial.
Print Assumptions C30_array_order_raises.
Print Assumptions C30_parameters.
Print Assumptions C30_unconditional_refuted.
Print Assumptions C30_skipped_selects_all.
