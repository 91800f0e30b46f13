(** C95: a registration that failed or was interrupted can be undone by removing the dataset, and made again.
    Model: MdcModel.v (144-202, 410-441); [consistent], [new_files]: SpecMdc.v. *)
From Coq Require Import String.
From Verif Require Import Base MixtureKeyModel ChunkGenModel ParserModel MdcModel SpecMdc MdcProofs PropertiesMdc.
Open Scope Z_scope.

(** Any number of attempts to remove [name], each of which may end at any point by a crash (or run through). *)
Inductive removals (name : str) : db -> db -> Prop :=
| RNone t : removals name t t
| RMore t tr o u v : remove t name = (tr, o) -> In u (t :: tr) -> removals name u v -> removals name t v.

(** A state on the way back to [s]: the entry of the dataset is still there, with some of its files and samples; or nothing is left of it. *)
Definition half (s : db) (did : Z) (name : str) (info : dinfo) (u : db) : Prop :=
  consistent u /\ version s <= version u /\
  (datasets u = datasets s ++ [(did, (name, info))] /\ filter (fun f => negb (fst (snd f) =? did)) (files u) = files s /\
     filter (fun r => negb (fst (fst (fst r)) =? did)) (samples u) = samples s
   \/ datasets u = datasets s /\ files u = files s /\ samples u = samples s).

Lemma filter_none {A} (p : A -> bool) l : (forall x, In x l -> p x = false) -> filter p l = [].
Proof. induction l as [|x l IH]; intros H; [reflexivity|]. cbn. rewrite (H x (or_introl eq_refl)). apply IH. intros y I. apply H. now right. Qed.
Lemma filter_all {A} (p : A -> bool) l : (forall x, In x l -> p x = true) -> filter p l = l.
Proof. induction l as [|x l IH]; intros H; [reflexivity|]. cbn. rewrite (H x (or_introl eq_refl)). f_equal. apply IH. intros y I. apply H. now right. Qed.
Lemma filter_twice {A} (p : A -> bool) l : filter p (filter p l) = filter p l.
Proof. apply filter_all. intros x I. apply filter_In in I. tauto. Qed.

Lemma grown_half s name info u : consistent s -> consistent u -> version s <= version u -> grown s (next_dataset s) (name, info) u ->
  half s (next_dataset s) name info u.
Proof.
  intros C Cu V (G1 & (fs & G2) & (ss & G3 & G4)). split; [exact Cu|]. split; [exact V|]. left.
  destruct C as (_ & _ & _ & _ & C5 & C6 & C7). split; [exact G1|]. split.
  - rewrite G2, filter_app. rewrite (filter_all _ (files s)), (filter_none _ (map _ fs)), app_nil_r; [reflexivity| |].
    + intros x I. apply in_map_iff in I as (r & <- & _). cbn. rewrite Z.eqb_refl. reflexivity.
    + intros [f [d l]] I. apply C5 in I as [I _]. apply C7 in I. cbn. lia.
  - rewrite G3, filter_app. rewrite (filter_all _ (samples s)), (filter_none _ ss), app_nil_r; [reflexivity| |].
    + intros x I. rewrite Forall_forall in G4. rewrite (G4 x I), Z.eqb_refl. reflexivity.
    + intros [[[d f] i] r] I. apply C6 in I as [l I]. apply C5 in I as [I _]. apply C7 in I. cbn. lia.
Qed.

(** What a removal does to such a state: every point it can end at is such a state, and if it runs through nothing is left. *)
Lemma remove_half s did name info u tr o : ~ In name (list_datasets s) -> ~ In did (map fst (datasets s)) -> half s did name info u ->
  remove u name = (tr, o) -> (forall v, In v (u :: tr) -> half s did name info v) /\
    (datasets (last_db u tr) = datasets s /\ files (last_db u tr) = files s /\ samples (last_db u tr) = samples s) /\
    o = Done (exists_dataset u name).
Proof.
  intros NI ND H R. assert (H0 := H). destruct H as (C & V & [(D & F & S)|(D & F & S)]).
  - assert (I : In (did, (name, info)) (datasets u)) by (rewrite D; apply in_or_app; right; now left).
    destruct (remove_trace u name did info C I) as (s1 & s2 & s3 & R' & E1 & E2 & E3). rewrite R' in R. injection R as <- <-.
    assert (DF : filter (fun d => negb (fst d =? did)) (datasets u) = datasets s).
    { rewrite D, filter_app. cbn [filter fst]. rewrite Z.eqb_refl. cbn [negb]. rewrite app_nil_r. apply filter_all.
      intros [d x] J. cbn. destruct (Z.eqb_spec d did) as [->|N]; [|reflexivity]. exfalso. apply ND. apply in_map_iff. exists (did, x). auto. }
    assert (EX : exists_dataset u name = true) by (apply exists_dataset_in; unfold list_datasets; apply in_map_iff; exists (did, (name, info)); auto).
    split; [|split; [|rewrite EX; reflexivity]].
    + intros v [<-|J]; [exact H0|].
      destruct (C35_remove_every_point u name _ _ v did info C I R' J) as (Cv & _ & Vv). split; [exact Cv|]. split; [lia|].
      destruct J as [<-|[<-|[<-|[<-|[]]]]].
      * left. subst s1. cbn [set_samples datasets files samples]. rewrite filter_twice. auto.
      * left. subst s2 s1. cbn [set_samples set_files datasets files samples]. rewrite !filter_twice. auto.
      * right. subst s3 s2 s1. cbn. auto.
      * right. subst s3 s2 s1. cbn. auto.
    + cbn [last_db last]. subst s3 s2 s1. cbn. auto.
  - assert (N : ~ In name (list_datasets u)) by (unfold list_datasets; rewrite D; exact NI).
    rewrite (C35_remove_missing u name N) in R. injection R as <- <-. split; [intros v [<-|[]]; exact H0|]. split; [cbn; auto|].
    destruct (exists_dataset u name) eqn:E; [|reflexivity]. exfalso. apply N, exists_dataset_in, E.
Qed.

Section C95.
  Context (castable : list str -> list mprop -> list sample -> bool) (metadata_of : str -> res (list (Z * record))).
  Notation register := (register castable metadata_of).

  Lemma register_half s name info vt found schema tr o t : consistent s -> register s name info vt found schema = (tr, o) -> In t tr ->
    ~ In name (list_datasets s) /\ half s (next_dataset s) name info t.
  Proof.
    intros C R I. split.
    - intros J. rewrite (C35_duplicate_refused castable metadata_of s name info vt found schema (or_introl J)) in R. injection R as <- _. destruct I.
    - assert (T := register_trace castable metadata_of _ _ _ _ _ _ _ _ C R). rewrite Forall_forall in T. destruct (T t I) as (T1 & T2 & T3 & _).
      apply grown_half; auto. lia.
  Qed.

  (** After a registration that stopped anywhere -- success, failure or crash -- and any number of removals that stopped anywhere, a removal
      that runs through leaves exactly the datasets, files and samples there were before; it reports whether the dataset was still listed.
      The version has not gone back. *)
  Theorem C95_undone s name info vt found schema tr o t u tr' o' : consistent s ->
    register s name info vt found schema = (tr, o) -> In t tr -> removals name t u -> remove u name = (tr', o') ->
    let v := last_db u tr' in
    datasets v = datasets s /\ files v = files s /\ samples v = samples s /\ consistent v /\ version s <= version v /\
    o' = Done (exists_dataset u name).
  Proof.
    intros C R I U Q v. destruct (register_half _ _ _ _ _ _ _ _ _ C R I) as [NI H].
    assert (ND : ~ In (next_dataset s) (map fst (datasets s))) by (intros J; apply C in J; lia).
    assert (G : half s (next_dataset s) name info u).
    { clear - U H NI ND. induction U as [t|t tr o u v R J U IH]; [exact H|]. apply IH. exact (proj1 (remove_half _ _ _ _ _ _ _ NI ND H R) u J). }
    destruct (remove_half _ _ _ _ _ _ _ NI ND G Q) as (A1 & (A2 & A3 & A4) & A5).
    assert (L : In v (u :: tr')).
    { subst v. clear. unfold last_db. destruct tr' as [|x tr']; [left; reflexivity|right]. revert x. induction tr' as [|y tr' IH]; intros x; [left; reflexivity|].
      right. apply IH. }
    destruct (A1 v L) as (B1 & B2 & _). auto 10.
  Qed.

  (** Then the dataset can be registered again, and the catalogue is the old one and this dataset: its entry, its files and one sample for
      each sample the parser finds.  Missing: the columns the first attempt added stay, so this is under the assumption that the database
      casts the values to the columns there are (C75 says when it does). *)
  Theorem C95_registered_again_partial s name info vt found schema tr o t u tr' o' info' locs props :
    (forall cols ps rows, castable cols ps rows = true) -> consistent s ->
    register s name info vt found schema = (tr, o) -> In t tr -> removals name t u -> remove u name = (tr', o') ->
    locs <> [] -> NoDup locs -> (forall p, In p props -> p_dtype p = DEnum -> p_options p <> NoOptions) ->
    (forall l, In l locs -> exists m, metadata_of l = Ok m /\ NoDup (map fst m)) ->
    exists tr2 metas, register (last_db u tr') name info' true (Ok locs) (Some props) = (tr2, Done true) /\
      map metadata_of locs = map Ok metas /\
      let v := last_db u tr' in let w := last_db v tr2 in
      datasets w = datasets s ++ [(next_dataset v, (name, info'))] /\
      files w = files s ++ map (fun f => (fst f, (next_dataset v, snd f))) (new_files v locs) /\
      samples w = samples s ++ flat_map (fun fm => map (fun m => ((next_dataset v, fst (fst fm), fst m), columns_of props (snd m))) (snd fm))
                                        (combine (new_files v locs) metas).
  Proof.
    intros HC C R I U Q NE NDl HP HM. destruct (C95_undone _ _ _ _ _ _ _ _ _ _ _ _ C R I U Q) as (D & F & S & Cv & _ & _).
    destruct (register_half _ _ _ _ _ _ _ _ _ C R I) as [NI _].
    assert (NI' : ~ In name (list_datasets (last_db u tr'))) by (unfold list_datasets; rewrite D; exact NI).
    assert (OK := C35_register_succeeds castable metadata_of _ name info' locs props Cv NI' NE NDl HP (fun cols rows => HC cols props rows) HM).
    destruct (register (last_db u tr') name info' true (Ok locs) (Some props)) as [tr2 o2] eqn:R2. cbn in OK. subst o2.
    destruct (C35_register castable metadata_of _ _ _ _ _ _ _ Cv R2) as (locs' & props' & metas & E1 & _ & E3 & _ & E5 & E6 & E7 & E8 & _).
    { intros l E. injection E as <-. exact NDl. }
    injection E1 as <-. injection E3 as <-. exists tr2, metas. split; [reflexivity|]. split; [exact E5|].
    cbv zeta. rewrite E6, E7, E8, D, F, S. auto.
  Qed.
End C95.
Print Assumptions C95_undone.
Print Assumptions C95_registered_again_partial.

(** The columns do not come back: after a failed registration and a removal that runs through, the samples table has a column more. *)
Theorem C95_columns_stay_refuted :
  let (t1, o1) := ex_reg init_db (lit "a") [lit "bad"] in let s1 := last_db init_db t1 in
  let (t2, o2) := remove s1 (lit "a") in let s2 := last_db s1 t2 in
  o1 = Raised /\ o2 = Done true /\ columns init_db = [] /\ columns s2 = [lit "language"] /\ samples s2 = [].
Proof. vm_compute. repeat split. Qed.
Print Assumptions C95_columns_stay_refuted.

(** Dataset b fails at its second file, the first removal crashes after its second statement, the second one runs through; dataset a is as
    before and b is registered again. *)
Example C95_example :
  let s := last_db init_db (fst (ex_reg init_db (lit "a") [lit "f1"; lit "f2"])) in
  let (tr, o) := ex_reg s (lit "b") [lit "f3"; lit "bad"] in let t := last_db s tr in
  let u := nth 1 (fst (remove t (lit "b"))) t in
  let (tr', o') := remove u (lit "b") in let v := last_db u tr' in
  consistent s /\ o = Raised /\ In t tr /\ removals (lit "b") t u /\ o' = Done true /\
  list_datasets t = [lit "a"; lit "b"] /\ length (files t) = 4%nat /\ length (files u) = 2%nat /\ list_datasets u = [lit "a"; lit "b"] /\
  samples v = samples s /\ snd (ex_reg v (lit "b") [lit "f3"]) = Done true.
Proof.
  cbv zeta. destruct (ex_reg (last_db init_db (fst (ex_reg init_db (lit "a") [lit "f1"; lit "f2"]))) (lit "b") [lit "f3"; lit "bad"]) as [tr o] eqn:R.
  assert (C : consistent (last_db init_db (fst (ex_reg init_db (lit "a") [lit "f1"; lit "f2"])))).
  { destruct (ex_reg init_db (lit "a") [lit "f1"; lit "f2"]) as [t1 o1] eqn:R1.
    apply (C35_register_every_point (fun _ _ _ => true) ex_meta init_db (lit "a") (ex_info (lit "a")) true (Ok [lit "f1"; lit "f2"]) (Some ex_props) t1 o1); [|exact R1|].
    - apply (C35_always_consistent (fun _ _ _ => true) ex_meta). constructor.
    - vm_compute in R1. injection R1 as <- _. vm_compute. tauto. }
  vm_compute in R. injection R as <- <-. split; [exact C|]. clear C.
  split; [reflexivity|]. split; [vm_compute; tauto|]. split; [|vm_compute; repeat split].
  eapply RMore; [apply surjective_pairing| |apply RNone]. vm_compute. tauto.
Qed.
