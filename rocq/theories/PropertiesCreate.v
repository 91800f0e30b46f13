(** C94: a directory survives crashes, also during its creation.  Model: CreateModel.v; [history], [consistent]: PropertiesMdc.v, SpecMdc.v. *)
From Verif Require Import Base MixtureKeyModel ChunkGenModel ParserModel MdcModel SpecMdc PropertiesMdc CreateModel.
Open Scope Z_scope.

(** The opening is not interrupted in the middle of the creation. *)
Definition whole (ev : event) : Prop :=
  match ev with EOpen (Some (S n)) => (8 <= n)%nat | _ => True end.

Section C94.
  Context (castable : list str -> list mprop -> list sample -> bool) (metadata_of : str -> res (list (Z * record))).
  Notation runs := (runs castable metadata_of).
  Notation step := (step castable metadata_of).
  Notation history := (history castable metadata_of).

  (** The catalogue a directory holds: that of a new database if there is no file yet. *)
  Definition catalogue (w : world) : db := match w_disk w with Some k => k_db k | None => init_db end.
  Definition complete (w : world) : Prop := match w_disk w with Some k => k_done k = creation | None => w_up w = false end.

  Lemma last_in (s : db) tr : In (last_db s tr) (s :: tr).
  Proof.
    unfold last_db. destruct tr as [|x tr]; [left; reflexivity|right]. revert x. induction tr as [|y tr IH]; intros x; [left; reflexivity|].
    right. apply IH.
  Qed.
  Lemma last_firstn (s : db) n tr : In (last_db s (firstn n tr)) (s :: tr).
  Proof.
    destruct (last_in s (firstn n tr)) as [H|H]; [left; exact H|right]. rewrite <- (firstn_skipn n tr) at 2. apply in_or_app. left. exact H.
  Qed.

  Lemma step_complete w ev w1 a : whole ev -> complete w -> history (catalogue w) -> step w ev = (w1, a) -> complete w1 /\ history (catalogue w1).
  Proof.
    intros Hw Hc Hh H. unfold complete, catalogue in *. destruct ev as [crash| |name| |name info vt found schema crash|name crash]; cbn [CreateModel.step] in H.
    - unfold open_dir in H. destruct (w_disk w) as [k|] eqn:Ed.
      + destruct crash; injection H as <- _; (split; [first [exact Hc|discriminate Hc|rewrite Eu; exact Hc]|exact Hh]).
      + destruct crash as [[|n]|]; injection H as <- _; cbn [w_disk w_up k_done k_db]; (split; [|try constructor; exact Hh]); try reflexivity.
        cbn in Hw. apply firstn_all2. exact Hw.
    - destruct (w_up w) eqn:Eu; [destruct (w_disk w) as [k|] eqn:Ed|]; injection H as <- _; rewrite ?Ed; (split; [first [exact Hc|discriminate Hc|rewrite Eu; exact Hc]|exact Hh]).
    - destruct (w_up w) eqn:Eu; [destruct (w_disk w) as [k|] eqn:Ed|]; injection H as <- _; rewrite ?Ed; (split; [first [exact Hc|discriminate Hc|rewrite Eu; exact Hc]|exact Hh]).
    - destruct (w_up w) eqn:Eu; [destruct (w_disk w) as [k|] eqn:Ed|]; injection H as <- _; rewrite ?Ed; (split; [first [exact Hc|discriminate Hc|rewrite Eu; exact Hc]|exact Hh]).
    - destruct (w_up w) eqn:Eu; [destruct (w_disk w) as [k|] eqn:Ed|]; [|injection H as <- _; rewrite Ed; (split; [first [exact Hc|discriminate Hc|rewrite Eu; exact Hc]|exact Hh])|injection H as <- _; (split; [first [exact Hc|discriminate Hc|rewrite Eu; exact Hc]|exact Hh])].
      unfold register_on, has in H. rewrite Hc in H. cbn [existsb creation stmt_eqb orb] in H.
      destruct (register castable metadata_of (k_db k) name info vt found schema) as [tr o] eqn:R. unfold finish in H.
      destruct crash as [n|]; injection H as <- _; cbn [w_disk k_done k_db]; (split; [exact Hc|]); eapply HRegister; eauto; [apply last_firstn|apply last_in].
    - destruct (w_up w) eqn:Eu; [destruct (w_disk w) as [k|] eqn:Ed|]; [|injection H as <- _; rewrite Ed; (split; [first [exact Hc|discriminate Hc|rewrite Eu; exact Hc]|exact Hh])|injection H as <- _; (split; [first [exact Hc|discriminate Hc|rewrite Eu; exact Hc]|exact Hh])].
      unfold remove_on, has in H. rewrite Hc in H. cbn [existsb creation stmt_eqb orb] in H.
      destruct (remove (k_db k) name) as [tr o] eqn:R. unfold finish in H.
      destruct crash as [n|]; injection H as <- _; cbn [w_disk k_done k_db]; (split; [exact Hc|]); eapply HRemove; eauto; [apply last_firstn|apply last_in].
  Qed.

  Lemma runs_complete evs : forall w w1 l, Forall whole evs -> complete w -> history (catalogue w) -> runs evs w = (w1, l) -> complete w1 /\ history (catalogue w1).
  Proof.
    induction evs as [|ev evs IH]; intros w w1 l Hw Hc Hh H; cbn [CreateModel.runs] in H; [injection H as <- _; auto|].
    inversion Hw; subst. destruct (step w ev) as [w2 a] eqn:E. destruct (runs evs w2) as [w3 l'] eqn:E2. injection H as <- _.
    destruct (step_complete _ _ _ _ H2 Hc Hh E). eauto.
  Qed.

  (** If no opening is interrupted in the middle of the creation, then after any history of openings, calls and crashes the directory can be
      opened, holds a consistent catalogue, and opening it changes nothing; the version and the names can be read, and registering and
      removing behave as on this catalogue (C35). *)
  Theorem C94_reopened_partial : forall evs w l, Forall whole evs -> runs evs fresh = (w, l) ->
    exists w1, step w (EOpen None) = (w1, AOpened) /\ catalogue w1 = catalogue w /\ consistent (catalogue w1)
      /\ step w1 EVersion = (w1, AVersion (version (catalogue w)))
      /\ step w1 EList = (w1, ANames (list_datasets (catalogue w)))
      /\ (forall name, step w1 (EExists name) = (w1, ABool (exists_dataset (catalogue w) name)))
      /\ (forall name info vt found schema w2 a, step w1 (ERegister name info vt found schema None) = (w2, a) ->
            let (tr, o) := register castable metadata_of (catalogue w) name info vt found schema in
            catalogue w2 = last_db (catalogue w) tr /\ a = match o with Done b => ABool b | Raised => ARaised end)
      /\ (forall name w2 a, step w1 (ERemove name None) = (w2, a) ->
            let (tr, o) := remove (catalogue w) name in
            catalogue w2 = last_db (catalogue w) tr /\ a = match o with Done b => ABool b | Raised => ARaised end).
  Proof.
    intros evs w l Hw H. destruct (runs_complete evs fresh w l Hw eq_refl (HInit _ _) H) as [Hc Hh].
    pose proof (C35_always_consistent _ _ _ Hh) as Hcons. unfold complete, catalogue in *.
    assert (E : exists k, open_dir None (w_disk w) = (Some k, true) /\ k_done k = creation /\ k_db k = match w_disk w with Some k => k_db k | None => init_db end).
    { destruct (w_disk w) as [k|]; [exists k; auto|exists (Disk creation init_db); auto]. }
    destruct E as (k & E1 & E2 & E3). exists (World true (Some k)). cbn [CreateModel.step]. rewrite E1. rewrite <- E3 in Hcons |- *. cbn [w_up w_disk].
    unfold get_version, list_on, exists_on, register_on, remove_on, has. rewrite E2. cbn [existsb creation stmt_eqb orb andb].
    split; [reflexivity|]. split; [reflexivity|]. split; [exact Hcons|]. do 3 (split; [reflexivity|]). split.
    - intros name info vt found schema w2 a Hs. destruct (register _ _ _ _ _ _ _ _) as [tr o]. unfold finish in Hs. injection Hs as <- <-. auto.
    - intros name w2 a Hs. destruct (remove _ _) as [tr o]. unfold finish in Hs. injection Hs as <- <-. auto.
  Qed.

  (** ** A crash during the creation *)
  Definition stuck (w : world) : Prop := exists k, w_disk w = Some k /\ has k RowVersion = false.

  Lemma step_stuck w ev w1 a : stuck w -> step w ev = (w1, a) ->
    stuck w1 /\ (forall v, a <> AVersion v)
    /\ match ev with ERegister _ _ _ _ _ _ | ERemove _ _ => a <> ABool true | _ => True end.
  Proof.
    intros (k & Ed & Hr) H. destruct ev as [crash| |name| |name info vt found schema crash|name crash]; cbn [CreateModel.step] in H; rewrite Ed in H.
    - cbn in H. destruct crash; injection H as <- <-; (split; [exists k; auto|split; [discriminate|exact I]]).
    - unfold get_version in H. rewrite Hr, andb_false_r in H. destruct (w_up w); injection H as <- <-; (split; [exists k; auto|split; [discriminate|exact I]]).
    - destruct (w_up w); injection H as <- <-; (split; [exists k; auto|split; [discriminate|exact I]]).
    - destruct (w_up w); injection H as <- <-; (split; [exists k; auto|split; [discriminate|exact I]]).
    - destruct (w_up w); [|injection H as <- <-; split; [exists k; auto|split; discriminate]].
      unfold register_on in H. rewrite Hr in H.
      assert (G : forall tr o, o <> Done true -> finish k tr o crash = (w1, a) -> stuck w1 /\ (forall v, a <> AVersion v) /\ a <> ABool true).
      { intros tr o Ho F. unfold finish in F. destruct crash; injection F as <- <-; (split; [eexists; split; [reflexivity|exact Hr]|]).
        - split; discriminate.
        - destruct o as [[|]|]; [congruence| |]; split; discriminate. }
      destruct (negb vt || negb (has k TabDatasets)); [eapply G; [|exact H]; discriminate|].
      destruct (insert_dataset (k_db k) name info) as [[s1 did]|]; [|eapply G; [|exact H]; discriminate].
      eapply G; [|exact H]. destruct (has k TabVersion); discriminate.
    - destruct (w_up w); [|injection H as <- <-; split; [exists k; auto|split; discriminate]].
      unfold remove_on in H. rewrite Hr in H.
      assert (G : forall tr o, o <> Done true -> finish k tr o crash = (w1, a) -> stuck w1 /\ (forall v, a <> AVersion v) /\ a <> ABool true).
      { intros tr o Ho F. unfold finish in F. destruct crash; injection F as <- <-; (split; [eexists; split; [reflexivity|exact Hr]|]).
        - split; discriminate.
        - destruct o as [[|]|]; [congruence| |]; split; discriminate. }
      destruct (negb (exists_on k name)); [eapply G; [|exact H]; discriminate|].
      destruct (negb (has k TabSamples)); [eapply G; [|exact H]; discriminate|].
      eapply G; [|exact H]. destruct (has k TabVersion); discriminate.
  Qed.

  (** A process that dies in the middle of the creation leaves the directory useless for good: whatever is called afterwards, however often
      it is opened again, no version is ever read (so no query result is ever cached or looked up) and no registration or removal succeeds. *)
  Theorem C94_torn_creation_refuted : forall n evs w l, (n < 8)%nat -> runs evs (fst (step fresh (EOpen (Some (S n))))) = (w, l) ->
    forall i a, nth_error l i = Some a -> (forall v, a <> AVersion v)
      /\ match nth_error evs i with Some (ERegister _ _ _ _ _ _) | Some (ERemove _ _) => a <> ABool true | _ => True end.
  Proof.
    intros n evs w l Hn H.
    assert (Hs : stuck (fst (step fresh (EOpen (Some (S n)))))).
    { exists (Disk (firstn n creation) init_db). split; [reflexivity|]. do 8 (destruct n as [|n]; [reflexivity|]). lia. }
    revert Hs H. generalize (fst (step fresh (EOpen (Some (S n))))). revert w l. induction evs as [|ev evs IH]; intros w l w0 Hs H i a Hi; cbn [CreateModel.runs] in H.
    - injection H as _ <-. destruct i; discriminate.
    - destruct (step w0 ev) as [w2 b] eqn:E. destruct (runs evs w2) as [w3 l'] eqn:E2. injection H as _ <-.
      destruct (step_stuck _ _ _ _ Hs E) as (S1 & S2 & S3). destruct i as [|i]; cbn [nth_error] in *.
      + injection Hi as <-. split; [exact S2|]. destruct ev; auto.
      + exact (IH _ _ _ S1 E2 i a Hi).
  Qed.
End C94.
Print Assumptions C94_reopened_partial.
Print Assumptions C94_torn_creation_refuted.

(** The creation is interrupted after the first table; later the same dataset is refused twice, listed once, and the version cannot be read. *)
Example C94_torn_example :
  snd (runs (fun _ _ _ => true) (fun _ => Ok [(0, [])])
        [EOpen (Some 3%nat); EOpen None; ERegister [1] (DInfo [2] 1 [3]) true (Ok [[4]]) (Some []) None;
         ERegister [1] (DInfo [2] 1 [3]) true (Ok [[4]]) (Some []) None; EList; EVersion] fresh)
  = [ACrashed; AOpened; ABool false; ABool false; ANames [[1]]; ARaised].
Proof. reflexivity. Qed.
(** Crashes elsewhere: before the connection, and inside a registration; the directory is opened again and works. *)
Example C94_example :
  let evs := [EOpen (Some 0%nat); EOpen None; ERegister [1] (DInfo [2] 1 [3]) true (Ok [[4]]) (Some []) (Some 2%nat); EVersion; EOpen None; EVersion; EList;
              ERemove [1] None; ERegister [1] (DInfo [2] 1 [3]) true (Ok [[4]]) (Some []) None; EVersion] in
  Forall whole evs /\
  snd (runs (fun _ _ _ => true) (fun _ => Ok [(0, [])]) evs fresh)
  = [ACrashed; AOpened; ACrashed; ADown; AOpened; AVersion 2; ANames [[1]]; ABool true; ABool true; AVersion 6].
Proof. split; [repeat constructor|vm_compute; reflexivity]. Qed.
