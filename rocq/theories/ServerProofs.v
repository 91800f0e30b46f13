From Verif Require Import Base MixtureKeyModel MixtureKeyProofs NetModel SpecNet ProtoModel ServerModel SpecProto.
From Coq Require Import ZifyBool.
Open Scope Z_scope.

Lemma ostr_eqb_spec a b : ostr_eqb a b = true <-> a = b.
Proof.
  destruct a as [a|], b as [b|]; cbn; split; intros H; try discriminate; try reflexivity.
  - f_equal. apply str_eqb_spec, H.
  - injection H as ->. apply str_eqb_spec. reflexivity.
Qed.

Section Server.
  Context {Ob Ar St D : Type} (dumps : Ob -> list Z) (loads : list Z -> option Ob) (save : Ar -> list Z) (load : list Z -> option Ar) (job_of : Ob -> str) (ops : stub Ob Ar St D).
  Notation server := (server Ob St D).
  Notation handle := (handle job_of ops).
  Notation step := (step dumps loads load job_of ops).
  Notation history := (history dumps loads load job_of ops).

  (** What a handler may change besides the stub and the distributor map. *)
  Definition regs (s : server) := (sv_qreg s, sv_dreg s, sv_queue s, sv_outcome s, sv_dtasks s).
  Lemma regs_with {A} (s : server) (x : St * (A + nexn)) f : regs (fst (with_stub s x f)) = regs s.
  Proof. unfold with_stub. destruct x as [st [a|e]]; reflexivity. Qed.
  Lemma regs_pure {A} (s : server) (x : A + nexn) f : regs (fst (pure_stub s x f)) = regs s.
  Proof. unfold pure_stub. destruct x as [a|e]; reflexivity. Qed.
  Lemma handle_regs uuid q (s : server) :
    regs (fst (handle uuid q s)) =
      match q with
      | SRegisterQuery m dp nd w (Some query) => (sv_qreg s, sv_dreg s, sv_queue s ++ [TRegister query m dp nd w], sv_outcome s, sv_dtasks s)
      | SRestore job chk => (adel ostr_eqb job (sv_qreg s), sv_dreg s, sv_queue s ++ [TRestore job chk], sv_outcome s, sv_dtasks s)
      | SRegisterDataset i l t f p => (sv_qreg s, sv_dreg s, sv_queue s, sv_outcome s, sv_dtasks s ++ [TDataset uuid i l t f p])
      | _ => regs s
      end.
  Proof.
    destruct q; cbn [ServerModel.handle]; try reflexivity; try apply regs_with; try apply regs_pure.
    - destruct query; reflexivity.
    - destruct path as [[|c p]|]; try reflexivity. apply regs_pure.
    - destruct (aget ostr_eqb job (sv_dmap s)) as [d|]; [apply regs_with|]. destruct (so_distributor ops job (sv_stub s)) as [d|e]; [|reflexivity].
      rewrite regs_with. reflexivity.
  Qed.

  Lemma handle_poll uuid job (s : server) : handle uuid (SQueryStatus job) s = (s, inl (AInt (code_of (aget ostr_eqb job (sv_qreg s))))).
  Proof. cbn. destruct (aget ostr_eqb job (sv_qreg s)) as [[]|]; reflexivity. Qed.

  Definition qstate (s : server) : Prop := NoDup (map fst (sv_qreg s)) /\ (sv_queue s = [] -> sv_outcome s = None).

  Lemma step_status e (s s' : server) l j : NoDup (map fst (sv_qreg s)) -> step e s = (s', l) ->
    NoDup (map fst (sv_qreg s'))
    /\ aget ostr_eqb j (sv_qreg s') = last_result j [l] (aget ostr_eqb j (sv_qreg s))
    /\ (forall v, l = LPoll j v -> v = code_of (aget ostr_eqb j (sv_qreg s))).
  Proof.
    intros Hnd H. destruct e as [uuid r| | |n]; cbn [ServerModel.step] in H.
    - injection H as <- <-. unfold serve. destruct (snd (read_request loads load r)) as [[q|]|e].
      + pose proof (handle_regs uuid q s) as Hr. assert (Hq := f_equal (fun x => fst (fst (fst (fst x)))) Hr). cbn in Hq.
        destruct (handle uuid q s) as [s1 a] eqn:Eh. cbn [fst snd] in *.
        assert (Es : fst (match a with inl a0 => (s1, match write_answer dumps a0 with inl b => b | inr _ => [] end) | inr _ => (s1, []) end) = s1) by (destruct a; reflexivity).
        rewrite Es. clear Es.
        destruct q; cbn [regs fst snd] in Hq; try (rewrite Hq; split; [exact Hnd|]; split; [reflexivity|intros v Hv; discriminate Hv]).
        * destruct query as [query|]; cbn [fst snd] in Hq; rewrite Hq; (split; [exact Hnd|]); (split; [|intros v Hv; discriminate Hv]); reflexivity.
        * rewrite Hq. split; [exact Hnd|]. rewrite handle_poll in Eh. injection Eh as <- <-. cbn [request_label last_result]. split; [reflexivity|].
          intros v [= <- <-]. reflexivity.
        * rewrite Hq. split; [exact Hnd|]. cbn in Eh. injection Eh as <- <-. cbn. split; [reflexivity|discriminate].
        * rewrite Hq. split; [apply NoDup_akeys_adel, Hnd|]. cbn [request_label last_result]. split; [|intros v Hv; discriminate Hv].
          destruct (ostr_dec job j) as [->|Hne]; [apply (aget_adel_same _ ostr_eqb_spec), Hnd|apply (aget_adel_other _ ostr_eqb_spec), Hne].
      + cbn. split; [exact Hnd|]. split; [reflexivity|discriminate].
      + cbn. split; [exact Hnd|]. split; [reflexivity|discriminate].
    - injection H as <- <-. unfold run_head. destruct (sv_queue s) as [|t rest], (sv_outcome s) as [o|]; try (split; [exact Hnd|split; [reflexivity|discriminate]]).
      + destruct t; (split; [exact Hnd|split; [reflexivity|discriminate]]).
      + destruct t; [destruct (so_execute _ _ _ _ _ _ _) as [st [b|e]]|destruct (so_restore _ _ _ _) as [st [b|e]]]; cbn; (split; [exact Hnd|split; [reflexivity|discriminate]]).
    - unfold finish_head in H. destruct (sv_queue s) as [|t rest]; [injection H as <- <-; split; [exact Hnd|split; [reflexivity|discriminate]]|].
      destruct (sv_outcome s) as [o|]; [|injection H as <- <-; split; [exact Hnd|split; [reflexivity|discriminate]]].
      destruct t as [query m dp nd w|job chk].
      + injection H as <- <-. cbn [sv_qreg set_queue set_qreg last_result]. split; [apply (NoDup_akeys_aset _ ostr_eqb_spec), Hnd|]. split; [|discriminate].
        destruct (ostr_dec (Some (job_of query)) j) as [<-|Hne]; [apply (aget_aset_same _ ostr_eqb_spec)|apply (aget_aset_other _ ostr_eqb_spec), Hne].
      + destruct o; [destruct (so_distributor ops job (sv_stub s)) as [d|e]|]; injection H as <- <-; cbn [sv_qreg set_queue set_qreg set_dmap last_result];
          (split; [apply (NoDup_akeys_aset _ ostr_eqb_spec), Hnd|]; split; [|discriminate];
           destruct (ostr_dec job j) as [<-|Hne]; [apply (aget_aset_same _ ostr_eqb_spec)|apply (aget_aset_other _ ostr_eqb_spec), Hne]).
    - unfold run_dataset in H. destruct (nth_error (sv_dtasks s) n) as [[u i lo t f p]|]; [|injection H as <- <-; split; [exact Hnd|split; [reflexivity|discriminate]]].
      destruct (so_register_dataset _ _ _ _ _ _ _) as [st res]. injection H as <- <-. split; [exact Hnd|split; [reflexivity|discriminate]].
  Qed.

  Lemma last_result_app j (l1 l2 : list (label Ob St)) acc : last_result j (l1 ++ l2) acc = last_result j l2 (last_result j l1 acc).
  Proof. revert acc. induction l1 as [|l l1 IH]; intros acc; [reflexivity|]. cbn [app]. destruct l as [job []| | | | | | |]; cbn [last_result]; apply IH. Qed.

  Lemma history_status evs : forall (s s' : server) ls j, NoDup (map fst (sv_qreg s)) -> history evs s = (s', ls) ->
    forall l1 v l2, ls = l1 ++ LPoll j v :: l2 -> v = code_of (last_result j l1 (aget ostr_eqb j (sv_qreg s))).
  Proof.
    induction evs as [|e evs IH]; intros s s' ls j Hnd H l1 v l2 E; cbn [ServerModel.history] in H.
    - injection H as <- <-. destruct l1; discriminate.
    - destruct (step e s) as [s1 l] eqn:Es. destruct (history evs s1) as [s2 ls'] eqn:Eh. injection H as <- <-.
      destruct (step_status e s s1 l j Hnd Es) as (Hnd1 & Hg & Hp). destruct l1 as [|l0 l1].
      + injection E as -> _. cbn [last_result]. apply Hp. reflexivity.
      + injection E as -> E. rewrite (IH s1 s2 ls' j Hnd1 Eh l1 v l2 E), Hg. change (l0 :: l1) with ([l0] ++ l1). rewrite last_result_app. reflexivity.
  Qed.

  (** *** Starts and ends *)
  Definition ended (j : option str) (ls : list (label Ob St)) : nat :=
    length (filter (fun l => match l with LEnd j' _ => if ostr_dec j' j then true else false | _ => false end) ls).
  Definition queued (j : option str) (s : server) : nat := length (filter (fun t => if ostr_dec (task_job job_of t) j then true else false) (sv_queue s)).
  Lemma step_count e (s s' : server) l j : step e s = (s', l) -> (queued j s' + ended j [l] = queued j s + starts j [l])%nat.
  Proof.
    intros H. destruct e as [uuid r| | |n]; cbn [ServerModel.step] in H.
    - injection H as <- <-. unfold serve. destruct (snd (read_request loads load r)) as [[q|]|e]; try (cbn; lia).
      pose proof (handle_regs uuid q s) as Hr. assert (Hq := f_equal (fun x => snd (fst (fst x))) Hr). cbn in Hq.
      destruct (handle uuid q s) as [s1 a] eqn:Eh. cbn [fst snd] in *.
      assert (Es : fst (match a with inl a0 => (s1, match write_answer dumps a0 with inl b => b | inr _ => [] end) | inr _ => (s1, []) end) = s1) by (destruct a; reflexivity).
      rewrite Es. clear Es. unfold queued.
      destruct q; cbn [regs fst snd] in Hq; try (rewrite Hq; cbn; lia).
      + destruct query as [query|]; cbn [fst snd] in Hq; rewrite Hq; [|cbn; lia]. rewrite filter_app, app_length. unfold starts, ended. cbn. destruct (ostr_dec _ j); cbn; lia.
      + rewrite Hq. destruct a as [[v| | | |]|]; cbn; lia.
      + rewrite Hq. destruct a as [[v| | | |]|]; cbn; lia.
      + rewrite Hq. rewrite filter_app, app_length. unfold starts, ended. cbn. destruct (ostr_dec _ j); cbn; lia.
    - injection H as <- <-. unfold run_head, queued. destruct (sv_queue s) as [|t rest] eqn:Eq, (sv_outcome s) as [o|]; try (rewrite Eq; cbn; lia).
      + destruct t; rewrite Eq; cbn; lia.
      + destruct t; [destruct (so_execute _ _ _ _ _ _ _) as [st [b|e]]|destruct (so_restore _ _ _ _) as [st [b|e]]]; cbn; destruct (ostr_dec _ j); cbn; lia.
    - unfold finish_head in H. unfold queued. destruct (sv_queue s) as [|t rest] eqn:Eq; [injection H as <- <-; rewrite Eq; cbn; lia|].
      destruct (sv_outcome s) as [o|]; [|injection H as <- <-; rewrite Eq; cbn; lia].
      destruct t as [query m dp nd w|job chk].
      + injection H as <- <-. unfold ended, starts. cbn. destruct (ostr_dec _ j); cbn; lia.
      + destruct o; [destruct (so_distributor ops job (sv_stub s)) as [d|e]|]; injection H as <- <-; unfold ended, starts; cbn; destruct (ostr_dec job j); cbn; lia.
    - unfold run_dataset in H. unfold queued. destruct (nth_error (sv_dtasks s) n) as [[u i lo t f p]|]; [|injection H as <- <-; cbn; lia].
      destruct (so_register_dataset _ _ _ _ _ _ _) as [st res]. injection H as <- <-. cbn. lia.
  Qed.
  Lemma ended_app j l1 l2 : ended j (l1 ++ l2) = (ended j l1 + ended j l2)%nat.
  Proof. unfold ended. rewrite filter_app, app_length. reflexivity. Qed.
  Lemma starts_app j (l1 l2 : list (label Ob St)) : starts j (l1 ++ l2) = (starts j l1 + starts j l2)%nat.
  Proof. unfold starts. rewrite filter_app, app_length. reflexivity. Qed.
  Lemma history_count evs : forall (s s' : server) ls j, history evs s = (s', ls) ->
    forall l1 l2, ls = l1 ++ l2 -> (ended j l1 <= queued j s + starts j l1)%nat.
  Proof.
    induction evs as [|e evs IH]; intros s s' ls j H l1 l2 E; cbn [ServerModel.history] in H.
    - injection H as <- <-. symmetry in E. apply app_eq_nil in E as [-> _]. cbn. lia.
    - destruct (step e s) as [s1 l] eqn:Es. destruct (history evs s1) as [s2 ls'] eqn:Eh. injection H as <- <-.
      pose proof (step_count e s s1 l j Es) as Hc. destruct l1 as [|l0 l1]; [cbn; lia|]. injection E as -> E. specialize (IH s1 s2 ls' j Eh l1 l2 E).
      change (l0 :: l1) with ([l0] ++ l1). rewrite ended_app, starts_app. lia.
  Qed.
  Lemma ended_in j b l : In (LEnd j b) l -> (1 <= ended j l)%nat.
  Proof.
    intros H. apply in_split in H as (a & c & ->). change (LEnd j b :: c) with ([LEnd j b] ++ c). rewrite !ended_app. unfold ended at 2. cbn. destruct (ostr_dec j j); [cbn; lia|congruence].
  Qed.
  Lemma ended_zero j l : ended j l = 0%nat -> forall b, ~ In (LEnd j b) l.
  Proof. intros H b Hin. apply ended_in in Hin. lia. Qed.
  Lemma no_ended j (l : list (label Ob St)) : (forall b, ~ In (LEnd j b) l) -> last_result j l None = None.
  Proof.
    induction l as [|x l IH]; intros H; [reflexivity|]. assert (Hl : forall b, ~ In (LEnd j b) l) by (intros b Hb; apply (H b); right; exact Hb).
    destruct x as [job []|t st|job ok| | | | |]; cbn [last_result]; try (apply IH, Hl).
    - destruct (ostr_dec job j); apply IH, Hl.
    - destruct (ostr_dec job j) as [->|]; [exfalso; apply (H ok); left; reflexivity|apply IH, Hl].
  Qed.
  Lemma result_kept j (l : list (label Ob St)) acc : starts j l = 0%nat -> ended j l = 0%nat -> last_result j l acc = acc.
  Proof.
    revert acc. induction l as [|x l IH]; intros acc H1 H2; [reflexivity|]. change (x :: l) with ([x] ++ l) in H1, H2. rewrite starts_app in H1. rewrite ended_app in H2.
    assert (starts j l = 0%nat) by lia. assert (ended j l = 0%nat) by lia.
    destruct x as [job []|t st|job ok| | | | |]; cbn [last_result]; try (apply IH; assumption).
    - destruct (ostr_dec job j); [exfalso; unfold starts in H1; cbn in H1; destruct (ostr_dec job j); [cbn in H1; lia|congruence]|apply IH; assumption].
    - destruct (ostr_dec job j); [exfalso; unfold ended in H2; cbn in H2; destruct (ostr_dec job j); [cbn in H2; lia|congruence]|apply IH; assumption].
  Qed.
  Lemma single_result j (l : list (label Ob St)) : (forall a c, l = a ++ c -> (ended j a <= starts j a)%nat) -> (starts j l <= 1)%nat ->
    forall b, In (LEnd j b) l <-> last_result j l None = Some b.
  Proof.
    intros Hc Hs b. destruct (Nat.eq_dec (ended j l) 0) as [E0|E0].
    - rewrite (no_ended j l (ended_zero j l E0)). split; [intros H; exfalso; apply (ended_zero j l E0 b H)|discriminate].
    - assert (Hex : exists b0, In (LEnd j b0) l).
      { unfold ended in E0. destruct (filter _ l) as [|x f] eqn:Ef; [cbn in E0; lia|]. assert (Hx : In x (filter (fun l => match l with LEnd j' _ => if ostr_dec j' j then true else false | _ => false end) l)) by (rewrite Ef; left; reflexivity).
        apply filter_In in Hx as [Hx1 Hx2]. destruct x; try discriminate. destruct (ostr_dec job j) as [->|]; [|discriminate]. eauto. }
      destruct Hex as (b0 & Hb0). apply in_split in Hb0 as (a & c & ->).
      pose proof (Hc (a ++ [LEnd j b0]) c ltac:(rewrite <- app_assoc; reflexivity)) as H1. rewrite starts_app, ended_app in H1.
      assert (Ee : ended j [LEnd j b0] = 1%nat) by (unfold ended; cbn; destruct (ostr_dec j j); [reflexivity|congruence]). rewrite Ee in H1.
      assert (Es : starts j [@LEnd Ob St j b0] = 0%nat) by reflexivity. rewrite Es in H1.
      pose proof (Hc (a ++ LEnd j b0 :: c) [] ltac:(rewrite app_nil_r; reflexivity)) as H2. change (LEnd j b0 :: c) with ([LEnd j b0] ++ c) in *. rewrite !starts_app, !ended_app, ?Ee, ?Es in *.
      assert (Esc : starts j c = 0%nat) by lia. assert (Eec : ended j c = 0%nat) by lia. assert (Eea : ended j a = 0%nat) by lia.
      rewrite !last_result_app. rewrite (no_ended j a (ended_zero j a Eea)). cbn [last_result]. destruct (ostr_dec j j); [|congruence]. rewrite (result_kept j c _ Esc Eec). split.
      + intros Hin. apply in_app_or in Hin as [Hin|Hin]; [exfalso; apply (ended_zero j a Eea b Hin)|]. cbn in Hin. destruct Hin as [[= <-]|Hin]; [reflexivity|exfalso; apply (ended_zero j c Eec b Hin)].
      + intros [= <-]. apply in_or_app. right. left. reflexivity.
  Qed.

  (** *** What an end means *)
  Definition run_ok (s : server) (ls : list (label Ob St)) : Prop :=
    match sv_outcome s with
    | Some b => exists t rest st l1 l2, sv_queue s = t :: rest /\ ls = l1 ++ LRun t st :: l2 /\ (forall t' st', ~ In (LRun t' st') l2) /\ (forall j b', ~ In (LEnd j b') l2)
                /\ (b = true <-> worked ops t st)
    | None => True
    end.
  Lemma step_run e (s s' : server) l ls : run_ok s ls -> step e s = (s', l) ->
    run_ok s' (ls ++ [l])
    /\ (forall j b, l = LEnd j b -> exists t st l1 l2, ls = l1 ++ LRun t st :: l2 /\ (forall t' st', ~ In (LRun t' st') l2) /\ (forall j b', ~ In (LEnd j b') l2)
          /\ task_job job_of t = j /\ (b = true -> worked ops t st)
          /\ (b = false -> ~ worked ops t st \/ exists jb ck e, t = TRestore jb ck /\ so_distributor ops jb (sv_stub s) = inr e)).
  Proof.
    intros Hr H.
    assert (Hkeep : forall x : label Ob St, (forall t st, x <> LRun t st) -> (forall j b, x <> LEnd j b) -> sv_outcome s' = sv_outcome s -> (exists more, sv_queue s' = sv_queue s ++ more) -> run_ok s' (ls ++ [x])).
    { intros x X1 X2 Eo (more & Eq). unfold run_ok in *. rewrite Eo. destruct (sv_outcome s) as [b|]; [|exact I].
      destruct Hr as (t & rest & st & l1 & l2 & E1 & E2 & E3 & E4 & E5). exists t, (rest ++ more), st, l1, (l2 ++ [x]). split; [rewrite Eq, E1; reflexivity|].
      split; [rewrite E2, <- app_assoc; reflexivity|]. split; [|split; [|exact E5]].
      - intros t' st' Hin. apply in_app_or in Hin as [Hin|[Hin|[]]]; [apply (E3 _ _ Hin)|apply (X1 _ _ Hin)].
      - intros j b' Hin. apply in_app_or in Hin as [Hin|[Hin|[]]]; [apply (E4 _ _ Hin)|apply (X2 _ _ Hin)]. }
    destruct e as [uuid r| | |n]; cbn [ServerModel.step] in H.
    - injection H as Hs' <-. assert (Hl : forall o : option (sreq Ob Ar) + nexn, (forall t st, match o with inl (Some q) => request_label job_of uuid q (snd (handle uuid q s)) | _ => LOther end <> @LRun Ob St t st)
        /\ (forall j b, match o with inl (Some q) => request_label job_of uuid q (snd (handle uuid q s)) | _ => LOther end <> @LEnd Ob St j b)).
      { intros [[q|]|]; split; try discriminate; destruct q; try discriminate; cbn [request_label].
        all: try (destruct query; discriminate). all: try (destruct path; discriminate).
        all: intros; destruct (snd (handle uuid _ s)) as [[]|]; discriminate. }
      destruct (Hl (snd (read_request loads load r))) as [L1 L2]. split; [|intros j b E; exfalso; apply (L2 j b E)].
      apply Hkeep; [exact L1|exact L2| |]; rewrite <- Hs'; unfold serve; destruct (snd (read_request loads load r)) as [[q|]|e]; try reflexivity; try (exists []; rewrite app_nil_r; reflexivity).
      + pose proof (handle_regs uuid q s) as Hg. assert (Hq := f_equal (fun x => snd (fst x)) Hg). cbn in Hq. destruct (handle uuid q s) as [s1 a]. cbn [fst] in Hq.
        assert (Es : fst (match a with inl a0 => (s1, match write_answer dumps a0 with inl b => b | inr _ => [] end) | inr _ => (s1, []) end) = s1) by (destruct a; reflexivity).
        rewrite Es, Hq. destruct q; try reflexivity. destruct query; reflexivity.
      + pose proof (handle_regs uuid q s) as Hg. assert (Hq := f_equal (fun x => snd (fst (fst x))) Hg). cbn in Hq. destruct (handle uuid q s) as [s1 a]. cbn [fst] in Hq.
        assert (Es : fst (match a with inl a0 => (s1, match write_answer dumps a0 with inl b => b | inr _ => [] end) | inr _ => (s1, []) end) = s1) by (destruct a; reflexivity).
        rewrite Es, Hq. destruct q; try (exists []; rewrite app_nil_r; reflexivity); [|eexists; reflexivity].
        destruct query; [eexists; reflexivity|exists []; rewrite app_nil_r; reflexivity].
    - injection H as Hs' <-. unfold run_head in Hs'. destruct (sv_queue s) as [|t rest] eqn:Eq.
      { split; [|intros j b E; discriminate]. apply Hkeep; try discriminate; rewrite <- Hs'; destruct (sv_outcome s) eqn:Eo; rewrite ?Eo; try reflexivity; exists []; rewrite Eq; reflexivity. }
      destruct (sv_outcome s) as [o|] eqn:Eo.
      { assert (Es : s' = s) by (destruct t; rewrite Hs'; reflexivity). split; [|intros j b E; discriminate]. apply Hkeep; try discriminate; rewrite Es; [exact Eo|exists []; rewrite app_nil_r; exact Eq]. }
      split; [|intros j b E; discriminate].
      assert (Hb : exists b, sv_outcome s' = Some b /\ sv_queue s' = t :: rest /\ (b = true <-> worked ops t (sv_stub s))).
      { destruct t as [query m dp nd w|job chk]; cbn [worked].
        - destruct (so_execute ops query m dp nd w (sv_stub s)) as [st [b|e]]; cbn in Hs'; rewrite <- Hs'; cbn; eexists; (split; [reflexivity|]; split; [reflexivity|]); split; congruence.
        - destruct (so_restore ops job chk (sv_stub s)) as [st [[]|e]]; cbn in Hs'; rewrite <- Hs'; cbn; eexists; (split; [reflexivity|]; split; [reflexivity|]); split; congruence. }
      destruct Hb as (b & B1 & B2 & B3). unfold run_ok. rewrite B1. exists t, rest, (sv_stub s), ls, []. split; [exact B2|]. split; [reflexivity|]. split; [intros ? ? []|]. split; [intros ? ? []|exact B3].
    - unfold finish_head in H. destruct (sv_queue s) as [|t rest] eqn:Eq; [injection H as <- <-; split; [|discriminate]; apply Hkeep; try discriminate; [reflexivity|exists []; rewrite Eq; reflexivity]|].
      unfold run_ok in Hr. destruct (sv_outcome s) as [o|] eqn:Eo; [|injection H as <- <-; split; [unfold run_ok; rewrite Eo; exact I|discriminate]].
      destruct Hr as (t0 & rest0 & st & l1 & l2 & E1 & E2 & E3 & E4 & E5). rewrite Eq in E1; injection E1 as <- <-. destruct t as [query m dp nd w|job chk].
      + injection H as <- <-. split; [exact I|]. intros j b [= <- <-]. exists (TRegister query m dp nd w), st, l1, l2. split; [exact E2|]. split; [exact E3|]. split; [exact E4|]. split; [reflexivity|].
        split; [apply E5|]. intros ->. left. intros W. apply E5 in W. discriminate.
      + destruct o; [destruct (so_distributor ops job (sv_stub s)) as [d|e] eqn:Ed|]; injection H as <- <-; (split; [exact I|]); intros j b [= <- <-];
          exists (TRestore job chk), st, l1, l2; (split; [exact E2|]; split; [exact E3|]; split; [exact E4|]; split; [reflexivity|]); (split; [intros Hb; try discriminate Hb; apply E5; reflexivity|]); intros Hb; try discriminate Hb.
        * right. exists job, chk, e. auto.
        * left. intros W. apply E5 in W. discriminate.
    - unfold run_dataset in H. destruct (nth_error (sv_dtasks s) n) as [[u i lo t f p]|].
      + destruct (so_register_dataset _ _ _ _ _ _ _) as [st res]. injection H as <- <-. split; [|discriminate]. apply Hkeep; try discriminate; [reflexivity|exists []; rewrite app_nil_r; reflexivity].
      + injection H as <- <-. split; [|discriminate]. apply Hkeep; try discriminate; [reflexivity|exists []; rewrite app_nil_r; reflexivity].
  Qed.

  Lemma history_run evs : forall (s s' : server) pre ls, run_ok s pre -> history evs s = (s', ls) ->
    forall l1 j b l2, ls = l1 ++ LEnd j b :: l2 ->
    exists t st la lb, pre ++ l1 = la ++ LRun t st :: lb /\ (forall t' st', ~ In (LRun t' st') lb) /\ (forall j b', ~ In (LEnd j b') lb)
      /\ task_job job_of t = j /\ (b = true -> worked ops t st)
      /\ (b = false -> ~ worked ops t st \/ exists jb ck st' e, t = TRestore jb ck /\ so_distributor ops jb st' = inr e).
  Proof.
    induction evs as [|e evs IH]; intros s s' pre ls Hr H l1 j b l2 E; cbn [ServerModel.history] in H.
    - injection H as <- <-. destruct l1; discriminate.
    - destruct (step e s) as [s1 l] eqn:Es. destruct (history evs s1) as [s2 ls'] eqn:Eh. injection H as <- <-.
      destruct (step_run e s s1 l pre Hr Es) as [Hr1 He]. destruct l1 as [|l0 l1].
      + injection E as -> _. destruct (He j b eq_refl) as (t & st & la & lb & H1 & H2 & H3 & H4 & H5 & H6). exists t, st, la, lb. rewrite app_nil_r.
        split; [exact H1|]. split; [exact H2|]. split; [exact H3|]. split; [exact H4|]. split; [exact H5|]. intros Hb. destruct (H6 Hb) as [?|(jb & ck & e0 & X1 & X2)]; [left; assumption|right; exists jb, ck, (sv_stub s), e0; auto].
      + injection E as -> E. destruct (IH s1 s2 (pre ++ [l0]) ls' Hr1 Eh l1 j b l2 E) as (t & st & la & lb & H1 & H2). exists t, st, la, lb. rewrite <- app_assoc in H1. split; [exact H1|exact H2].
  Qed.

  (** *** Dataset registrations *)
  Lemma step_dstatus e (s s' : server) l j : step e s = (s', l) ->
    aget ostr_eqb j (sv_dreg s') = last_dresult j [l] (aget ostr_eqb j (sv_dreg s))
    /\ (forall v, l = LDPoll j v -> v = code_of (aget ostr_eqb j (sv_dreg s))).
  Proof.
    intros H. destruct e as [uuid r| | |n]; cbn [ServerModel.step] in H.
    - injection H as <- <-. unfold serve. destruct (snd (read_request loads load r)) as [[q|]|e]; try (split; [reflexivity|discriminate]).
      pose proof (handle_regs uuid q s) as Hr. assert (Hq := f_equal (fun x => snd (fst (fst (fst x)))) Hr). cbn in Hq.
      destruct (handle uuid q s) as [s1 a] eqn:Eh. cbn [fst snd] in *.
      assert (Es : fst (match a with inl a0 => (s1, match write_answer dumps a0 with inl b => b | inr _ => [] end) | inr _ => (s1, []) end) = s1) by (destruct a; reflexivity).
      rewrite Es. clear Es. assert (Hd : sv_dreg s1 = sv_dreg s) by (rewrite Hq; destruct q; try reflexivity; destruct query; reflexivity). rewrite Hd. clear Hq Hr Hd.
      destruct q; cbn [request_label]; try (split; [reflexivity|discriminate]).
      + destruct query; split; try reflexivity; discriminate.
      + cbn in Eh. injection Eh as <- <-. split; [reflexivity|discriminate].
      + cbn in Eh. injection Eh as <- <-. split; [reflexivity|]. intros v [= <- <-]. unfold status_code, code_of. destruct (aget ostr_eqb job (sv_dreg s)) as [[]|]; reflexivity.
    - injection H as <- <-. unfold run_head. destruct (sv_queue s) as [|t rest], (sv_outcome s) as [o|]; try (split; [reflexivity|discriminate]).
      + destruct t; (split; [reflexivity|discriminate]).
      + destruct t; [destruct (so_execute _ _ _ _ _ _ _) as [st [b|e]]|destruct (so_restore _ _ _ _) as [st [b|e]]]; cbn; (split; [reflexivity|discriminate]).
    - unfold finish_head in H. destruct (sv_queue s) as [|t rest]; [injection H as <- <-; split; [reflexivity|discriminate]|].
      destruct (sv_outcome s) as [o|]; [|injection H as <- <-; split; [reflexivity|discriminate]].
      destruct t as [query m dp nd w|job chk]; [injection H as <- <-; split; [reflexivity|discriminate]|].
      destruct o; [destruct (so_distributor ops job (sv_stub s)) as [d|e]|]; injection H as <- <-; (split; [reflexivity|discriminate]).
    - unfold run_dataset in H. destruct (nth_error (sv_dtasks s) n) as [[u i lo t f p]|]; [|injection H as <- <-; split; [reflexivity|discriminate]].
      destruct (so_register_dataset _ _ _ _ _ _ _) as [st res]. injection H as <- <-. split; [|discriminate]. cbn [sv_dreg set_dreg last_dresult].
      destruct (ostr_dec (Some u) j) as [<-|Hne]; [apply (aget_aset_same _ ostr_eqb_spec)|apply (aget_aset_other _ ostr_eqb_spec), Hne].
  Qed.
  Lemma last_dresult_app j (l1 l2 : list (label Ob St)) acc : last_dresult j (l1 ++ l2) acc = last_dresult j l2 (last_dresult j l1 acc).
  Proof. revert acc. induction l1 as [|l l1 IH]; intros acc; [reflexivity|]. cbn [app]. destruct l; cbn [last_dresult]; apply IH. Qed.
  Lemma history_dstatus evs : forall (s s' : server) ls j, history evs s = (s', ls) ->
    forall l1 v l2, ls = l1 ++ LDPoll j v :: l2 -> v = code_of (last_dresult j l1 (aget ostr_eqb j (sv_dreg s))).
  Proof.
    induction evs as [|e evs IH]; intros s s' ls j H l1 v l2 E; cbn [ServerModel.history] in H.
    - injection H as <- <-. destruct l1; discriminate.
    - destruct (step e s) as [s1 l] eqn:Es. destruct (history evs s1) as [s2 ls'] eqn:Eh. injection H as <- <-.
      destruct (step_dstatus e s s1 l j Es) as (Hg & Hp). destruct l1 as [|l0 l1].
      + injection E as -> _. cbn [last_dresult]. apply Hp. reflexivity.
      + injection E as -> E. rewrite (IH s1 s2 ls' j Eh l1 v l2 E), Hg. change (l0 :: l1) with ([l0] ++ l1). rewrite last_dresult_app. reflexivity.
  Qed.
  Definition dpend (u : str) (l : list (@dtask Ob)) : nat := length (filter (fun t => match t with TDataset u' _ _ _ _ _ => if list_eq_dec Z.eq_dec u' u then true else false end) l).
  Lemma dpend_app u l1 l2 : dpend u (l1 ++ l2) = (dpend u l1 + dpend u l2)%nat.
  Proof. unfold dpend. rewrite filter_app, app_length. reflexivity. Qed.
  Lemma step_dcount e (s s' : server) l u : step e s = (s', l) -> (dpend u (sv_dtasks s') + dends u [l] = dpend u (sv_dtasks s) + dstarts u [l])%nat.
  Proof.
    intros H. destruct e as [uuid r| | |n]; cbn [ServerModel.step] in H.
    - injection H as <- <-. unfold serve. destruct (snd (read_request loads load r)) as [[q|]|e]; try (cbn; unfold dpend; lia).
      pose proof (handle_regs uuid q s) as Hr. assert (Hq := f_equal snd Hr). cbn in Hq.
      destruct (handle uuid q s) as [s1 a] eqn:Eh. cbn [fst snd] in *.
      assert (Es : fst (match a with inl a0 => (s1, match write_answer dumps a0 with inl b => b | inr _ => [] end) | inr _ => (s1, []) end) = s1) by (destruct a; reflexivity).
      rewrite Es. clear Es.
      destruct q; cbn [regs fst snd] in Hq; try (rewrite Hq; cbn; unfold dpend; lia).
      all: try (rewrite Hq; destruct a as [[v| | | |]|]; cbn; unfold dpend; lia).
      + destruct query as [query|]; cbn [fst snd] in Hq; rewrite Hq; cbn; unfold dpend; lia.
      + rewrite Hq, dpend_app. unfold dpend, dstarts, dends. cbn. destruct (list_eq_dec Z.eq_dec uuid u); cbn; lia.
    - injection H as <- <-. assert (E : sv_dtasks (run_head ops s) = sv_dtasks s).
      { unfold run_head. destruct (sv_queue s) as [|t rest], (sv_outcome s) as [o|]; try reflexivity; [destruct t; reflexivity|].
        destruct t; [destruct (so_execute _ _ _ _ _ _ _) as [st [b|e]]|destruct (so_restore _ _ _ _) as [st [b|e]]]; reflexivity. }
      rewrite E. destruct (sv_queue s), (sv_outcome s); cbn; unfold dpend; lia.
    - unfold finish_head in H. destruct (sv_queue s) as [|t rest]; [injection H as <- <-; cbn; unfold dpend; lia|].
      destruct (sv_outcome s) as [o|]; [|injection H as <- <-; cbn; unfold dpend; lia].
      destruct t as [query m dp nd w|job chk]; [injection H as <- <-; cbn; unfold dpend; lia|].
      destruct o; [destruct (so_distributor ops job (sv_stub s)) as [d|e]|]; injection H as <- <-; cbn; unfold dpend; lia.
    - unfold run_dataset in H. destruct (nth_error (sv_dtasks s) n) as [[v i lo t f p]|] eqn:En; [|injection H as <- <-; cbn; unfold dpend; lia].
      destruct (so_register_dataset _ _ _ _ _ _ _) as [st res]. apply pair_equal_spec in H as [<- <-]. cbn [sv_dtasks set_dreg set_dtasks].
      apply nth_error_split in En as (l1 & l2 & El & Hn). rewrite El. subst n.
      assert (E1 : firstn (length l1) (l1 ++ TDataset v i lo t f p :: l2) = l1) by (rewrite firstn_app, firstn_all, Nat.sub_diag; cbn [firstn]; apply app_nil_r).
      assert (E2 : skipn (S (length l1)) (l1 ++ TDataset v i lo t f p :: l2) = l2).
      { clear. induction l1 as [|x l1 IH]; [reflexivity|exact IH]. }
      change (sv_dtasks (set_dreg ?x ?y)) with (sv_dtasks x). cbn [sv_dtasks set_dtasks].
      rewrite E1, E2. change (TDataset v i lo t f p :: l2) with ([TDataset v i lo t f p] ++ l2). rewrite !dpend_app.
      assert (E3 : (dends u [@LDEnd Ob St v (match res with inl b => b | inr _ => false end)] = dpend u [TDataset v i lo t f p])%nat) by (unfold dends, dpend; cbn; destruct (list_eq_dec Z.eq_dec v u); reflexivity).
      unfold dends, dpend, dstarts in *. cbn in *. lia.
  Qed.
  Lemma dends_app u (l1 l2 : list (label Ob St)) : dends u (l1 ++ l2) = (dends u l1 + dends u l2)%nat.
  Proof. unfold dends. rewrite filter_app, app_length. reflexivity. Qed.
  Lemma dstarts_app u (l1 l2 : list (label Ob St)) : dstarts u (l1 ++ l2) = (dstarts u l1 + dstarts u l2)%nat.
  Proof. unfold dstarts. rewrite filter_app, app_length. reflexivity. Qed.
  Lemma history_dcount evs : forall (s s' : server) ls u, history evs s = (s', ls) ->
    forall l1 l2, ls = l1 ++ l2 -> (dends u l1 <= dpend u (sv_dtasks s) + dstarts u l1)%nat.
  Proof.
    induction evs as [|e evs IH]; intros s s' ls u H l1 l2 E; cbn [ServerModel.history] in H.
    - injection H as <- <-. symmetry in E. apply app_eq_nil in E as [-> _]. cbn. lia.
    - destruct (step e s) as [s1 l] eqn:Es. destruct (history evs s1) as [s2 ls'] eqn:Eh. injection H as <- <-.
      pose proof (step_dcount e s s1 l u Es) as Hc. destruct l1 as [|l0 l1]; [cbn; lia|]. injection E as -> E. specialize (IH s1 s2 ls' u Eh l1 l2 E).
      change (l0 :: l1) with ([l0] ++ l1). rewrite dends_app, dstarts_app. lia.
  Qed.
  Lemma history_dcount_eq evs : forall (s s' : server) ls u, history evs s = (s', ls) ->
    (dpend u (sv_dtasks s') + dends u ls = dpend u (sv_dtasks s) + dstarts u ls)%nat.
  Proof.
    induction evs as [|e evs IH]; intros s s' ls u H; cbn [ServerModel.history] in H.
    - injection H as <- <-. cbn. lia.
    - destruct (step e s) as [s1 l] eqn:Es. destruct (history evs s1) as [s2 ls'] eqn:Eh. injection H as <- <-.
      pose proof (step_dcount e s s1 l u Es) as Hc. specialize (IH s1 s2 ls' u Eh). change (l :: ls') with ([l] ++ ls'). rewrite dends_app, dstarts_app. lia.
  Qed.
End Server.
