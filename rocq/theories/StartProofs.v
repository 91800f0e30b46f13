From Verif Require Import Base MixtureKeyModel UtilsModel ChunkGenModel NetModel SpecNet NetProofs NetProofs2 ProtoModel ServerModel SpecProto ProtoProofs ProtoProofs2 ServerProofs PropertiesServer PollModel StartModel SpecStart.
Open Scope Z_scope.

Definition pending (x : polled) : Prop := x = Status 0 \/ x = NoServer.
Lemma wait_snoc got : forall left x, Forall pending got -> (length got <= left)%nat ->
  match wait_from left (got ++ [x]) with
  | Told true => x = Status 1
  | Told false => x <> Status 1
  | Raises => x <> Status 1
  | Waits => pending x
  end /\ (wait_from left (got ++ [x]) = Waits -> (S (length got) <= left)%nat) /\ (x = Status 1 -> wait_from left (got ++ [x]) = Told true).
Proof.
  induction got as [|y got IH]; intros left x H L.
  - destruct left; cbn [app wait_from]; destruct x as [v| | |]; unfold pending; try (split; [try discriminate; auto|split; [try discriminate; cbn; lia|discriminate]]; fail);
      destruct (Z.eqb_spec v 0) as [->|N]; (split; [try discriminate; auto|split; [try discriminate; cbn; try lia|try discriminate]]);
      try (destruct (Z.eqb_spec v 1) as [->|N1]; congruence); try (intros [= ->]; try reflexivity; congruence).
  - inversion H as [|? ? Hy Hg]; subst. cbn [app length] in *. destruct left as [|left]; [lia|].
    specialize (IH left x Hg ltac:(lia)). cbn [wait_from]. destruct Hy as [Hy|Hy]; rewrite Hy in *; clear Hy; [change (0 =? 0) with true; cbv iota|];
      (destruct IH as (A & B & C); split; [exact A|split; [intros W; specialize (B W); lia|exact C]]).
Qed.

Section Start.
  Context {Ob Ar St D : Type} (dumps : Ob -> list Z) (loads : list Z -> option Ob) (save : Ar -> list Z) (load : list Z -> option Ar) (job_of : Ob -> str) (ops : stub Ob Ar St D).
  Notation server := (server Ob St D).
  Notation handle := (handle job_of ops).
  Notation step := (step dumps loads load job_of ops).
  Notation history := (history dumps loads load job_of ops).
  Notation ask := (ask dumps loads save load job_of ops).

  Lemma history_app e1 e2 (s : server) : history (e1 ++ e2) s = let '(s', l1) := history e1 s in let '(s'', l2) := history e2 s' in (s'', l1 ++ l2).
  Proof.
    revert s. induction e1 as [|e e1 IH]; intros s; cbn [app ServerModel.history]; [destruct (history e2 s); reflexivity|].
    destruct (step e s) as [s1 l]. rewrite IH. destruct (history e1 s1) as [s2 l1]. destruct (history e2 s2) as [s3 l2]. reflexivity.
  Qed.
  Lemma ask_history q d (s s' : server) ls r : ask q d s = (s', ls, r) -> exists sevs, history sevs s = (s', ls).
  Proof.
    unfold StartModel.ask. destruct (client_write dumps save q) as [b|e]; [|intros [= <- <- <-]; exists []; reflexivity].
    destruct d as [uuid fr fr'|uuid fr ra|].
    - destruct (step (EServe uuid (mkReader b true fr)) s) as [s1 l] eqn:Es. intros [= <- <- <-]. exists [EServe uuid (mkReader b true fr)]. cbn [ServerModel.history]. rewrite Es. reflexivity.
    - destruct (step (EServe uuid (mkReader b true fr)) s) as [s1 l] eqn:Es. intros [= <- <- <-]. exists [EServe uuid (mkReader b true fr)]. cbn [ServerModel.history]. rewrite Es. reflexivity.
    - intros [= <- <- <-]. exists []. reflexivity.
  Qed.

  Variable procs : nat -> proc Ob.
  Notation jstep := (jstep dumps loads save load job_of ops procs).
  Notation jrun := (jrun dumps loads save load job_of ops procs).
  Lemma jstep_history e (s s' : server) ph ph' ls : jstep e (s, ph) = ((s', ph'), ls) -> exists sevs, history sevs s = (s', ls).
  Proof.
    destruct e as [i d|i d|e]; cbn [StartModel.jstep].
    - unfold start. destruct (ph i); try (intros [= <- <- <-]; exists []; reflexivity).
      destruct (negb (placed (procs i))); [intros [= <- <- <-]; exists []; reflexivity|].
      destruct (primary (procs i)); [|intros [= <- <- <-]; exists []; reflexivity].
      destruct (ask (start_request job_of (procs i)) d s) as [[s1 l1] r] eqn:Ea. intros [= <- <- <-]. eapply ask_history, Ea.
    - unfold poll_once. destruct (ph i); try (intros [= <- <- <-]; exists []; reflexivity).
      destruct (ask (CQueryStatus (job_of (pr_query (procs i)))) d s) as [[s1 l1] r] eqn:Ea. intros [= <- <- <-]. eapply ask_history, Ea.
    - cbn [fst snd]. destruct (step e s) as [s1 l] eqn:Es. intros [= <- <- <-]. exists [e]. cbn [ServerModel.history]. rewrite Es. reflexivity.
  Qed.
  Lemma jrun_history evs : forall (s s' : server) ph ph' ls, jrun evs (s, ph) = ((s', ph'), ls) -> exists sevs, history sevs s = (s', ls).
  Proof.
    induction evs as [|e evs IH]; intros s s' ph ph' ls H; cbn [StartModel.jrun] in H; [injection H as <- <- <-; exists []; reflexivity|].
    destruct (jstep e (s, ph)) as [[s1 ph1] l1] eqn:Es. destruct (jrun evs (s1, ph1)) as [[s2 ph2] l2] eqn:Er. injection H as <- <- <-.
    destruct (jstep_history _ _ _ _ _ _ Es) as (e1 & H1). destruct (IH _ _ _ _ _ Er) as (e2 & H2). exists (e1 ++ e2). rewrite history_app, H1, H2. reflexivity.
  Qed.

  (** A poll *)
  Definition seen_poll (r : option (cres Ob + nexn)) : polled := match r with Some r => poll_answer r | None => NoServer end.
  Lemma ask_poll j d (s s' : server) ls r : str_ok IDN j -> whole d -> ask (CQueryStatus j) d s = (s', ls, r) ->
    s' = s /\ (forall v, seen_poll r = Status v -> ls = [LPoll (Some j) v]) /\ Forall (fun l => exists v, l = LPoll (Some j) v) ls
    /\ (forall b uuid fr fr', client_write dumps save (CQueryStatus (Ar:=Ar) j) = inl b -> d = Answered uuid fr fr' -> seen_poll r = Status (code_of (aget ostr_eqb (Some j) (sv_qreg s)))).
  Proof.
    intros Hj Hd. unfold StartModel.ask. destruct (client_write dumps save (CQueryStatus j)) as [b|e] eqn:Eb.
    2:{ intros [= <- <- <-]. split; [reflexivity|]. split; [discriminate|]. split; [constructor|discriminate]. }
    assert (St_ : forall uuid fr, timely fr -> step (EServe uuid (mkReader b true fr)) s = (s, LPoll (Some j) (code_of (aget ostr_eqb (Some j) (sv_qreg s))))).
    { intros uuid fr Hf. cbn [ServerModel.step]. rewrite (serve_handles dumps loads save load job_of ops uuid (CQueryStatus j) b fr true s Hj Eb Hf). cbn [seen]. rewrite handle_poll. cbn [fst].
      destruct (read_request loads load (mkReader b true fr)) as [r' res] eqn:E. rewrite <- (app_nil_r b) in E.
      apply (request_back dumps loads save load (CQueryStatus j) b Hj Eb) in E. destruct E as [(-> & _)|(_ & Hn)]; [|contradiction]. cbn [snd]. cbn [seen]. rewrite handle_poll. reflexivity. }
    destruct d as [uuid fr fr'|uuid fr ra|].
    - destruct Hd as [Hf Hf']. rewrite (St_ uuid fr Hf). intros E0. assert (Es := f_equal (fun x => fst (fst x)) E0). assert (El := f_equal (fun x => snd (fst x)) E0). assert (Er := f_equal snd E0). cbn [fst snd] in Es, El. clear E0. change (Some (snd (client_read loads job_of (CQueryStatus (Ar:=Ar) j) (mkReader (snd (serve dumps loads load job_of ops uuid (mkReader b true fr) s)) false fr'))) = r) in Er. subst s' ls.
      assert (A : snd (client_read loads job_of (CQueryStatus (Ar:=Ar) j) (mkReader (snd (serve dumps loads load job_of ops uuid (mkReader b true fr) s)) false fr')) = inl (RInt (Some (code_of (aget ostr_eqb (Some j) (sv_qreg s)))))).
      { assert (W : exists ab, write_answer dumps (AInt (Ob:=Ob) (code_of (aget ostr_eqb (Some j) (sv_qreg s)))) = inl ab).
        { destruct (aget ostr_eqb (Some j) (sv_qreg s)) as [[]|]; eexists; vm_compute; reflexivity. }
        destruct W as (ab & W).
        destruct (C41_exchange dumps loads save load job_of ops (CQueryStatus j) b uuid s s _ ab fr fr' Hj Eb Hf Hf' (handle_poll job_of ops uuid (Some j) s) I W) as [A B]. rewrite A. exact B. }
      rewrite A in Er. subst r.
      split; [reflexivity|]. unfold seen_poll, poll_answer. split; [intros v [= <-]; reflexivity|]. split; [repeat constructor; eexists; reflexivity|reflexivity].
    - rewrite (St_ uuid fr Hd). intros [= <- <- <-]. split; [reflexivity|]. split; [|split; [repeat constructor; eexists; reflexivity|discriminate]].
      intros v. destruct ra; [discriminate|]. cbn. discriminate.
    - intros [= <- <- <-]. split; [reflexivity|]. split; [discriminate|split; [constructor|discriminate]].
  Qed.
  (** The request of the first process *)
  Lemma ask_start p d (s s' : server) ls r : (forall q : creq Ob Ar, q = start_request job_of p -> sent_ok dumps loads save load q) -> whole d ->
    ask (start_request job_of p) d s = (s', ls, r) ->
    (s' = s /\ ls = []) \/ (sv_queue s' = sv_queue s ++ [asked_task job_of p] /\ exists b, ls = [LStart (Some (job_of (pr_query p))) b]).
  Proof.
    intros Hq Hd. specialize (Hq _ eq_refl). unfold StartModel.ask. destruct (client_write dumps save (start_request job_of p)) as [b|e] eqn:Eb; [|intros [= <- <- <-]; left; auto].
    assert (St_ : forall uuid fr, timely fr -> exists s1 bb, step (EServe uuid (mkReader b true fr)) s = (s1, LStart (Some (job_of (pr_query p))) bb) /\ sv_queue s1 = sv_queue s ++ [asked_task job_of p]).
    { intros uuid fr Hf. cbn [ServerModel.step]. rewrite (serve_handles dumps loads save load job_of ops uuid _ b fr true s Hq Eb Hf).
      destruct (read_request loads load (mkReader b true fr)) as [r' res] eqn:E. rewrite <- (app_nil_r b) in E.
      apply (request_back dumps loads save load _ b Hq Eb) in E. destruct E as [(-> & _)|(_ & Hn)]; [|contradiction]. cbn [snd].
      unfold start_request, asked_task. destruct (pr_ckpt p); cbn [seen ServerModel.handle fst snd request_label]; do 2 eexists; (split; [reflexivity|reflexivity]). }
    destruct d as [uuid fr fr'|uuid fr ra|].
    - destruct Hd as [Hf _]. destruct (St_ uuid fr Hf) as (s1 & bb & -> & E). intros [= <- <- <-]. right. split; [exact E|]. exists bb. reflexivity.
    - destruct (St_ uuid fr Hd) as (s1 & bb & -> & E). intros [= <- <- <-]. right. split; [exact E|]. exists bb. reflexivity.
    - intros [= <- <- <-]. left. auto.
  Qed.
  (** What is in the queue after any event, and what runs *)
  Lemma step_queue e (s s' : server) l : step e s = (s', l) ->
    (forall t, In t (sv_queue s') -> In t (sv_queue s) \/ exists uuid r, e = EServe uuid r /\
       match snd (read_request loads load r) with
       | inl (Some (SRegisterQuery m dp nd w (Some query))) => t = TRegister query m dp nd w
       | inl (Some (SRestore job chk)) => t = TRestore job chk
       | _ => False
       end)
    /\ (forall t st, l = LRun t st -> In t (sv_queue s)).
  Proof.
    intros H. destruct e as [uuid r| | |n]; cbn [ServerModel.step] in H.
    - injection H as <- <-. split.
      2:{ intros t st. destruct (snd (read_request loads load r)) as [[q|]|e]; try discriminate. destruct q; cbn [request_label]; try discriminate; try (destruct query; discriminate); try (destruct (snd _) as [[]|]; discriminate). }
      intros t. unfold serve. destruct (snd (read_request loads load r)) as [[q|]|e] eqn:Er; try (intros Ht; left; exact Ht).
      pose proof (handle_regs job_of ops uuid q s) as Hr. assert (Hq := f_equal (fun x => snd (fst (fst x))) Hr). cbn in Hq.
      destruct (handle uuid q s) as [s1 a] eqn:Eh. cbn [fst snd] in *.
      assert (Es : fst (match a with inl a0 => (s1, match write_answer dumps a0 with inl b => b | inr _ => [] end) | inr _ => (s1, []) end) = s1) by (destruct a; reflexivity).
      rewrite Es. clear Es. intros Ht.
      destruct q; cbn [regs fst snd] in Hq; try (rewrite Hq in Ht; left; exact Ht).
      + destruct query as [query|]; cbn [fst snd] in Hq; rewrite Hq in Ht; [|left; exact Ht]. apply in_app_or in Ht as [Ht|[<-|[]]]; [left; exact Ht|]. right. exists uuid, r. rewrite Er. auto.
      + rewrite Hq in Ht. apply in_app_or in Ht as [Ht|[<-|[]]]; [left; exact Ht|]. right. exists uuid, r. rewrite Er. auto.
    - injection H as <- <-. unfold run_head. destruct (sv_queue s) as [|t rest] eqn:Eq, (sv_outcome s) as [o|]; try (split; [rewrite Eq; auto|discriminate]).
      + destruct t; (split; [rewrite Eq; auto|discriminate]).
      + destruct t; [destruct (so_execute _ _ _ _ _ _ _) as [st [b|e]]|destruct (so_restore _ _ _ _) as [st [b|e]]]; cbn; (split; [auto|intros t0 st0 [= <- <-]; left; reflexivity]).
    - unfold finish_head in H. destruct (sv_queue s) as [|t rest] eqn:Eq; [injection H as <- <-; split; [rewrite Eq; auto|discriminate]|].
      destruct (sv_outcome s) as [o|]; [|injection H as <- <-; split; [rewrite Eq; auto|discriminate]].
      destruct t as [query m dp nd w|job chk].
      + injection H as <- <-. split; [cbn; auto|discriminate].
      + destruct o; [destruct (so_distributor ops job (sv_stub s)) as [d|e]|]; injection H as <- <-; (split; [cbn; auto|discriminate]).
    - unfold run_dataset in H. destruct (nth_error (sv_dtasks s) n) as [[u i lo t f p]|]; [|injection H as <- <-; split; [auto|discriminate]].
      destruct (so_register_dataset _ _ _ _ _ _ _) as [st res]. injection H as <- <-. split; [auto|discriminate].
  Qed.
  (** What a foreign event starts *)
  Lemma alone_starts j e (s s' : server) l : leaves_alone loads load job_of j e -> step e s = (s', l) -> starts (Some j) [l] = 0%nat.
  Proof.
    intros Ha H. destruct e as [uuid r| | |n]; cbn [ServerModel.step leaves_alone] in *.
    - injection H as <- <-. destruct (snd (read_request loads load r)) as [[q|]|e]; try reflexivity. destruct q; cbn [request_label]; try reflexivity.
      all: try (destruct (snd _) as [[]|]; reflexivity).
      + destruct query; [|reflexivity]. unfold starts. cbn. destruct (ostr_dec _ _) as [E|]; [injection E as E; contradiction|reflexivity].
      + unfold starts. cbn. destruct (ostr_dec _ _) as [E|]; [contradiction|reflexivity].
    - injection H as <- <-. destruct (sv_queue s), (sv_outcome s); reflexivity.
    - unfold finish_head in H;
        destruct (sv_queue s) as [|t rest]; try (injection H as <- <-; reflexivity); destruct (sv_outcome s) as [o|]; try (injection H as <- <-; reflexivity);
        destruct t as [query m dp nd w|job chk]; try (injection H as <- <-; reflexivity); destruct o; try (injection H as <- <-; reflexivity);
        destruct (so_distributor ops job (sv_stub s)); injection H as <- <-; reflexivity.
    - unfold run_dataset in H. destruct (nth_error (sv_dtasks s) n) as [[u i lo t f p]|]; [|injection H as <- <-; reflexivity].
      destruct (so_register_dataset _ _ _ _ _ _ _) as [st res]. injection H as <- <-. reflexivity.
  Qed.
End Start.
