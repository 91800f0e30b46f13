(** C68 (waiting for the server) and C69 (a request is sent at most once). *)
From Verif Require Import Base MixtureKeyModel UtilsModel ChunkGenModel NetModel SpecNet NetProofs NetProofs2 ProtoModel ServerModel SpecProto ProtoProofs ProtoProofs2 ServerProofs PropertiesNet PropertiesServer PollModel.
Open Scope Z_scope.

(** The answers to the polls for a job, in a server's history. *)
Definition polls {Ob St} (j : option str) (ls : list (label Ob St)) : list Z :=
  flat_map (fun l => match l with LPoll j' v => if ostr_dec j' j then [v] else [] | _ => [] end) ls.
Definition dpolls {Ob St} (u : option str) (ls : list (label Ob St)) : list Z :=
  flat_map (fun l => match l with LDPoll u' v => if ostr_dec u' u then [v] else [] | _ => [] end) ls.

Lemma wait_told left l b : wait_from left (map Status l) = Told b ->
  (exists a v c, l = a ++ v :: c /\ Forall (eq 0) a /\ v <> 0 /\ b = (v =? 1)) \/ (b = false /\ (left < length l)%nat /\ Forall (eq 0) (firstn (S left) l)).
Proof.
  revert l. induction left as [|left IH]; intros [|v l] H; try discriminate; cbn [wait_from map] in H.
  - destruct (Z.eqb_spec v 0) as [->|N].
    + injection H as <-. right. split; [reflexivity|]. split; [cbn; lia|]. repeat constructor.
    + injection H as <-. left. exists [], v, l. auto.
  - destruct (Z.eqb_spec v 0) as [->|N].
    + destruct (IH l H) as [(a & w & c & -> & A & B & C)|(B & L & F)].
      * left. exists (0 :: a), w, c. split; [reflexivity|]. split; [constructor; [reflexivity|exact A]|auto].
      * right. split; [exact B|]. split; [cbn; lia|]. cbn [firstn]. constructor; [reflexivity|exact F].
    + injection H as <-. left. exists [], v, l. auto.
Qed.
Lemma wait_still left l : wait_from left (map Status l) = Waits -> Forall (eq 0) l.
Proof.
  revert l. induction left as [|left IH]; intros [|v l] H; try constructor; cbn [wait_from map] in H; destruct (Z.eqb_spec v 0) as [E|N]; try discriminate; try (symmetry; exact E).
  apply IH, H.
Qed.
Lemma flat_split {T} (f : T -> list Z) ls a v c : (forall x, (length (f x) <= 1)%nat) -> flat_map f ls = a ++ v :: c ->
  exists l1 x l2, ls = l1 ++ x :: l2 /\ f x = [v] /\ flat_map f l1 = a /\ flat_map f l2 = c.
Proof.
  intros H1. revert a. induction ls as [|x ls IH]; intros a E; [destruct a; discriminate|].
  cbn [flat_map] in E. pose proof (H1 x) as Hx. destruct (f x) as [|w [|]] eqn:Fx; [| |cbn in Hx; lia].
  - destruct (IH a E) as (l1 & y & l2 & -> & A & B & C). exists (x :: l1), y, l2. cbn [flat_map]. rewrite Fx. auto.
  - destruct a as [|a0 a]; injection E as -> E.
    + exists [], x, ls. auto.
    + destruct (IH a E) as (l1 & y & l2 & -> & A & B & C). exists (x :: l1), y, l2. cbn [flat_map]. rewrite Fx, B. auto.
Qed.
Lemma polls_one {Ob St} j (x : label Ob St) : (length (match x with LPoll j' v => if ostr_dec j' j then [v] else [] | _ => [] end) <= 1)%nat.
Proof. destruct x; cbn; try lia. destruct (ostr_dec _ _); cbn; lia. Qed.
Lemma dpolls_one {Ob St} j (x : label Ob St) : (length (match x with LDPoll j' v => if ostr_dec j' j then [v] else [] | _ => [] end) <= 1)%nat.
Proof. destruct x; cbn; try lia. destruct (ostr_dec _ _); cbn; lia. Qed.
Lemma poll_label {Ob St} j v (x : label Ob St) : match x with LPoll j' v => if ostr_dec j' j then [v] else [] | _ => [] end = [v] -> x = LPoll j v.
Proof. destruct x; try discriminate. destruct (ostr_dec _ _) as [->|]; [|discriminate]. congruence. Qed.
Lemma dpoll_label {Ob St} j v (x : label Ob St) : match x with LDPoll j' v => if ostr_dec j' j then [v] else [] | _ => [] end = [v] -> x = LDPoll j v.
Proof. destruct x; try discriminate. destruct (ostr_dec _ _) as [->|]; [|discriminate]. congruence. Qed.

Section Theorems.
  Context {Ob Ar St D : Type} (dumps : Ob -> list Z) (loads : list Z -> option Ob) (save : Ar -> list Z) (load : list Z -> option Ar) (job_of : Ob -> str).
  Variable ops : stub Ob Ar St D.
  Notation history := (history dumps loads load job_of ops).

  (** A client that waits for a query on a server it reaches, in any history of that server: when it is told the outcome,
      then the last registration (or restore) of the job had ended with this outcome, unless it was told "failed" after
      30 minutes in progress; as long as it waits, none had ended.  Partial: see the refutations. *)
  Theorem C68_query_partial evs st s ls j : history evs (init st) = (s, ls) ->
    match wait_for_execution (map Status (polls j ls)) with
    | Told b => (exists l1 v l2, ls = l1 ++ LPoll j v :: l2 /\ last_result j l1 None = Some b /\ Forall (eq 0) (polls j l1))
                \/ (b = false /\ (1802 <= length (polls j ls))%nat)
    | Waits => forall l1 v l2, ls = l1 ++ LPoll j v :: l2 -> last_result j l1 None = None
    | Raises => False
    end.
  Proof.
    intros H. destruct (wait_for_execution (map Status (polls j ls))) as [b| |] eqn:W.
    - destruct (wait_told _ _ _ W) as [(a & v & c & E & Z0 & Nv & ->)|(B & L & _)]; [left|right; split; [exact B|lia]].
      destruct (flat_split _ ls a v c (polls_one j) E) as (l1 & x & l2 & -> & Fx & Fa & _). apply poll_label in Fx. subst x.
      exists l1, v, l2. split; [reflexivity|]. split; [|unfold polls; rewrite Fa; exact Z0].
      pose proof (C42_status_exact dumps loads load job_of ops evs st s _ l1 j v l2 H eq_refl) as X. rewrite X in *.
      destruct (last_result j l1 None) as [[|]|]; [reflexivity|reflexivity|cbn in Nv; congruence].
    - exfalso. clear H. unfold wait_for_execution in W. revert W. generalize 1801%nat. induction (polls j ls) as [|v l IH]; intros n W; [discriminate|].
      destruct n; cbn [wait_from map] in W; destruct (v =? 0); try discriminate. exact (IH n W).
    - intros l1 v l2 E. pose proof (C42_status_exact dumps loads load job_of ops evs st s _ l1 j v l2 H E) as X. apply wait_still in W.
      assert (Iv : In v (polls j ls)).
      { subst ls. unfold polls. rewrite flat_map_app. apply in_or_app. right. cbn [flat_map]. destruct (ostr_dec j j); [left; reflexivity|congruence]. }
      rewrite Forall_forall in W. specialize (W v Iv). rewrite X in W. destruct (last_result j l1 None) as [[|]|]; [discriminate|discriminate|reflexivity].
  Qed.
  (** The same for a dataset registration, without a time limit. *)
  Theorem C68_dataset_partial evs st s ls u : history evs (init st) = (s, ls) ->
    match wait_for_dataset (map Status (dpolls u ls)) with
    | Told b => exists l1 v l2, ls = l1 ++ LDPoll u v :: l2 /\ last_dresult u l1 None = Some b /\ Forall (eq 0) (dpolls u l1)
    | Waits => forall l1 v l2, ls = l1 ++ LDPoll u v :: l2 -> last_dresult u l1 None = None
    | Raises => False
    end.
  Proof.
    intros H.
    assert (A : forall l, match wait_for_dataset (map Status l) with
      | Told b => exists a v c, l = a ++ v :: c /\ Forall (eq 0) a /\ v <> 0 /\ b = (v =? 1) | Waits => Forall (eq 0) l | Raises => False end).
    { clear H. induction l as [|v l IH]; cbn [map wait_for_dataset]; [constructor|]. destruct (Z.eqb_spec v 0) as [->|N]; [|exists [], v, l; auto].
      destruct (wait_for_dataset (map Status l)); [|exact IH|constructor; [reflexivity|exact IH]].
      destruct IH as (a & w & c & -> & X & Y & Z0). exists (0 :: a), w, c. split; [reflexivity|]. split; [constructor; [reflexivity|exact X]|auto]. }
    specialize (A (dpolls u ls)). destruct (wait_for_dataset (map Status (dpolls u ls))) as [b| |].
    - destruct A as (a & v & c & E & Z0 & Nv & ->).
      destruct (flat_split _ ls a v c (dpolls_one u) E) as (l1 & x & l2 & -> & Fx & Fa & _). apply dpoll_label in Fx. subst x.
      exists l1, v, l2. split; [reflexivity|]. split; [|unfold dpolls; rewrite Fa; exact Z0].
      pose proof (C42_dataset_status dumps loads load job_of ops evs st s _ l1 u v l2 H eq_refl) as X. rewrite X in *.
      destruct (last_dresult u l1 None) as [[|]|]; [reflexivity|reflexivity|cbn in Nv; congruence].
    - exact A.
    - intros l1 v l2 E. pose proof (C42_dataset_status dumps loads load job_of ops evs st s _ l1 u v l2 H E) as X.
      assert (Iv : In v (dpolls u ls)).
      { subst ls. unfold dpolls. rewrite flat_map_app. apply in_or_app. right. cbn [flat_map]. destruct (ostr_dec u u); [left; reflexivity|congruence]. }
      rewrite Forall_forall in A. specialize (A v Iv). rewrite X in A. destruct (last_dresult u l1 None) as [[|]|]; [discriminate|discriminate|reflexivity].
  Qed.
End Theorems.

(** False of the code: a query that takes longer than half an hour is reported as failed while it is in progress ... *)
Theorem C68_slow_query_refuted l : wait_for_execution (repeat (Status 0) 1802 ++ l) = Told false.
Proof. reflexivity. Qed.
(** ... and so is one whose status poll loses its connection ... *)
Theorem C68_lost_poll_refuted n l : (n <= 1801)%nat -> wait_for_execution (repeat (Status 0) n ++ Closed :: l) = Told false
  /\ wait_for_dataset (repeat (Status 0) n ++ Closed :: l) = Told false.
Proof.
  intros Hn. split.
  - unfold wait_for_execution. generalize 1801%nat Hn. induction n as [|n IH]; intros m Hm; [destruct m; reflexivity|]. destruct m as [|m]; [lia|]. cbn [repeat app wait_from]. change (0 =? 0) with true. cbv iota. apply IH; lia.
  - induction n as [|n IH]; [reflexivity|]. cbn [repeat app wait_for_dataset]. change (0 =? 0) with true. apply IH. lia.
Qed.
(** ... while a client that waits for a dataset registration the server knows nothing about (it was restarted) waits
    forever. *)
Definition dpoll u := EServe [99] (tsend (CDatasetStatus u)).
Theorem C68_restart_refuted u n : str_ok IDN u -> let '(s, ls) := thist (repeat (dpoll u) n) in
  wait_for_dataset (map Status (dpolls (Some u) ls)) = Waits /\ length (dpolls (Some u) ls) = n.
Proof.
  intros Hu. assert (T : forall n (s : tserver), sv_dreg s = [] -> exists s', history tdumps tloads tload tjob tops (repeat (dpoll u) n) s = (s', repeat (LDPoll (Some u) 0) n)).
  { clear n. induction n as [|n IH]; intros s Hs; [exists s; reflexivity|]. cbn [repeat history].
    assert (R : snd (read_request tloads tload (tsend (CDatasetStatus u))) = inl (Some (SDatasetStatus (Some u)))).
    { destruct (client_write (Ob:=str) (Ar:=str) tdumps tsave (CDatasetStatus u)) as [b|e] eqn:Hb.
      - pose proof (C41_request tdumps tloads tsave tload (CDatasetStatus u) b Hu Hb [] true [Some 3%nat]) as X.
        unfold tsend. rewrite Hb. rewrite app_nil_r in X. destruct (read_request tloads tload (mkReader b true [Some 3%nat])) as [r res].
        destruct (X r res eq_refl) as [(-> & _)|(_ & Nt)]; [reflexivity|]. exfalso. apply Nt. intros [F|[]]. discriminate.
      - exfalso. unfold client_write, client_args in Hb. change (task_no (CDatasetStatus (Ob:=str) (Ar:=str) u)) with 7 in Hb. destruct Hu as [He Hf]. destruct (C29_utf8_total u He) as (x & Ex & _).
        specialize (Hf x Ex). cbn in Hb. unfold write_utf8 in Hb. rewrite Ex in Hb. unfold to_bytes in Hb.
        unfold fits in Hf. destruct (Z.leb_spec 0 (Z.of_nat (length x))) as [_|C]; [|lia].
        destruct (Z.ltb_spec (Z.of_nat (length x)) (256 ^ Z.of_nat IDN)) as [C|C]; [cbn in Hb; discriminate|]. vm_compute (256 ^ Z.of_nat IDN) in *. lia. }
    assert (E : step tdumps tloads tload tjob tops (dpoll u) s = (s, LDPoll (Some u) 0)).
    { unfold step, dpoll, serve. rewrite R. cbn [handle]. rewrite Hs. cbn [aget status_code request_label snd fst]. reflexivity. }
    rewrite E. destruct (IH s Hs) as [s' ->]. exists s'. reflexivity. }
  unfold thist. destruct (T n (init []) eq_refl) as [s' ->].
  assert (P : dpolls (Some u) (repeat (LDPoll (Some u) 0) n : list (label str (list (str * Z)))) = repeat 0 n).
  { clear. induction n as [|n IH]; [reflexivity|]. cbn [repeat dpolls flat_map]. destruct (ostr_dec (Some u) (Some u)); [|congruence]. cbn [app]. f_equal. exact IH. }
  rewrite P. split; [|apply repeat_length]. clear. induction n as [|n IH]; [reflexivity|]. exact IH.
Qed.

(** ** C69 *)
(** The server is reachable for a request if one of its ten connection attempts succeeds. *)
Definition reachable (opens : nat -> bool) : Prop := exists k, (k < 10)%nat /\ opens k = true.
(** A server's state after a list of connections, in order; [env i]: the uuid drawn, whether the connection stays open, and
    how its bytes arrive. *)
Fixpoint after {Ob Ar St D} dumps loads load job_of (ops : stub Ob Ar St D) (cs : list (list Z)) (env : nat -> str * bool * list (option nat)) (i : nat) (s : server Ob St D) : server Ob St D :=
  match cs with
  | [] => s
  | c :: cs' => let '(uuid, op, fr) := env i in after dumps loads load job_of ops cs' env (S i) (fst (serve dumps loads load job_of ops uuid (mkReader c op fr) s))
  end.

Lemma attempts_spec n k opens : match attempts n k opens with
  | Yields true (InTry i) => (k <= i < k + n)%nat /\ opens i = true
  | Yields false InExcept => forall i, (k <= i < k + n)%nat -> opens i = false
  | _ => False end.
Proof.
  revert k. induction n as [|n IH]; intros k; cbn [attempts]; [intros; lia|]. destruct (opens k) eqn:E; [split; [lia|exact E]|].
  specialize (IH (S k)). destruct (attempts n (S k) opens) as [[|] [i|]| |]; try exact IH.
  - destruct IH. split; [lia|assumption].
  - intros i Hi. destruct (Nat.eq_dec i k) as [->|N]; [exact E|apply IH; lia].
Qed.
Lemma from0 opens : (exists k, from 0 opens = Yields true (InTry k) /\ reachable opens) \/ (from 0 opens = Yields false InExcept /\ ~ reachable opens).
Proof.
  unfold from. change (10 - 0)%nat with 10%nat. pose proof (attempts_spec 10 0 opens) as A. destruct (attempts 10 0 opens) as [[|] [i|]| |]; try contradiction.
  - left. exists i. split; [reflexivity|]. exists i. split; [lia|apply A].
  - right. split; [reflexivity|]. intros (k & Hk & E). rewrite A in E by lia. discriminate.
Qed.
Lemma serve_nothing {Ob Ar St D} dumps loads load job_of (ops : stub Ob Ar St D) uuid op fr s : serve dumps loads load job_of ops uuid (mkReader [] op fr) s = (s, []).
Proof.
  unfold serve, read_request, read_int, read_bytes, rbind. cbn [read_loop length]. change (Z.of_nat 0 <? Z.of_nat IDN) with true. cbv iota.
  unfold read1. cbn [rd_frags rd_data rd_open]. destruct fr as [|[k|] fr]; destruct op; reflexivity.
Qed.

Section Once.
  Context {A : Type} (opens : nat -> bool) (body : bool -> A + unit).

  (** Whatever attempts succeed and whatever the body does: the body of a request runs exactly once, with a connection exactly
      if the server is reachable, and a value it returns is what the caller gets. *)
  Theorem C69_body_once : exists c, fst (request opens body) = [c] /\ (c = true <-> reachable opens)
    /\ match body c with
       | inl a => snd (request opens body) = Returns a
       | inr _ => snd (request opens body) = if c then RuntimeErr else BodyError
       end.
  Proof.
    destruct (from0 opens) as [(k & E & R)|(E & R)]; unfold request; rewrite E; cbn [fst snd].
    - exists true. split; [reflexivity|]. split; [tauto|]. destruct (body true); [reflexivity|]. cbn [throw].
      unfold from. pose proof (attempts_spec (10 - S k) (S k) opens) as B. destruct (attempts _ _ opens) as [[|] [i|]| |]; try contradiction; reflexivity.
    - exists false. split; [reflexivity|]. split; [split; [discriminate|tauto]|]. destruct (body false); reflexivity.
  Qed.

  (** What reaches the server: at most two connections, of which only the first carries anything; the server ends up as if it
      had seen that one only, however the bytes arrive. *)
  Theorem C69_sent_once {Ob Ar St D} dumps loads load job_of (ops : stub Ob Ar St D) sent env s :
    (reachable opens -> after dumps loads load job_of ops (conns opens body sent) env 0 s
       = fst (serve dumps loads load job_of ops (fst (fst (env 0%nat))) (mkReader sent (snd (fst (env 0%nat))) (snd (env 0%nat))) s))
    /\ (~ reachable opens -> conns opens body sent = [])
    /\ (forall a, body true = inl a -> reachable opens -> conns opens body sent = [sent])
    /\ (length (conns opens body sent) <= 2)%nat.
  Proof.
    destruct (from0 opens) as [(k & E & R)|(E & R)]; unfold conns; rewrite E.
    - split; [intros _|split; [tauto|split; [intros a -> _; reflexivity|]]].
      + cbn [after]. destruct (env 0%nat) as [[u o] f]. cbn [fst snd].
        destruct (body true); [reflexivity|]. destruct (throw opens (InTry k)) as [[|] g| |]; try reflexivity. cbn [after]. destruct (env 1%nat) as [[u' o'] f']. rewrite serve_nothing. reflexivity.
      + cbn [length]. destruct (body true); [cbn; lia|]. destruct (throw _ _) as [[|]| |]; cbn; lia.
    - split; [tauto|]. split; [reflexivity|]. split; [tauto|cbn; lia].
  Qed.
End Once.

(** False of the code: the caller is told why a request failed.  Whatever the body raises with a connection (a timeout, a broken
    connection, bytes that cannot be decoded), the caller gets a RuntimeError about the generator instead ... *)
Theorem C69_error_lost_refuted {A} opens (body : bool -> A + unit) : reachable opens -> (forall c, body c = inr tt) -> snd (request opens body) = RuntimeErr.
Proof.
  intros R B. destruct (C69_body_once opens body) as (c & _ & I & M). rewrite B in M. rewrite M. replace c with true by (symmetry; apply I, R). reflexivity.
Qed.
(** ... and a further connection is made (and waited for), although the request is not sent again. *)
Theorem C69_useless_connection_refuted sent : conns (A:=Z) (fun _ => true) (fun _ => inr tt) sent = [sent; []].
Proof. reflexivity. Qed.

(** Non-vacuity *)
Example C68_ex : exists s, exists ls, thist [reg jobA; poll jobA; poll jobA; ERun; poll jobA; EFinish; poll jobA; poll jobA] = (s, ls)
  /\ polls (Some jobA) ls = [0; 0; 0; 1; 1] /\ wait_for_execution (map Status (polls (Some jobA) ls)) = Told true.
Proof. eexists. eexists. split; [vm_compute; reflexivity|]. split; vm_compute; reflexivity. Qed.
Definition dreg := EServe [99] (tsend (CRegisterDataset [65] [66] 1 [67] [68])).
Example C68_dataset_ex : exists s, exists ls, thist [dreg; dpoll [99]; EDataset 0; dpoll [99]] = (s, ls)
  /\ dpolls (Some [99]) ls = [0; 1] /\ wait_for_dataset (map Status (dpolls (Some [99]) ls)) = Told true.
Proof. eexists. eexists. split; [vm_compute; reflexivity|]. split; vm_compute; reflexivity. Qed.
Example C68_restart_ex : str_ok IDN [97; 98].
Proof. split; [repeat constructor; lia|]. intros x H. vm_compute in H. injection H as <-. vm_compute. reflexivity. Qed.
(** the third attempt succeeds; the body raises half way; the fifth attempt succeeds again *)
Example C69_ex : let opens := fun k => Nat.eqb k 2 || Nat.eqb k 4 in
  request (A:=Z) opens (fun c => if c then inr tt else inl 7) = ([true], RuntimeErr) /\ conns (A:=Z) opens (fun c => inr tt) [1; 2] = [[1; 2]; []]
  /\ request (A:=Z) (fun _ => false) (fun c => if c then inr tt else inl 7) = ([false], Returns 7) /\ request (A:=Z) opens (fun c => if c then inl 5 else inl 7) = ([true], Returns 5).
Proof. repeat split. Qed.

Print Assumptions C68_query_partial.
Print Assumptions C68_dataset_partial.
Print Assumptions C68_slow_query_refuted.
Print Assumptions C68_lost_poll_refuted.
Print Assumptions C68_restart_refuted.
Print Assumptions C69_body_once.
Print Assumptions C69_sent_once.
Print Assumptions C69_error_lost_refuted.
Print Assumptions C69_useless_connection_refuted.
