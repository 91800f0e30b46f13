(** C41 (requests and answers arrive as sent), C42 (registration status), C48 (end of a chunk stream).
    Specification vocabulary: SpecNet.v, SpecProto.v. *)
From Verif Require Import Base MixtureKeyModel NetModel SpecNet NetProofs NetProofs2 ProtoModel ServerModel SpecProto ProtoProofs ProtoProofs2 ServerProofs.
Open Scope Z_scope.

Section Theorems.
  Context {Ob Ar St D : Type} (dumps : Ob -> list Z) (loads : list Z -> option Ob) (save : Ar -> list Z) (load : list Z -> option Ar) (job_of : Ob -> str).
  Variable ops : stub Ob Ar St D.
  Notation serve := (serve dumps loads load job_of ops).
  Notation handle := (handle job_of ops).
  Notation history := (history dumps loads load job_of ops).

  (** ** C41 *)
  (** The fields the server reads are the fields the client wrote, whatever follows and however TCP splits them. *)
  Theorem C41_request (q : creq Ob Ar) b : sent_ok dumps loads save load q -> client_write dumps save q = inl b ->
    reads_back (read_request loads load) b (Some (seen q)).
  Proof. apply request_back. Qed.

  (** One whole exchange: the handler runs on exactly the fields sent, and what it decides to answer is what the
      client's method returns. *)
  Theorem C41_exchange (q : creq Ob Ar) b uuid s s' a ab fr fr' :
    sent_ok dumps loads save load q -> client_write dumps save q = inl b -> timely fr -> timely fr' ->
    handle uuid (seen q) s = (s', inl a) -> answer_ok dumps loads a -> write_answer dumps a = inl ab ->
    serve uuid (mkReader b true fr) s = (s', ab)
    /\ snd (client_read loads job_of q (mkReader ab false fr')) = result loads job_of q a.
  Proof.
    intros Hs Hb Ht Ht' Hh Ha Hw. split.
    - rewrite (serve_handles dumps loads save load job_of ops uuid q b fr true s Hs Hb Ht), Hh, Hw. reflexivity.
    - apply (client_answer dumps loads job_of q a ab (handle_kind job_of ops uuid q s s' a Hh) Ha Hw). exact Ht'.
  Qed.
  (** A handler that raises: the connection is closed without an answer, and the client's method reports failure (or,
      for the next chunk, the end: see C48). *)
  Theorem C41_handler_raises (q : creq Ob Ar) b uuid s s' e fr fr' :
    sent_ok dumps loads save load q -> client_write dumps save q = inl b -> timely fr -> timely fr' ->
    handle uuid (seen q) s = (s', inr e) ->
    serve uuid (mkReader b true fr) s = (s', []) /\ snd (client_read loads job_of q (mkReader [] false fr')) = no_answer q.
  Proof.
    intros Hs Hb Ht Ht' Hh. split.
    - rewrite (serve_handles dumps loads save load job_of ops uuid q b fr true s Hs Hb Ht), Hh. reflexivity.
    - apply client_no_answer, Ht'.
  Qed.
  (** Task numbers no request has (17 and above, negative, and 3, which the enumeration contains but no handler serves)
      change nothing, whatever follows them. *)
  Theorem C41_unknown_task t b rest op fr uuid s : ~ In t [0; 1; 2; 4; 5; 6; 7; 8; 9; 10; 11; 12; 13; 14; 15; 16] -> write_int t IDN = inl b ->
    serve uuid (mkReader (b ++ rest) op fr) s = (s, []).
  Proof.
    intros Hq Hb. destruct (int_back IDN t b idn1 Hb) as [R _]. unfold ServerModel.serve, read_request.
    destruct (read_int IDN (mkReader (b ++ rest) op fr)) as [r1 o] eqn:E. apply R in E. destruct E as [(-> & _)|(-> & _)]; [|reflexivity]. cbn [rbind].
    assert (Hk : known_task t = false).
    { destruct (known_task t) eqn:K; [exfalso|reflexivity]. unfold known_task in K. apply andb_true_iff in K as [K1 K2]. apply andb_true_iff in K1 as [K0 K1].
      apply Z.leb_le in K0, K1. assert (t <> 3) by (intros ->; discriminate K2). apply Hq. cbn. clear -K0 K1 H. lia. }
    rewrite Hk. reflexivity.
  Qed.
  Theorem C41_task_numbers (q : creq Ob Ar) : In (task_no q) [0; 1; 2; 4; 5; 6; 7; 8; 9; 10; 11; 12; 13; 14; 15; 16].
  Proof. destruct q; cbn; tauto. Qed.
  (** A request whose connection broke at any point: either nothing is handled, or a handler sees fields that are what
      the client wrote or are missing, never other values. *)
  Theorem C41_truncated (q : creq Ob Ar) b part lost fr sq : sent_ok dumps loads save load q -> client_write dumps save q = inl b -> b = part ++ lost ->
    snd (read_request loads load (mkReader part false fr)) = inl (Some sq) -> partly q sq.
  Proof.
    intros Hs Hb E H. destruct (read_request loads load (mkReader part false fr)) as [r' res] eqn:Er. cbn in H. subst res.
    destruct (request_fuzzy dumps loads save load q b Hs Hb part lost fr r' _ E Er) as [[e X]|(a & X & Ha)]; [discriminate|]. injection X as <-. exact Ha.
  Qed.

  (** ** C42 *)
  (** For all interleavings: the status answered for a job is the result of its last registration or restore that
      ended, unless a restore was requested since; it is "in progress" if there is none. *)
  Theorem C42_status_exact evs st s ls l1 j v l2 : history evs (init st) = (s, ls) -> ls = l1 ++ LPoll j v :: l2 ->
    v = code_of (last_result j l1 None).
  Proof. intros H E. apply (history_status dumps loads load job_of ops evs (init st) s ls j (NoDup_nil _) H l1 v l2 E). Qed.
  (** A job registered (or restored) once: in progress until that ended, then exactly its result.  Partial: for a job
      with several registrations or restores see the refutations. *)
  Theorem C42_single_partial evs st s ls l1 j v l2 : history evs (init st) = (s, ls) -> ls = l1 ++ LPoll j v :: l2 -> (starts j l1 <= 1)%nat ->
    (v = 0 <-> forall b, ~ In (LEnd j b) l1) /\ (v = 1 <-> In (LEnd j true) l1) /\ (v = 2 <-> In (LEnd j false) l1).
  Proof.
    intros H E Hs. pose proof (C42_status_exact evs st s ls l1 j v l2 H E) as Hv.
    assert (Hc : forall a c, l1 = a ++ c -> (ended j a <= starts j a)%nat).
    { intros a c Ea. pose proof (history_count dumps loads load job_of ops evs (init st) s ls j H a (c ++ LPoll j v :: l2)) as X. cbn [queued] in X.
      unfold queued in X. cbn in X. apply X. rewrite E, Ea, <- app_assoc. reflexivity. }
    pose proof (single_result j l1 Hc Hs) as Hr. destruct (last_result j l1 None) as [[]|] eqn:El; cbn in Hv; subst v.
    - split; [|split]; split; try discriminate; try tauto.
      + intros X. exfalso. apply (X true). apply Hr. reflexivity.
      + intros _. apply Hr. reflexivity.
      + intros X. apply Hr in X. discriminate.
    - split; [|split]; split; try discriminate; try tauto.
      + intros X. exfalso. apply (X false). apply Hr. reflexivity.
      + intros X. apply Hr in X. discriminate.
      + intros _. apply Hr. reflexivity.
    - split; [|split]; split; try discriminate; try tauto.
      + intros _ b X. apply Hr in X. discriminate.
      + intros X. apply Hr in X. discriminate.
      + intros X. apply Hr in X. discriminate.
  Qed.
  (** What ended: the task of that job whose thread ran last.  It ended with success only if the query was executed and
      accepted (or the checkpoint restored), and with failure only if it was not (or, for a restore, if the restored
      job was gone). *)
  Theorem C42_end_is_truthful evs st s ls l1 j b l2 : history evs (init st) = (s, ls) -> ls = l1 ++ LEnd j b :: l2 ->
    exists t st' la lb, l1 = la ++ LRun t st' :: lb /\ (forall t' st', ~ In (LRun t' st') lb) /\ (forall j b', ~ In (LEnd j b') lb)
      /\ task_job job_of t = j /\ (b = true -> worked ops t st')
      /\ (b = false -> ~ worked ops t st' \/ exists jb ck st2 e, t = TRestore jb ck /\ so_distributor ops jb st2 = inr e).
  Proof. intros H E. apply (history_run dumps loads load job_of ops evs (init st) s [] ls I H l1 j b l2 E). Qed.
  (** The same for dataset registrations: the id is fresh for each, so the status is exact. *)
  Theorem C42_dataset_status evs st s ls l1 u v l2 : history evs (init st) = (s, ls) -> ls = l1 ++ LDPoll u v :: l2 ->
    v = code_of (last_dresult u l1 None).
  Proof. intros H E. apply (history_dstatus dumps loads load job_of ops evs (init st) s ls u H l1 v l2 E). Qed.
  (** Every accepted dataset registration ends at most once, at no time have more ended than were accepted, and what has
      not ended is still pending. *)
  Theorem C42_dataset_runs_once evs st s ls u : history evs (init st) = (s, ls) ->
    (forall l1 l2, ls = l1 ++ l2 -> (dends u l1 <= dstarts u l1)%nat)
    /\ (sv_dtasks s = [] -> dends u ls = dstarts u ls).
  Proof.
    intros H. split.
    - intros l1 l2 E. pose proof (history_dcount dumps loads load job_of ops evs (init st) s ls u H l1 l2 E) as X. exact X.
    - intros E. pose proof (history_dcount_eq dumps loads load job_of ops evs (init st) s ls u H) as X. rewrite E in X. exact X.
  Qed.

  (** ** C48 *)
  (** One request for the next chunk, delivered whole, handled without error: the client sees the end exactly if the
      server's distributor has no further chunk, and otherwise the chunk. *)
  Theorem C48_next_partial job dp nd w b uuid s s' c ab fr fr' :
    sent_ok dumps loads save load (CNextChunk job dp nd w) -> client_write dumps save (CNextChunk job dp nd w) = inl b -> timely fr -> timely fr' ->
    handle uuid (SNextChunk (Some job) (Some dp) (Some nd) (Some w)) s = (s', inl (ABytes c)) ->
    match c with Some x => x <> [] /\ fits SZN (Z.of_nat (length x)) /\ loads x <> None | None => True end ->
    serve uuid (mkReader b true fr) s = (s', ab) ->
    let got := snd (client_read loads job_of (CNextChunk (Ar:=Ar) job dp nd w) (mkReader ab false fr')) in
    (got = inl (RObj None) <-> c = None) /\ (forall x, c = Some x -> exists o, loads x = Some o /\ got = inl (RObj (Some o))).
  Proof.
    intros Hs Hb Ht Ht' Hh Hc Hsv. cbv zeta.
    assert (Ha : answer_ok dumps loads (ABytes c)) by (destruct c; cbn in *; tauto).
    assert (Hw : write_answer dumps (ABytes c) = inl ab /\ exists ab', write_answer dumps (ABytes c) = inl ab').
    { rewrite (serve_handles dumps loads save load job_of ops uuid _ b fr true s Hs Hb Ht) in Hsv. cbn [seen] in Hsv. rewrite Hh in Hsv.
      assert (Hex : exists ab', write_answer dumps (ABytes c) = inl ab').
      { destruct c as [x|]; cbn [write_answer write_bytes_obj]; [|eexists; reflexivity]. destruct Hc as (_ & Hf & _).
        destruct (to_bytes_ok SZN (Z.of_nat (length x)) szn1 (Zle_0_nat _) Hf) as [-> _]. eexists. reflexivity. }
      split; [|exact Hex]. destruct Hex as (ab' & E'). rewrite E' in Hsv. injection Hsv as <-. exact E'. }
    destruct Hw as [Hw _].
    destruct (C41_exchange (CNextChunk job dp nd w) b uuid s s' (ABytes c) ab fr fr' Hs Hb Ht Ht' Hh Ha Hw) as [_ ->]. cbn [result].
    destruct c as [x|].
    - destruct Hc as (_ & _ & Hl). destruct (loads x) as [o|] eqn:El; [|congruence]. split; [split; discriminate|]. intros x' [= <-]. exists o. auto.
    - split; [tauto|discriminate].
  Qed.

  (** server_connection.py 251-267 _stream_result_chunks: chunks until None.  Second component: the generator ended. *)
  Fixpoint client_stream (got : list (cres Ob + nexn)) : list Ob * bool :=
    match got with
    | inl (RObj (Some o)) :: got' => let '(l, e) := client_stream got' in (o :: l, e)
    | inl (RObj None) :: _ => ([], true)
    | _ => ([], false)                                   (* raised, or not yet ended *)
    end.
  (** A stream all of whose requests are delivered and handled, interleaved with anything else on the server: the
      client sees the server's chunks up to the end, and sees the end exactly if the server reported it. *)
  Theorem C48_stream_partial job dp nd w b (rounds : list (str * server Ob St D * server Ob St D * list (option nat) * list (option nat) * option (list Z))) :
    sent_ok dumps loads save load (CNextChunk job dp nd w) -> client_write dumps save (CNextChunk job dp nd w) = inl b ->
    Forall (fun '(uuid, s, s', fr, fr', c) => timely fr /\ timely fr' /\ handle uuid (SNextChunk (Some job) (Some dp) (Some nd) (Some w)) s = (s', inl (ABytes c))
              /\ match c with Some x => x <> [] /\ fits SZN (Z.of_nat (length x)) /\ loads x <> None | None => True end) rounds ->
    let got := map (fun '(uuid, s, s', fr, fr', c) => snd (client_read loads job_of (CNextChunk (Ar:=Ar) job dp nd w) (mkReader (snd (serve uuid (mkReader b true fr) s)) false fr'))) rounds in
    let answers := map (fun '(_, _, _, _, _, c) => c) rounds in
    (snd (client_stream got) = true <-> In None answers)
    /\ (forall chunks : list (list Z), forall rest, answers = map Some chunks ++ None :: rest -> map Some (fst (client_stream got)) = map loads chunks).
  Proof.
    intros Hs Hb HF. cbv zeta. induction HF as [|[[[[[uuid s] s'] fr] fr'] c] rounds (Ht & Ht' & Hh & Hc) HF IH].
    - cbn. split; [split; [discriminate|intros []]|]. intros chunks rest E. destruct chunks; discriminate.
    - cbn [map]. destruct (C48_next_partial job dp nd w b uuid s s' c (snd (serve uuid (mkReader b true fr) s)) fr fr' Hs Hb Ht Ht' Hh Hc) as [H1 H2].
      { rewrite (serve_handles dumps loads save load job_of ops uuid _ b fr true s Hs Hb Ht). cbn [seen]. rewrite Hh. reflexivity. }
      destruct c as [x|].
      + destruct (H2 x eq_refl) as (o & El & Eg). rewrite Eg. cbn [client_stream]. destruct IH as [IH1 IH2].
        destruct (client_stream (map _ rounds)) as [l e] eqn:Ec. cbn [fst snd] in *. split.
        * rewrite IH1. cbn. split; [auto|]. intros [X|X]; [discriminate|exact X].
        * intros [|y chunks] rest E; [discriminate|]. injection E as -> E. cbn [map]. rewrite El. f_equal. apply (IH2 chunks rest E).
      + rewrite (proj2 H1 eq_refl). cbn. split; [tauto|]. intros [|y chunks] rest E; [reflexivity|discriminate].
  Qed.
End Theorems.

(** ** A small concrete server, for the refutations and the examples: the stub's state is the number of chunks left
    for each executed job; objects are strings, a query is its job id. *)
Definition tdumps (o : str) : list Z := 1 :: o.
Definition tloads (b : list Z) : option str := match b with 1 :: o => Some o | _ => None end.
Definition tops : stub str str (list (str * Z)) str :=
  mkStub
    (fun q _ dp nodes workers st =>
       match dp, nodes, workers with
       | Some dp, Some nodes, Some workers => if amem str_eqb q st then (st, inl false) else (aset str_eqb q 2 st, inl true)
       | _, _, _ => (st, inr OtherError)
       end)
    (fun j c st => match j, c with Some j, Some c => (aset str_eqb j 5 st, inl tt) | _, _ => (st, inr OtherError) end)
    (fun j st => match j with Some j => if amem str_eqb j st then inl j else inr OtherError | None => inr OtherError end)
    (fun d _ _ _ st => match aget str_eqb d st with
                       | Some n => if n =? 0 then (st, inl None) else (aset str_eqb d (n - 1) st, inl (Some (tdumps [n])))
                       | None => (st, inr OtherError) end)
    (fun j st => match j with Some j => inl j | None => inr OtherError end)
    (fun i _ _ _ _ st => match i with Some [] | None => (st, inr OtherError) | Some _ => (st, inl true) end)
    (fun _ _ st => (st, inl true)) (fun _ _ => inl true) (fun st => inl [7]) (fun _ st => (st, inl false))
    (fun _ _ _ _ _ _ _ _ _ _ _ st => (st, inl true))
    (fun _ _ _ _ st => (st, inl [67])) (fun _ _ _ st => (st, inl true)) (fun j _ _ _ _ st => (st, inl (match j with Some j => amem str_eqb j st | None => false end)))
    (fun p => inl p).
Definition tsave (a : str) : list Z := 9 :: a.
Definition tload (b : list Z) : option str := match b with 9 :: a => Some a | _ => None end.
Definition tserver := server str (list (str * Z)) str.
Definition tjob (o : str) : str := o.
Definition tsend (q : creq str str) : reader := mkReader (match client_write tdumps tsave q with inl b => b | inr _ => [] end) true [Some 3%nat].
Definition thist evs := history tdumps tloads tload tjob tops evs (init []).
Definition reg j := EServe [99] (tsend (CRegisterQuery [0] 1 1 0 j)).
Definition poll j := EServe [99] (tsend (CQueryStatus j)).
Definition restore j := EServe [99] (tsend (CRestore j [5])).
Definition jobA : str := [65].

(** A second registration of a running job turns its status into "failed" although the job runs. *)
Theorem C42_duplicate_refuted : exists evs s l1 l2, thist evs = (s, l1 ++ LPoll (Some jobA) 2 :: l2)
  /\ In (LEnd (Some jobA) true) l1 /\ aget str_eqb jobA (sv_stub s) = Some 2 /\ sv_queue s = [] /\ (exists l0 l3, l1 = l0 ++ LPoll (Some jobA) 1 :: l3).
Proof.
  exists [reg jobA; ERun; EFinish; poll jobA; reg jobA; ERun; EFinish; poll jobA]. eexists. eexists [_; _; _; _; _; _; _], []. split; [vm_compute; reflexivity|].
  split; [vm_compute; tauto|]. split; [vm_compute; reflexivity|]. split; [vm_compute; reflexivity|]. eexists [_; _; _], _. reflexivity.
Qed.
(** While a second registration of a job is still running, the status says that it has succeeded. *)
Theorem C42_pending_refuted : exists evs s l1 l2, thist evs = (s, l1 ++ LPoll (Some jobA) 1 :: l2) /\ sv_queue s <> [] /\ Forall (fun t => task_job tjob t = Some jobA) (sv_queue s).
Proof.
  exists [reg jobA; ERun; EFinish; reg jobA; poll jobA]. eexists. eexists [_; _; _; _], []. split; [vm_compute; reflexivity|].
  split; [vm_compute; discriminate|]. vm_compute. repeat constructor.
Qed.
(** A restore requested while the job's registration is still queued: the poll reports the registration's success as
    if the restore had ended. *)
Theorem C42_restore_refuted : exists evs s l1 l2, thist evs = (s, l1 ++ LPoll (Some jobA) 1 :: l2) /\ sv_queue s = [TRestore (Some jobA) (Some [5])].
Proof.
  exists [reg jobA; restore jobA; ERun; EFinish; poll jobA]. eexists. eexists [_; _; _; _], []. split; vm_compute; reflexivity.
Qed.
(** A restore request that is cut after the job id erases the status of a running job and then marks it as failed. *)
Theorem C41_truncated_restore_effect : exists part lost, match client_write tdumps tsave (CRestore jobA [5]) with inl b => b = part ++ lost | inr _ => False end /\ lost <> []
  /\ exists s l1 l2, thist [reg jobA; ERun; EFinish; poll jobA; EServe [99] (mkReader part false []); ERun; EFinish; poll jobA] = (s, l1 ++ LPoll (Some jobA) 2 :: l2)
  /\ In (LPoll (Some jobA) 1) l1.
Proof.
  exists (be 8 15 ++ be 8 1 ++ jobA), (be 8 1 ++ [5]). split; [vm_compute; reflexivity|]. split; [discriminate|].
  eexists. eexists [_; _; _; _; _; _; _], []. split; [vm_compute; reflexivity|]. vm_compute. tauto.
Qed.
(** Feedback for a job the server does not know is acknowledged as a success: the stub's answer is dropped. *)
Theorem C41_feedback_unknown_job : exists b, client_write tdumps tsave (CFeedback jobA 1 0 None None) = inl b
  /\ snd (so_feedback tops (Some jobA) (Some 1) (Some 0) None None []) = inl false
  /\ (let '(s, ab) := serve tdumps tloads tload tjob tops [99] (mkReader b true []) (init []) in
      snd (client_read tloads tjob (CFeedback (Ar:=str) jobA 1 0 None None) (mkReader ab false [])) = inl (RBool true)).
Proof. eexists. split; [vm_compute; reflexivity|]. split; vm_compute; reflexivity. Qed.

(** C48 is false: a client that asks while its query's registration is still pending (or whose request makes the server
    raise for any other reason) sees the end of its stream, although the server then has chunks for it; *)
Theorem C48_server_error_refuted : exists b ab s1 s2, client_write tdumps tsave (CNextChunk jobA 0 0 0) = inl b
  /\ fst (thist [reg jobA]) = s1 /\ serve tdumps tloads tload tjob tops [99] (mkReader b true []) s1 = (s1, ab)
  /\ client_stream [snd (client_read tloads tjob (CNextChunk (Ar:=str) jobA 0 0 0) (mkReader ab false []))] = ([], true)
  /\ fst (thist [reg jobA; ERun; EFinish]) = s2
  /\ snd (handle tjob tops [99] (SNextChunk (Some jobA) (Some 0) (Some 0) (Some 0)) s2) = inl (ABytes (Some [1; 2])).
Proof. eexists _, _, _, _. split; [vm_compute; reflexivity|]. split; [reflexivity|]. split; [vm_compute; reflexivity|]. split; [vm_compute; reflexivity|]. split; [reflexivity|]. vm_compute. reflexivity. Qed.
(** ... a client whose connection breaks between the header and the chunk sees the end too, and the chunk is lost; *)
Theorem C48_connection_refuted : exists b ab part s s', client_write tdumps tsave (CNextChunk jobA 0 0 0) = inl b
  /\ fst (thist [reg jobA; ERun; EFinish]) = s /\ serve tdumps tloads tload tjob tops [99] (mkReader b true []) s = (s', ab)
  /\ ab = part ++ [1; 2]
  /\ client_stream [snd (client_read tloads tjob (CNextChunk (Ar:=str) jobA 0 0 0) (mkReader part false []))] = ([], true)
  /\ snd (handle tjob tops [99] (SNextChunk (Some jobA) (Some 0) (Some 0) (Some 0)) s') = inl (ABytes (Some [1; 1])).
Proof.
  eexists _, _, _, _, _. split; [vm_compute; reflexivity|]. split; [reflexivity|]. split; [vm_compute; reflexivity|]. split; [|split].
  - instantiate (1 := be 16 2). vm_compute. reflexivity.
  - vm_compute. reflexivity.
  - vm_compute. reflexivity.
Qed.
(** ... and so does a client that cannot connect. *)
Theorem C48_no_connection_refuted : forall (empty : str) job dp nd w, client_stream [client_unconnected (Ar:=str) empty (CNextChunk job dp nd w)] = ([], true).
Proof. reflexivity. Qed.

(** ** The hypotheses are met *)
Lemma str_ok_ex k s : (1 <= k)%nat -> Forall (fun c => 0 <= c < 128) s -> Z.of_nat (length s) < 128 -> str_ok k s.
Proof.
  intros Hk Hs Hl. split.
  - eapply Forall_impl; [|exact Hs]. cbv beta. intros a Ha. left. lia.
  - assert (E : forall x, utf8_encode s = inl x -> length x = length s).
    { clear Hl. induction Hs as [|c s Hc Hs IH]; intros x E; cbn [utf8_encode] in E; [injection E as <-; reflexivity|].
      assert (Ec : utf8_cp c = Some [c]) by (unfold utf8_cp; destruct (Z.ltb_spec c 0); [lia|]; destruct (Z.ltb_spec c 128); [reflexivity|lia]).
      rewrite Ec in E. destruct (utf8_encode s) as [y|]; [|discriminate]. cbn in E. injection E as <-. cbn. f_equal. apply IH. reflexivity. }
    intros x Ex. rewrite (E x Ex). unfold fits. destruct k as [|k]; [lia|]. rewrite Nat2Z.inj_succ, Z.pow_succ_r by lia.
    replace (256 * 256 ^ Z.of_nat k) with (128 * 256 ^ Z.of_nat k * 2) by lia. rewrite Z.div_mul by lia. pose proof (Z.pow_pos_nonneg 256 (Z.of_nat k)). nia.
Qed.
Example C41_ex_sent : sent_ok tdumps tloads tsave tload (CRegisterDataset [100] [47; 120] 1 [3; 4] [112])
  /\ sent_ok tdumps tloads tsave tload (CNextChunk jobA 0 0 0)
  /\ sent_ok tdumps tloads tsave tload (CFeedback jobA 3 0 (Some [1]) None)
  /\ (exists b, client_write tdumps tsave (CRegisterDataset [100] [47; 120] 1 [3; 4] [112]) = inl b).
Proof.
  assert (O : forall o, Z.of_nat (length o) < 100 -> obj_ok tdumps tloads o).
  { intros o Ho. split; [reflexivity|]. unfold fits. cbn [tdumps length]. change (256 ^ Z.of_nat SZN / 2) with 170141183460469231731687303715884105728. lia. }
  split; [|split; [|split]].
  - cbn [sent_ok]. split; [apply str_ok_ex; [unfold IDN; lia|repeat constructor; lia|reflexivity]|]. split; [apply str_ok_ex; [unfold IDN; lia|repeat constructor; lia|reflexivity]|].
    split; [cbn; auto|]. split; [apply O; reflexivity|apply str_ok_ex; [unfold IDN; lia|repeat constructor; lia|reflexivity]].
  - apply str_ok_ex; [unfold IDN; lia|repeat constructor; lia|reflexivity].
  - cbn [sent_ok]. split; [apply str_ok_ex; [unfold IDN; lia|repeat constructor; lia|reflexivity]|]. split; [|exact I]. cbn. split; [reflexivity|]. split; [discriminate|reflexivity].
  - eexists. vm_compute. reflexivity.
Qed.
(** A whole exchange on the concrete server, fragmented. *)
Example C41_ex_exchange : let s := fst (thist [reg jobA; ERun; EFinish]) in
  handle tjob tops [99] (seen (CNextChunk jobA 0 0 0)) s = (set_stub (set_dmap s [(Some jobA, jobA)]) [(jobA, 1)], inl (ABytes (Some [1; 2])))
  /\ snd (client_read tloads tjob (CNextChunk (Ar:=str) jobA 0 0 0) (mkReader (snd (serve tdumps tloads tload tjob tops [99] (tsend (CNextChunk jobA 0 0 0)) s)) false [Some 2%nat; Some 4%nat])) = inl (RObj (Some [2])).
Proof. split; vm_compute; reflexivity. Qed.
(** Statuses over time: in progress, succeeded; another job failed. *)
Example C42_ex : snd (thist [poll jobA; reg jobA; poll jobA; ERun; poll jobA; EFinish; poll jobA; EServe [99] (tsend (CRestore [66] [5])); EServe [98] (tsend (CRegisterDataset [] [1] 1 [3] [4])); EServe [98] (tsend (CDatasetStatus [98])); EDataset 0; EServe [98] (tsend (CDatasetStatus [98]))])
  = [LPoll (Some jobA) 0; LStart (Some jobA) false; LPoll (Some jobA) 0; LRun (TRegister jobA (Some [0]) (Some 1) (Some 1) (Some 0)) []; LPoll (Some jobA) 0; LEnd (Some jobA) true; LPoll (Some jobA) 1;
     LStart (Some [66]) true; LDStart [98]; LDPoll (Some [98]) 0; LDEnd [98] false; LDPoll (Some [98]) 2].
Proof. vm_compute. reflexivity. Qed.

Print Assumptions C41_request.
Print Assumptions C41_exchange.
Print Assumptions C41_handler_raises.
Print Assumptions C41_unknown_task.
Print Assumptions C41_task_numbers.
Print Assumptions C41_truncated.
Print Assumptions C41_truncated_restore_effect.
Print Assumptions C41_feedback_unknown_job.
Print Assumptions C42_status_exact.
Print Assumptions C42_single_partial.
Print Assumptions C42_end_is_truthful.
Print Assumptions C42_dataset_status.
Print Assumptions C42_dataset_runs_once.
Print Assumptions C42_duplicate_refuted.
Print Assumptions C42_pending_refuted.
Print Assumptions C42_restore_refuted.
Print Assumptions C48_next_partial.
Print Assumptions C48_stream_partial.
Print Assumptions C48_server_error_refuted.
Print Assumptions C48_connection_refuted.
Print Assumptions C48_no_connection_refuted.
