(** C25, C26, C27: tokenizing and prefetching iterators.  Model: TokenModel.v, specification: SpecToken.v. *)
From Verif Require Import Base ChunkGenModel TokenModel SpecToken TokenProofs TokenProofs2 TokenProofs3.
Local Open Scope nat_scope.

(** C25.  The synchronous iterator, read to its end, yields exactly [token_spec] of the concatenated tokens and then
    StopIteration, whatever the batch size. *)
Theorem C25_token_windows {A} (c : tkcfg A) (X : list A) :
  1 <= tk_len c -> 1 <= tk_batch c ->
  exists n0 fuel0, forall n fuel, n0 <= n -> fuel0 <= fuel ->
    tk_drain n fuel c (tk_init (X, None)) =
      (token_spec (tk_len c) (tk_overlap c) (tk_one c) (token_stream (tk_ids c) X), StopIter).
Proof. intros H1 H2. apply sync_spec; assumption. Qed.

(** C25.  What the specification says: the windows are exactly the runs of [n] consecutive tokens that start [step]
    apart and fit; disjoint windows concatenated are the tokens without an incomplete tail. *)
Theorem C25_windows_are_consecutive n step T i w :
  1 <= step ->
  nth_error (all_windows n step T) i = Some w <->
  i * step + n <= length T /\ length w = n /\ forall j, j < n -> nth_error w j = nth_error T (i * step + j).
Proof. apply all_windows_nth. Qed.
Theorem C25_windows_lose_only_tail n T :
  1 <= n -> exists k, concat (all_windows n n T) = firstn (k * n) T /\ length T < k * n + n.
Proof. intros H. exists (window_count n n T). apply all_windows_disjoint, H. Qed.

(** C25.  Each sample contributes its own tokens, with bos before and eos after if asked for. *)
Theorem C25_special_tokens {A} (c : tkcfg A) a :
  tk_valid c = true ->
  exists b e, tk_ids c a = b ++ tk_encode c a ++ e
    /\ (if tk_bos c then exists x, tk_bos_id c = Some x /\ b = [x] else b = [])
    /\ (if tk_eos c then exists x, tk_eos_id c = Some x /\ e = [x] else e = []).
Proof.
  intros H. unfold tk_valid in H. exists (opt_list (tk_bos c) (tk_bos_id c)), (opt_list (tk_eos c) (tk_eos_id c)).
  split; [reflexivity|]. unfold opt_list.
  destruct (tk_bos c), (tk_eos c), (tk_bos_id c), (tk_eos_id c); cbn in H; try discriminate; split; eauto.
Qed.

(** C25.  If reading a sample fails, the error is raised; only first windows were handed out before. *)
Theorem C25_source_error {A} (c : tkcfg A) (X : list A) e :
  1 <= tk_len c -> 1 <= tk_batch c ->
  exists n0 fuel0, forall n fuel, n0 <= n -> fuel0 <= fuel ->
    exists k, tk_drain n fuel c (tk_init (X, Some e)) =
      (firstn k (all_windows (tk_len c + 1) (tk_step c) (token_stream (tk_ids c) X)), Raise e).
Proof. intros H1 H2. apply sync_spec_fail; assumption. Qed.

Definition ex_cfg (b : nat) (ov one : bool) : tkcfg (list Z) := mkTk (fun x => x) 3 b one ov true (Some 99%Z) false None.
Example C25_ex_overlap : tk_drain 9 9 (ex_cfg 2 true true) (tk_init ([[1;2];[3];[4;5;6]]%Z, None))
  = ([[1;2;99;3];[3;99;4;5]]%Z, StopIter) .
Proof. vm_compute. reflexivity. Qed.
Example C25_ex_disjoint : tk_drain 9 9 (ex_cfg 1 false true) (tk_init ([[1;2];[3];[4;5;6]]%Z, None))
  = ([[1;2;99;3];[99;4;5;6]]%Z, StopIter) .
Proof. vm_compute. reflexivity. Qed.
Example C25_ex_pad : tk_drain 9 9 (ex_cfg 1 false true) (tk_init ([[1]]%Z, None)) = ([[1;99;1;99]]%Z, StopIter).
Proof. vm_compute. reflexivity. Qed.
Example C25_ex_nonvacuous : 1 <= tk_len (ex_cfg 2 true true) /\ 1 <= tk_batch (ex_cfg 2 true true) /\ tk_valid (ex_cfg 2 true true) = true.
Proof. vm_compute. auto. Qed.
Print Assumptions C25_token_windows.
Print Assumptions C25_windows_are_consecutive.
Print Assumptions C25_windows_lose_only_tail.
Print Assumptions C25_special_tokens.
Print Assumptions C25_source_error.

(** C26.  For a source that does not fail, under every schedule of the two threads: what was handed out is the beginning
    of what the synchronous iterator yields, all of it once the consumer saw StopIteration; until then some thread can
    run, and no schedule has more than [N] effective turns (so every scheduler that runs a runnable thread finishes). *)
Theorem C26_threaded_partial {A} (c : tkcfg A) (X : list A) :
  1 <= tk_len c -> 1 <= tk_batch c ->
  exists n0 fuel0 N, forall n fuel, n0 <= n -> fuel0 <= fuel ->
  exists sync, tk_drain n fuel c (tk_init (X, None)) = (sync, StopIter) /\
  forall sched, let s := th_run c sched (th_init (X, None)) in
    th_out s = firstn (length (th_out s)) sync
    /\ (th_c s = CDone -> th_out s = sync)
    /\ (th_c s <> CDone -> can_run c s)
    /\ effective c sched (th_init (X, None)) <= N.
Proof.
  intros H1 H2. destruct (sync_spec c H1 H2 X) as (n0 & f0 & Hs). destruct (threaded_spec c H1 H2 X) as (N & Ht).
  exists n0, f0, N. intros n fuel Hn Hf. eexists. split; [apply Hs; assumption|]. exact Ht.
Qed.

(** C26 is false when reading a sample fails: the synchronous iterator raises the error, the threaded one reports
    nothing under any schedule, and reaches a state in which no thread can run (the consumer waits for ever). *)
Theorem C26_threaded_failure_refuted :
  exists (c : tkcfg (list Z)) (e : exn),
    tk_drain 2 2 c (tk_init ([], Some e)) = ([], Raise e)
    /\ (forall sched, th_c (th_run c sched (th_init ([], Some e))) <> CDone)
    /\ (exists sched, ~ can_run c (th_run c sched (th_init ([], Some e)))).
Proof.
  exists (ex_cfg 2 true true), RuntimeError. split; [vm_compute; reflexivity|]. split.
  - intros sched. eapply threaded_fail_stuck with (e := RuntimeError); cbn; auto; discriminate.
  - exists [Producer; Consumer]. intros (w & s' & H). destruct w; vm_compute in H; discriminate.
Qed.

Example C26_ex : let s := th_run (ex_cfg 2 true true) [Consumer; Producer; Consumer; Producer; Consumer; Consumer; Producer; Consumer; Consumer]
                              (th_init ([[1;2];[3];[4;5;6]]%Z, None)) in
  th_out s = [[1;2;99;3];[3;99;4;5]]%Z /\ th_c s = CDone.
Proof. vm_compute. auto. Qed.
Print Assumptions C26_threaded_partial.
Print Assumptions C26_threaded_failure_refuted.

(** C27.  If the first item is not Python's None and reading the first item does not fail, then under every schedule:
    what was yielded is a beginning of the wrapped items; at StopIteration it is all of them and the wrapped iterator
    ended normally; an exception is the wrapped iterator's, after all its items; and the consumer is done after
    |items|+1 calls once the thread ran. *)
Theorem C27_prefetch_partial {A} (is_none : A -> bool) (X : list A) (f : option exn) :
  match X with a :: _ => is_none a = false | [] => f = None end ->
  (forall sched out r, pf_run is_none sched (pf_init (X, f)) [] = (out, r) ->
     match r with
     | Yield _ => exists k, out = firstn k X
     | StopIter => out = X /\ f = None
     | Raise e => out = X /\ f = Some e
     end)
  /\ (forall s1 s2, length X < length (filter is_consumer s2) ->
        exists out r, pf_run is_none (s1 ++ Producer :: s2) (pf_init (X, f)) [] = (out, r) /\ r <> Yield tt).
Proof.
  intros Hok. split.
  - intros sched out r H. pose proof (pf_run_spec is_none X f Hok sched _ [] out r (PfInv_init is_none X f) H) as Hs.
    destruct r as [u| |e]; auto. apply Hs.
  - intros s1 s2 Hl. apply (pf_finishes is_none X f Hok s1 s2 Hl).
Qed.

(** C27 is false if the first item is None (the stream ends at once) or if reading the first item fails (the stream
    ends as if it were empty; the error is lost). *)
Theorem C27_first_none_refuted :
  exists (X : list (option Z)) sched,
    pf_run (fun o => match o with None => true | _ => false end) sched (pf_init (X, None)) [] = ([], StopIter) /\ length X = 2.
Proof. exists [None; Some 1%Z], [Producer; Consumer]. vm_compute. auto. Qed.
Theorem C27_first_error_refuted (is_none : Z -> bool) e sched out r :
  pf_run is_none (Producer :: Consumer :: sched) (pf_init ([], Some e)) [] = (out, r) -> out = [] /\ r = StopIter.
Proof. cbn. intros [= <- <-]. auto. Qed.

Example C27_ex : pf_run (fun _ : Z => false) [Consumer; Producer; Consumer; Consumer; Consumer] (pf_init ([5;6]%Z, Some KeyError)) []
  = ([5;6]%Z, Raise KeyError).
Proof. vm_compute. reflexivity. Qed.
Print Assumptions C27_prefetch_partial.
Print Assumptions C27_first_none_refuted.
Print Assumptions C27_first_error_refuted.
