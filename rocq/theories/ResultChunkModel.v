(** Model of mixtera/core/query/result_chunk.py: ResultChunk.

    Keys are canonical MixtureKeys (see ChunkGenModel).  [fl] is the rounding of one float operation.  The readers are an
    oracle [read d f rs] (what read_ranges_from_files yields for file [f] of dataset [d] restricted to ranges [rs], C28).
    random.shuffle after seed_everything_from_list is a fixed permutation of its argument: an oracle ([shuffles]). *)
From Verif Require Import Base MixtureKeyModel UtilsModel ChunkGenModel MixtureModel SpecRoundRobin TokenModel.
From Coq Require Import QArith.
Open Scope Z_scope.

(** result_chunk.py 31. *)
Definition workload := (Z * Z * list range)%type.

(** The seeded shuffles of 398-399, 452-453 and 618-619. *)
Record shuffles := mkShuf {
  sh_work : mkey -> list workload -> list workload;
  sh_keys : list mkey -> list mkey;
  sh_counts : list (mkey * Z) -> list (mkey * Z) }.

(** result_chunk.py 601-621 _prepare_workloads.  The index is a dict: its keys are distinct. *)
Definition flat_work (p : part) : list workload :=
  flat_map (fun df => map (fun fr => (fst df, fst fr, snd fr)) (snd df)) p.
(** result_chunk.py 609-621. *)
Definition prepare_workloads (sh : shuffles) (idx : index) : list (mkey * list workload) :=
  map (fun kp => (fst kp, sh_work sh (fst kp) (flat_work (snd kp)))) idx.

(** result_chunk.py 467-489 _get_element_counts. *)
Definition element_counts (fl : Q -> Q) (window csize : Z) (mix : list (mkey * Z)) : res (list (mkey * Z)) :=
  if (csize =? 0) && negb (Nat.eqb (length mix) 0) then Err ZeroDivisionError
  else
    let initial := map (fun kv => (fst kv, qtrunc (fl (inject_Z window * fl (inject_Z (snd kv) / inject_Z csize))%Q))) mix in
    let remainder := window - zsum (map snd initial) in
    Ok (match initial with [] => [] | (k, n) :: l => (k, n + remainder) :: l end).

(** result_chunk.py 325-348 _get_process_counts; [cpu] = mp.cpu_count(). *)
Definition process_counts (fl : Q -> Q) (dop cpu csize : Z) (mix : list (mkey * Z)) : res (list (mkey * Z)) :=
  if (csize =? 0) && negb (Nat.eqb (length mix) 0) then Err ZeroDivisionError
  else
    let readers := Z.min dop cpu in
    let counts := map (fun kv => (fst kv, qtrunc (fl (fl (inject_Z (snd kv) / inject_Z csize) * inject_Z readers)%Q))) mix in
    match counts with
    | [] => Err IndexError
    | (k, n) :: l => Ok ((k, n + (readers - zsum (map snd counts))) :: l)
    end.

(** Python [list(range(0, stop, step))] for [step >= 1], and [l[a:b]]. *)
Definition py_range (stop step : nat) : list nat := map (fun i => (i * step)%nat) (seq 0 ((stop + step - 1) / step)).
(** result_chunk.py 540: [l[a:b]]. *)
Definition slice {B} (l : list B) (a b : nat) : list B := firstn (b - a) (skipn a l).

(** result_chunk.py 508-544 (in _spin_up_readers): the workloads of the reader processes of one key. *)
Definition partitions (ws : list workload) (process_count : Z) : list (list workload) :=
  let pc := if process_count <? 1 then 1 else process_count in                                       (* 511-518 *)
  let size := Nat.max 1 (length ws / Z.to_nat pc) in                                                 (* 521 *)
  let ranges := py_range (length ws) size ++ [length ws] in                                          (* 522 *)
  map (fun i => slice ws (nth (i - 1) ranges 0%nat) (nth i ranges 0%nat)) (seq 1 (length ranges - 1)).   (* 525-541 *)

Section RC.
  Context {A : Type}.
  Variable read : Z -> Z -> list range -> stream A.

  (** result_chunk.py 350-359 _get_iterator_for_workload_st; also the items a reader process puts (576-595). *)
  Fixpoint st_iter (ws : list workload) : stream A :=
    match ws with
    | [] => ([], None)
    | (d, f, rs) :: ws' =>
        match read d f rs with
        | (l, Some e) => (l, Some e)
        | (l, None) => let '(l', f') := st_iter ws' in (l ++ l', f')
        end
    end.

  (** ** Reader processes and the iterator over their queues.
      A process puts its items one by one, then END_OF_STREAM and ends; if reading raises ([pr_fail]) it ends without
      END_OF_STREAM; it may also be killed.  A queue element is [Some a], or [None] for END_OF_STREAM. *)
  (** result_chunk.py 526-547, 576-599: a reader process and its queue. *)
  Record proc := mkProc { pr_todo : list A; pr_fail : bool; pr_queue : list (option A); pr_alive : bool }.
  (** result_chunk.py 553-599 _reader_process at its start. *)
  Definition proc_init (ws : list workload) : proc :=
    let '(l, f) := st_iter ws in mkProc l (match f with Some _ => true | None => false end) [] true.

  (** result_chunk.py 594-599: one [queue.put] of the process, or its end. *)
  Definition proc_turn (p : proc) : option proc :=
    if pr_alive p then
      Some (match pr_todo p with
            | a :: l => mkProc l (pr_fail p) (pr_queue p ++ [Some a]) true
            | [] => mkProc [] (pr_fail p) (if pr_fail p then pr_queue p else pr_queue p ++ [None]) false
            end)
    else None.

  (** result_chunk.py 361-386 _get_iterator_for_workload_mt: [mt_round] = processes not visited yet in this [for],
      [mt_active] = the list [processes], [mt_removed] = processes_to_remove. *)
  Inductive mt_end := MRun | MDone | MError.
  (** result_chunk.py 361-386: the local state of the generator. *)
  Record mtst := mkMt { mt_procs : list (nat * proc); mt_active : list nat; mt_round : list nat; mt_removed : list nat;
                        mt_out : list A; mt_state : mt_end }.
  (** result_chunk.py 361-367: before the first pass. *)
  Definition mt_init (parts : list (list workload)) : mtst :=
    let ids := seq 0 (length parts) in
    mkMt (combine ids (map proc_init parts)) ids ids [] [] (match parts with [] => MDone | _ => MRun end).

  (** result_chunk.py 385-386: membership in processes_to_remove. *)
  Definition nat_mem (i : nat) (l : list nat) : bool := existsb (Nat.eqb i) l.

  (** End of one pass over the processes (385-386) and test of the [while] (366). *)
  Definition mt_pass_end (s : mtst) : mtst :=
    let act := filter (fun i => negb (nat_mem i (mt_removed s))) (mt_active s) in
    mkMt (mt_procs s) act act [] (mt_out s) (match act with [] => MDone | _ => MRun end).

  (** [is_end a]: the sample is equal to the text "END_OF_STREAM" (379). *)
  Variable is_end : A -> bool.
  (** result_chunk.py 368-383: one visit of a process by the consumer; [timeout]: queue.get timed out.  [None] = the consumer is blocked. *)
  Definition mt_visit (timeout : bool) (s : mtst) : option mtst :=
    match mt_state s with
    | MRun =>
        match mt_round s with
        | [] => Some (mt_pass_end s)
        | i :: round' =>
            match aget Nat.eqb i (mt_procs s) with
            | None => None
            | Some p =>
                let put p' out rem := Some (mkMt (aset Nat.eqb i p' (mt_procs s)) (mt_active s) round' rem out MRun) in
                match pr_queue p with
                | [] =>
                    if timeout then
                      if pr_alive p then Some (mkMt (mt_procs s) (mt_active s) (mt_round s) (mt_removed s) (mt_out s) MError)  (* 376-378 *)
                      else put p (mt_out s) (mt_removed s ++ [i])                                                       (* 372-375 *)
                    else None
                | None :: q => put (mkProc (pr_todo p) (pr_fail p) q (pr_alive p)) (mt_out s) (mt_removed s ++ [i])      (* 379-382 *)
                | Some a :: q =>
                    let p' := mkProc (pr_todo p) (pr_fail p) q (pr_alive p) in
                    if is_end a then put p' (mt_out s) (mt_removed s ++ [i])
                    else put p' (mt_out s ++ [a]) (mt_removed s)                                                        (* 383 *)
                end
            end
        end
    | _ => None
    end.

  (** Turns: a process runs, a process is killed, the consumer runs, the consumer's get times out. *)
  (** The interleavings of result_chunk.py 361-386 with the processes of 553-599. *)
  Inductive mt_turn := TProc (i : nat) | TKill (i : nat) | TCons | TTimeout.
  (** result_chunk.py 361-386 and 553-599, one turn / a schedule of turns; a turn that is not possible is skipped. *)
  Definition mt_step (t : mt_turn) (s : mtst) : option mtst :=
    match t with
    | TProc i => match aget Nat.eqb i (mt_procs s) with
                 | Some p => match proc_turn p with
                             | Some p' => Some (mkMt (aset Nat.eqb i p' (mt_procs s)) (mt_active s) (mt_round s) (mt_removed s) (mt_out s) (mt_state s))
                             | None => None end
                 | None => None end
    | TKill i => match aget Nat.eqb i (mt_procs s) with
                 | Some p => if pr_alive p then
                     Some (mkMt (aset Nat.eqb i (mkProc (pr_todo p) (pr_fail p) (pr_queue p) false) (mt_procs s))
                                (mt_active s) (mt_round s) (mt_removed s) (mt_out s) (mt_state s)) else None
                 | None => None end
    | TCons => mt_visit false s
    | TTimeout => mt_visit true s
    end.
  (** result_chunk.py 361-386 and 553-599, one turn / a schedule of turns; a turn that is not possible is skipped. *)
  Fixpoint mt_run (sched : list mt_turn) (s : mtst) : mtst :=
    match sched with
    | [] => s
    | t :: sched' => mt_run sched' (match mt_step t s with Some s' => s' | None => s end)
    end.

  (** What the iterator over the queues yields if no process is killed and no get times out on a living process
      (C24 proves that the schedule does not matter): processes in turns, each up to an "END_OF_STREAM" sample; a
      process that failed is dropped without an error. *)
  Fixpoint until_end (l : list A) : list A :=
    match l with [] => [] | a :: l' => if is_end a then [] else a :: until_end l' end.
  (** result_chunk.py 361-386. *)
  Definition mt_iter (parts : list (list workload)) : stream A :=
    (round_robin (map (fun ws => until_end (fst (st_iter ws))) parts), None).
End RC.
Arguments proc : clear implicits.
Arguments mtst : clear implicits.

Section Iterate.
  Context {S : Type}.

  (** ** Mixing the streams of the keys.  Deleted keys are a set; a stream that raises ends the iteration. *)
  (** result_chunk.py 420, 460: [key in deleted_keys]. *)
  Definition kmem (k : mkey) (l : list mkey) : bool := existsb (mkey_eqb k) l.
  (** result_chunk.py 407, 455: the iterators, deleted_keys, and what was yielded so far. *)
  Record itst := mkIt { it_streams : list (mkey * stream S); it_deleted : list mkey; it_out : list (Z * S) }.

  (** result_chunk.py 427, 463: one [yield self._key_id_map[k], next(active_iterators[k])]. *)
  (** result_chunk.py 425-439, 462-465: yielded, StopIteration, or another exception. *)
  Inductive yres := YOk (st : itst) | YStop (st : itst) | YExn (st : itst) (e : exn).
  (** result_chunk.py 427 and 463; on StopIteration also 437 and 465. *)
  Definition yield_next (kid : list (mkey * Z)) (k : mkey) (st : itst) : yres :=
    match aget mkey_eqb k kid, aget mkey_eqb k (it_streams st) with
    | Some i, Some s =>
        match snext s with
        | (s', Yield a) => YOk (mkIt (aset mkey_eqb k s' (it_streams st)) (it_deleted st) (it_out st ++ [(i, a)]))
        | (s', StopIter) => YStop (mkIt (aset mkey_eqb k s' (it_streams st)) (k :: it_deleted st) (it_out st))
        | (s', Raise e) => YExn st e
        end
    | _, _ => YExn st KeyError
    end.

  (** result_chunk.py 458-465: the [for] over the keys. *)
  Fixpoint ov_pass (kid : list (mkey * Z)) (order : list mkey) (st : itst) : itst * option exn :=
    match order with
    | [] => (st, None)
    | k :: order' =>
        if kmem k (it_deleted st) then ov_pass kid order' st
        else match yield_next kid k st with
             | YOk st' => ov_pass kid order' st'
             | YStop st' => ov_pass kid order' st'
             | YExn st' e => (st', Some e)
             end
    end.

  (** result_chunk.py 457: the [while]; [fuel] bounds the number of passes. *)
  Fixpoint ov_loop (fuel : nat) (kid : list (mkey * Z)) (order : list mkey) (st : itst) : itst * nxt unit :=
    match fuel with
    | O => (st, Raise OutOfFuel)
    | Datatypes.S fuel' =>
        if Nat.ltb (length (it_deleted st)) (length (it_streams st)) then
          match ov_pass kid order st with
          | (st', None) => ov_loop fuel' kid order st'
          | (st', Some e) => (st', Raise e)
          end
        else (st, StopIter)
    end.

  (** result_chunk.py 443-465 _iterate_overall_mixture. *)
  Definition iterate_overall (fuel : nat) (sh : shuffles) (kid : list (mkey * Z)) (streams : list (mkey * stream S))
    : list (Z * S) * nxt unit :=
    let '(st, e) := ov_loop fuel kid (sh_keys sh (map fst streams)) (mkIt streams [] []) in (it_out st, e).

  (** ** Windows.  [w_processed] = processed_items, [w_yielded] = items_yielded, [w_any] = not nothing_yielded_window,
      [w_stop] = outer_stop. *)
  (** result_chunk.py 410-417: the local variables of a window. *)
  Record winst := mkWin { w_it : itst; w_processed : list (mkey * Z); w_yielded : Z; w_any : bool; w_stop : bool }.

  (** result_chunk.py 420: processed_items[property_key]. *)
  Definition processed (k : mkey) (w : winst) : Z := lookup0 k (w_processed w).

  (** result_chunk.py 417-439: the [for] over the element counts; stops when the window is full (433-434). *)
  Fixpoint win_pass (kid : list (mkey * Z)) (window : Z) (counts : list (mkey * Z)) (w : winst) : winst * option exn :=
    match counts with
    | [] => (w, None)
    | (k, n) :: counts' =>
        if kmem k (it_deleted (w_it w)) || (n <=? processed k w) then win_pass kid window counts' w
        else match yield_next kid k (w_it w) with
             | YOk st' =>
                 let w' := mkWin st' (aset mkey_eqb k (processed k w + 1) (w_processed w)) (w_yielded w + 1) true (w_stop w) in
                 if window <=? w_yielded w' then (w', None) else win_pass kid window counts' w'
             | YStop st' => win_pass kid window counts' (mkWin st' (w_processed w) (w_yielded w) (w_any w) true)
             | YExn st' e => (mkWin st' (w_processed w) (w_yielded w) (w_any w) (w_stop w), Some e)
             end
    end.

  (** result_chunk.py 411, 416: [len(active_iterators) > len(deleted_keys)]. *)
  Definition alive (st : itst) : bool := Nat.ltb (length (it_deleted st)) (length (it_streams st)).

  (** result_chunk.py 416-441: the inner [while], one window. *)
  Fixpoint win_inner (fuel : nat) (kid : list (mkey * Z)) (window : Z) (counts : list (mkey * Z)) (w : winst) : winst * option exn :=
    match fuel with
    | O => (w, Some OutOfFuel)
    | Datatypes.S fuel' =>
        if alive (w_it w) && (w_yielded w <? window) then
          match win_pass kid window counts (mkWin (w_it w) (w_processed w) (w_yielded w) false (w_stop w)) with
          | (w', Some e) => (w', Some e)
          | (w', None) => if negb (w_any w') then (w', None) else win_inner fuel' kid window counts w'
          end
        else (w, None)
    end.

  (** result_chunk.py 410-413: the outer [while]. *)
  Fixpoint win_outer (fuel : nat) (kid : list (mkey * Z)) (window : Z) (best : bool) (counts : list (mkey * Z))
    (st : itst) (stop : bool) : itst * nxt unit :=
    match fuel with
    | O => (st, Raise OutOfFuel)
    | Datatypes.S fuel' =>
        if alive st && (best || negb stop) then
          let w0 := mkWin st (map (fun kn => (fst kn, 0)) counts) 0 false stop in
          match win_inner fuel' kid window counts w0 with
          | (w, Some e) => (w_it w, Raise e)
          | (w, None) => win_outer fuel' kid window best counts (w_it w) (w_stop w)
          end
        else (st, StopIter)
    end.

  (** result_chunk.py 388-441 _iterate_window_mixture. *)
  Definition iterate_window (fuel : nat) (fl : Q -> Q) (sh : shuffles) (kid : list (mkey * Z)) (window csize : Z) (best : bool)
    (mix : list (mkey * Z)) (streams : list (mkey * stream S)) : list (Z * S) * nxt unit :=
    match element_counts fl window csize mix with
    | Err e => ([], Raise e)
    | Ok ec =>
        let counts := sh_counts sh ec in
        if negb (forallb (fun kn => amem mkey_eqb (fst kn) streams) counts
                 && forallb (fun ks => kmem (fst ks) (map fst counts)) streams) then ([], Raise AssertionError)   (* 403-405 *)
        else let '(st, e) := win_outer fuel kid window best counts (mkIt streams [] []) false in (it_out st, e)
    end.
End Iterate.
Arguments itst : clear implicits.
Arguments winst : clear implicits.

(** ** The chunk object *)
(** result_chunk.py 268, 301: the mixture types. *)
Inductive mtype := MSimple | MWindow | MToken.

(** ResultChunk's data (88-110) and ResultStreamingArgs (mixtera_client.py 33-67).  The tokenizer (loaded by name) is
    [ra_tok]: [None] = no name given; its fields are the function on texts and the special token ids. *)
Record rc := mkRC { rc_index : index; rc_csize : Z; rc_kid : list (mkey * Z); rc_mix : option (list (mkey * Z)); rc_skip : nat }.
(** mixtera_client.py 33-67 ResultStreamingArgs. *)
Record rargs (A : Type) := mkRA {
  ra_dop : Z; ra_type : mtype; ra_window : Z; ra_best : bool; ra_prefetch : bool;
  ra_tok : option ((A -> list Z) * option Z * option Z); ra_seqlen : Z; ra_tokbs : Z; ra_one : bool; ra_thread : bool;
  ra_eos : bool; ra_bos : bool; ra_overlap : bool }.
Arguments mkRA {A}. Arguments ra_dop {A}. Arguments ra_type {A}. Arguments ra_window {A}. Arguments ra_best {A}.
Arguments ra_prefetch {A}. Arguments ra_tok {A}. Arguments ra_seqlen {A}. Arguments ra_tokbs {A}. Arguments ra_one {A}.
Arguments ra_thread {A}. Arguments ra_eos {A}. Arguments ra_bos {A}. Arguments ra_overlap {A}.

(** result_chunk.py 88-117: the constructor. *)
Definition rc_new (idx : index) (csize : Z) (kid : list (mkey * Z)) (mix : option (list (mkey * Z))) : res rc :=
  if forallb (fun kp => amem mkey_eqb (fst kp) kid) idx then Ok (mkRC idx csize kid mix 0) else Err AssertionError.

(** The configuration a chunk iterates with (fields set by 140-254). *)
Record rconf (A : Type) := mkConf {
  rf_dop : Z; rf_type : mtype; rf_window : Z; rf_best : bool; rf_prefetch : bool; rf_mix : option (list (mkey * Z));
  rf_thread : bool; rf_tok : option (tkcfg A) }.
Arguments mkConf {A}. Arguments rf_dop {A}. Arguments rf_type {A}. Arguments rf_window {A}. Arguments rf_best {A}.
Arguments rf_prefetch {A}. Arguments rf_mix {A}. Arguments rf_thread {A}. Arguments rf_tok {A}.

(** [d1.keys() == d2.keys()] *)
Definition same_keys {V W} (a : list (mkey * V)) (b : list (mkey * W)) : bool :=
  forallb (fun kv => amem mkey_eqb (fst kv) b) a && forallb (fun kv => amem mkey_eqb (fst kv) a) b.

(** result_chunk.py 256-257 _infer_mixture. *)
Definition rc_infer (fl : Q -> Q) (idx : index) : res (list (mkey * Z)) :=
  match infer_mixture fl idx with Err e => Err e | Ok (total, um) => static_mixture fl total um end.

(** result_chunk.py 140-254 configure_result_streaming.  Simplification: no tunnelling via the server. *)
Definition configure {A} (fl : Q -> Q) (c : rc) (a : rargs A) : res (rconf A) :=
  let dop := if ra_dop a <? 1 then 1 else ra_dop a in                                               (* 170-176 *)
  let is_window := match ra_type a with MWindow => true | _ => false end in
  let is_token := match ra_type a with MToken => true | _ => false end in
  let w1 := if is_window && (rc_csize c <? ra_window a) then rc_csize c else ra_window a in          (* 178-184 *)
  let w2 := if is_window && (w1 <? 1) then 128 else w1 in                                            (* 186-191 *)
  let need := (is_window || is_token || (1 <? dop)) && match rc_mix c with None | Some [] => true | _ => false end in
  match (if need then match rc_infer fl (rc_index c) with Ok m => Ok (Some m) | Err e => Err e end else Ok (rc_mix c)) with  (* 195-200 *)
  | Err e => Err e
  | Ok mix0 =>
      let mix := match mix0 with
                 | Some m => Some (if existsb (fun kv => snd kv =? 0) m then filter (fun kv => 0 <? snd kv) m else m)   (* 202-210 *)
                 | None => None end in
      if match mix with Some m => negb (same_keys m (rc_index c)) | None => false end then Err RuntimeError   (* 213-219 *)
      else if negb is_token then Ok (mkConf dop (ra_type a) w2 (ra_best a) (ra_prefetch a) mix false None)
      else if ra_seqlen a <? 1 then Err RuntimeError                                                 (* 225-226 *)
      else match ra_tok a with
           | None => Err RuntimeError                                                                (* 231-232 *)
           | Some (enc, eos_id, bos_id) =>
               if ra_tokbs a <? 1 then Err RuntimeError                                              (* 245-246 *)
               else Ok (mkConf dop MToken (rc_csize c) false (ra_prefetch a) mix (ra_thread a)
                          (Some (mkTk enc (Z.to_nat (ra_seqlen a)) (Z.to_nat (ra_tokbs a)) (ra_one a) (ra_overlap a)
                                      (ra_eos a) eos_id (ra_bos a) bos_id)))
           end
  end.

(** A sample handed to the user: a text or a list of tokens (result_chunk.py 34). *)
Inductive sample (A : Type) := Text (a : A) | Tokens (t : list Z).
Arguments Text {A}. Arguments Tokens {A}.

Section Chunk.
  Context {A : Type}.
  Variable fl : Q -> Q.
  Variable read : Z -> Z -> list range -> stream A.
  Variable is_end is_none : A -> bool.
  Variable sh : shuffles.
  Variable cpu : Z.

  (** result_chunk.py 303-315: what an iterator yields, wrapped. *)
  Definition smap {X Y} (f : X -> Y) (s : stream X) : stream Y := (map f (fst s), snd s).

  (** What a tokenizing iterator yields (C25, C26): the threaded one never returns if its source fails. *)
  Definition tok_stream (fuel : nat) (threaded : bool) (c : tkcfg A) (s : stream A) : stream (list Z) :=
    match tk_drain fuel fuel c (tk_init s) with
    | (ws, StopIter) => (ws, None)
    | (ws, Raise e) => (ws, Some (if threaded then OutOfFuel else e))
    | (ws, Yield _) => (ws, Some OutOfFuel)
    end.

  (** prefetch_iterator.py 28-32: [first_item is None]. *)
  Definition is_none_sample (x : sample A) : bool := match x with Text a => is_none a | Tokens _ => false end.

  (** What a PrefetchFirstItemIterator yields up to its first StopIteration (C27). *)
  Definition pf_stream (s : stream (sample A)) : stream (sample A) :=
    match s with
    | (a :: l, f) => if is_none_sample a then ([], None) else s
    | ([], _) => ([], None)
    end.

  (** result_chunk.py 281-299 (in _init_active_iterators): the iterators over the samples of the keys. *)
  Definition base_iterators (c : rc) (cf : rconf A) : res (list (mkey * stream A)) :=
    let work := prepare_workloads sh (rc_index c) in
    if rf_dop cf =? 1 then Ok (map (fun kw => (fst kw, st_iter read (snd kw))) work)
    else match rf_mix cf with
         | None => Err AssertionError
         | Some mix =>
             match process_counts fl (rf_dop cf) cpu (rc_csize c) mix with
             | Err e => Err e
             | Ok pcs =>
                 if forallb (fun kn => amem mkey_eqb (fst kn) work) pcs then
                   Ok (map (fun kn => (fst kn, mt_iter read is_end
                         (partitions (match aget mkey_eqb (fst kn) work with Some ws => ws | None => [] end) (snd kn)))) pcs)
                 else Err KeyError
             end
         end.

  (** result_chunk.py 276-323 _init_active_iterators. *)
  Definition init_iterators (fuel : nat) (c : rc) (cf : rconf A) : res (list (mkey * stream (sample A))) :=
    match base_iterators c cf with
    | Err e => Err e
    | Ok its =>
        match (match rf_tok cf with
               | None => Ok (map (fun ks => (fst ks, smap Text (snd ks))) its)
               | Some tc => if tk_valid tc || match its with [] => true | _ => false end
                            then Ok (map (fun ks => (fst ks, smap Tokens (tok_stream fuel (rf_thread cf) tc (snd ks)))) its)
                            else Err RuntimeError
               end) with
        | Err e => Err e
        | Ok its' => Ok (if rf_prefetch cf then map (fun ks => (fst ks, pf_stream (snd ks))) its' else its')
        end
    end.

  (** result_chunk.py 259-274 _iterate_samples (and __iter__/__next__ 623-634): all that a [for] over the chunk gets,
      as (sample index, key id, sample), and how it ends. *)
  Definition iterate (fuel : nat) (c : rc) (cf : rconf A) : list (nat * Z * sample A) * nxt unit :=
    match init_iterators fuel c cf with
    | Err e => ([], Raise e)
    | Ok its =>
        let '(out, e) := match rf_type cf with
                         | MSimple => iterate_overall fuel sh (rc_kid c) its
                         | _ => match rf_mix cf with
                                | None => ([], Raise AssertionError)
                                | Some mix => iterate_window fuel fl sh (rc_kid c) (rf_window cf) (rc_csize c) (rf_best cf) mix its
                                end
                         end in
        let rest := skipn (rc_skip c) out in                                                          (* islice *)
        (map (fun p => ((fst p + rc_skip c)%nat, fst (snd p), snd (snd p))) (combine (seq 0 (length rest)) rest), e)
    end.

  (** chunk_distributor.py 489: the distributor restores a partly used chunk. *)
  Definition with_skip (k : nat) (c : rc) : rc := mkRC (rc_index c) (rc_csize c) (rc_kid c) (rc_mix c) k.
End Chunk.
