(** Model of mixtera/utils/tokenizing_iterator.py (TokenizingIterator, ThreadedTokenizingIterator) and
    mixtera/utils/prefetch_iterator.py (PrefetchFirstItemIterator).

    A Python iterator that is read to its end is a [stream]: the items it yields, then [None] (StopIteration) or the
    exception it raises.  An exhausted iterator keeps raising StopIteration (generators do). *)
From Verif Require Import Base ChunkGenModel.
Local Open Scope nat_scope.

(** What a source iterator still delivers and the exception that ends it, if any (tokenizing_iterator.py 46 / 146). *)
Definition stream (A : Type) := (list A * option exn)%type.

(** The result of one [next(it)] (tokenizing_iterator.py 45-48 / 145-148, prefetch_iterator.py 17-21). *)
(** One [next(iterator)] (tokenizing_iterator.py 45-48 / 145-148, prefetch_iterator.py 18). *)
Inductive nxt (B : Type) := Yield (b : B) | StopIter | Raise (e : exn).
Arguments Yield {B}. Arguments StopIter {B}. Arguments Raise {B}.

(** One [next(iterator)] (tokenizing_iterator.py 45-48 / 145-148, prefetch_iterator.py 18). *)
Definition snext {A} (s : stream A) : stream A * nxt A :=
  match s with
  | (a :: l, f) => ((l, f), Yield a)
  | ([], None) => (s, StopIter)
  | ([], Some e) => (([], None), Raise e)   (* a generator that raised is finished *)
  end.

Section Tok.
  Context {A : Type}.

  (** Constructor arguments, tokenizing_iterator.py 6-25 / 100-119.  [tk_encode] is the tokenizer applied to one text:
      batch_encode_plus without padding or truncation encodes every text of the batch by itself (trusted).
      [tk_eos]/[tk_bos]: use_eos_token/use_bos_token, and the ids. *)
  Record tkcfg := mkTk {
    tk_encode : A -> list Z;
    tk_len : nat;            (* sequence_length *)
    tk_batch : nat;          (* batch_size *)
    tk_one : bool;           (* at_least_one_sample *)
    tk_overlap : bool;
    tk_eos : bool; tk_eos_id : option Z;
    tk_bos : bool; tk_bos_id : option Z }.

  (** tokenizing_iterator.py 28-31 / 122-125: constructor checks. *)
  Definition tk_valid (c : tkcfg) : bool :=
    negb (tk_eos c && match tk_eos_id c with None => true | _ => false end) &&
    negb (tk_bos c && match tk_bos_id c with None => true | _ => false end).

  (** tokenizing_iterator.py 26 / 120. *)
  Definition tk_step (c : tkcfg) : nat := if tk_overlap c then tk_len c else tk_len c + 1.

  (** tokenizing_iterator.py 57-65 / 156-164: the ids of one text with bos/eos added. *)
  Definition opt_list (b : bool) (o : option Z) : list Z :=
    if b then match o with Some x => [x] | None => [] end else [].
  (** tokenizing_iterator.py 50-65 / 151-164. *)
  Definition tk_ids (c : tkcfg) (a : A) : list Z :=
    opt_list (tk_bos c) (tk_bos_id c) ++ tk_encode c a ++ opt_list (tk_eos c) (tk_eos_id c).

  (** tokenizing_iterator.py 33-36 / 127-130. *)
  Record tkst := mkTkSt { ts_src : stream A; ts_buf : list Z; ts_idx : nat; ts_eos : bool; ts_yielded : nat }.
  (** tokenizing_iterator.py 33-36 / 127-130: the fields at the start. *)
  Definition tk_init (s : stream A) : tkst := mkTkSt s [] 0 false 0.

  (** tokenizing_iterator.py 42-48: collect up to [n] texts; the flag is the local eos. *)
  Fixpoint tk_collect (n : nat) (s : stream A) (texts : list A) : stream A * list A * bool * option exn :=
    match n with
    | O => (s, texts, false, None)
    | S n' => match snext s with
              | (s', Yield a) => tk_collect n' s' (texts ++ [a])
              | (s', StopIter) => (s', texts, true, None)          (* break *)
              | (s', Raise e) => (s', texts, false, Some e)
              end
    end.

  (** tokenizing_iterator.py 41-68 fetch_data. *)
  Definition tk_fetch (c : tkcfg) (st : tkst) : tkst * option exn :=
    let '(src, texts, eos, err) := tk_collect (tk_batch c) (ts_src st) [] in
    match err with
    | Some e => (mkTkSt src (ts_buf st) (ts_idx st) (ts_eos st) (ts_yielded st), Some e)
    | None => (mkTkSt src (ts_buf st ++ flat_map (tk_ids c) texts) (ts_idx st) (ts_eos st || eos) (ts_yielded st), None)
    end.

  (** Python [l * n]. *)
  (** tokenizing_iterator.py 93 / 194. *)
  Fixpoint list_mul (l : list Z) (n : nat) : list Z := match n with O => [] | S n' => l ++ list_mul l n' end.

  (** tokenizing_iterator.py 72-80 / 180-187: hand out a window if the buffer has one. *)
  Definition tk_window (c : tkcfg) (st : tkst) : option (tkst * list Z) :=
    let cur := length (ts_buf st) - ts_idx st in
    if tk_len c + 1 <=? cur then
      Some (mkTkSt (ts_src st) (ts_buf st) (ts_idx st + tk_step c) (ts_eos st) (ts_yielded st + 1),
            firstn (tk_len c + 1) (skipn (ts_idx st) (ts_buf st)))
    else None.

  (** tokenizing_iterator.py 86-96 / 189-199: end of data. *)
  Definition tk_final (c : tkcfg) (st : tkst) : tkst * nxt (list Z) :=
    let cur := length (ts_buf st) - ts_idx st in
    if (ts_yielded st =? 0) && (0 <? cur) && tk_one c then
      let needed := tk_len c + 1 - cur in
      let repeats := (needed + cur - 1) / cur in
      (mkTkSt (ts_src st) (ts_buf st) (ts_idx st) (ts_eos st) (ts_yielded st + 1),
       Yield (firstn (tk_len c + 1) (list_mul (skipn (ts_idx st) (ts_buf st)) (1 + repeats))))
    else (st, StopIter).

  (** tokenizing_iterator.py 70-96 __next__ of the synchronous iterator; [fuel] bounds the [while True] loop. *)
  Fixpoint tk_next (fuel : nat) (c : tkcfg) (st : tkst) : tkst * nxt (list Z) :=
    match fuel with
    | O => (st, Raise OutOfFuel)
    | S fuel' =>
        match tk_window c st with
        | Some (st', w) => (st', Yield w)
        | None =>
            if negb (ts_eos st) then
              match tk_fetch c st with
              | (st', None) => tk_next fuel' c st'
              | (st', Some e) => (st', Raise e)
              end
            else tk_final c st
        end
    end.

  (** tokenizing_iterator.py 70-96: a consumer calling [next] until it gets StopIteration or an exception ([n] calls at most). *)
  (** tokenizing_iterator.py 70-96, called again and again. *)
  Fixpoint tk_drain (n fuel : nat) (c : tkcfg) (st : tkst) : list (list Z) * nxt unit :=
    match n with
    | O => ([], Yield tt)    (* still running *)
    | S n' => match tk_next fuel c st with
              | (st', Yield w) => let '(ws, e) := tk_drain n' fuel c st' in (w :: ws, e)
              | (_, StopIter) => ([], StopIter)
              | (_, Raise e) => ([], Raise e)
              end
    end.

  (** ** ThreadedTokenizingIterator: producer thread and consumer.
      Everything under [self.lock] is one atomic step; the text iterator is touched by the producer only. *)
  (** Where the consumer is in tokenizing_iterator.py 177-202, and whether the thread (140-175) is running. *)
  Inductive cons := CReady | CWaiting | CDone.     (* about to enter __next__'s loop body / in condition.wait / got StopIteration *)
  (** Where the consumer is in tokenizing_iterator.py 177-202, and whether the thread (140-175) is running. *)
  Inductive prod := PRun | PDead.                  (* in the loop / thread ended (normally or by an exception) *)
  (** tokenizing_iterator.py 127-135 and the two threads. *)
  Record thst := mkTh { th : tkst; th_c : cons; th_p : prod; th_out : list (list Z); th_exn : option exn }.
  (** tokenizing_iterator.py 127-135: at the start. *)
  Definition th_init (s : stream A) : thst := mkTh (tk_init s) CReady PRun [] None.

  (** tokenizing_iterator.py 142-148: no [break]: next() is called for the whole batch. *)
  Fixpoint th_collect (n : nat) (s : stream A) (texts : list A) (eos : bool) : stream A * list A * bool * option exn :=
    match n with
    | O => (s, texts, eos, None)
    | S n' => match snext s with
              | (s', Yield a) => th_collect n' s' (texts ++ [a]) eos
              | (s', StopIter) => th_collect n' s' texts true
              | (s', Raise e) => (s', texts, eos, Some e)
              end
    end.

  (** tokenizing_iterator.py 170, 175: notify_all. *)
  Definition wake (x : cons) : cons := match x with CWaiting => CReady | _ => x end.

  (** tokenizing_iterator.py 140-175 prefetch_loop: one turn of the producer's loop.  [None] = thread not runnable.
      An exception ends the thread (threading prints it); eos stays False and nobody is notified. *)
  Definition th_prod (c : tkcfg) (s : thst) : option thst :=
    match th_p s with
    | PDead => None
    | PRun =>
        let st := th s in
        if ts_eos st then Some (mkTh st (th_c s) PDead (th_out s) (th_exn s))                        (* 141 *)
        else
          let '(src, texts, eos, err) := th_collect (tk_batch c) (ts_src st) [] false in
          match err with
          | Some e => Some (mkTh (mkTkSt src (ts_buf st) (ts_idx st) (ts_eos st) (ts_yielded st))
                                 (th_c s) PDead (th_out s) (Some e))
          | None =>
              match texts with
              | [] => Some (mkTh (mkTkSt src (ts_buf st) (ts_idx st) true (ts_yielded st))
                                 (wake (th_c s)) PRun (th_out s) (th_exn s))                          (* 171-175 *)
              | _ => Some (mkTh (mkTkSt src (ts_buf st ++ flat_map (tk_ids c) texts) (ts_idx st) (ts_eos st || eos) (ts_yielded st))
                                (wake (th_c s)) PRun (th_out s) (th_exn s))                           (* 166-170 *)
              end
          end
    end.

  (** tokenizing_iterator.py 177-202 __next__ of the threaded iterator: one turn of the consumer's loop; the consumer
      calls __next__ again after every window. *)
  Definition th_cons (c : tkcfg) (s : thst) : option thst :=
    match th_c s with
    | CReady =>
        match tk_window c (th s) with
        | Some (st', w) => Some (mkTh st' CReady (th_p s) (th_out s ++ [w]) (th_exn s))
        | None =>
            if ts_eos (th s) then
              match tk_final c (th s) with
              | (st', Yield w) => Some (mkTh st' CReady (th_p s) (th_out s ++ [w]) (th_exn s))
              | (st', _) => Some (mkTh st' CDone (th_p s) (th_out s) (th_exn s))
              end
            else Some (mkTh (th s) CWaiting (th_p s) (th_out s) (th_exn s))                           (* 202 *)
        end
    | _ => None
    end.

  (** A schedule is a list of turns; a turn of a thread that cannot run is skipped. *)
  (** Interleavings of tokenizing_iterator.py 140-175 and 177-202. *)
  Inductive who := Producer | Consumer.
  (** Interleavings of tokenizing_iterator.py 140-175 and 177-202. *)
  Definition th_turn (c : tkcfg) (w : who) (s : thst) : option thst :=
    match w with Producer => th_prod c s | Consumer => th_cons c s end.
  (** Interleavings of tokenizing_iterator.py 140-175 and 177-202. *)
  Fixpoint th_run (c : tkcfg) (sched : list who) (s : thst) : thst :=
    match sched with
    | [] => s
    | w :: sched' => th_run c sched' (match th_turn c w s with Some s' => s' | None => s end)
    end.

  (** ** PrefetchFirstItemIterator.  [is_none] says which items are Python's None. *)
  (** prefetch_iterator.py 8-14: the fields. *)
  Record pfst := mkPf { pf_src : stream A; pf_event : bool; pf_consumed : bool; pf_first : option A; pf_lost : option exn }.
  (** prefetch_iterator.py 8-14. *)
  Definition pf_init (s : stream A) : pfst := mkPf s false false None None.
  (** prefetch_iterator.py 16-22 _prefetch: the thread's only turn; an exception other than StopIteration ends the
      thread after the event is set. *)
  Definition pf_thread (s : pfst) : option pfst :=
    if pf_event s then None
    else match snext (pf_src s) with
         | (src, Yield a) => Some (mkPf src true (pf_consumed s) (Some a) None)
         | (src, StopIter) => Some (mkPf src true (pf_consumed s) None None)
         | (src, Raise e) => Some (mkPf src true (pf_consumed s) None (Some e))
         end.
  (** prefetch_iterator.py 24-34 __next__; [None] = blocked in prefetch_event.wait(). *)
  Definition pf_next (is_none : A -> bool) (s : pfst) : option (pfst * nxt A) :=
    if negb (pf_consumed s) then
      if pf_event s then
        let s' := mkPf (pf_src s) true true (pf_first s) (pf_lost s) in
        match pf_first s with
        | Some a => if is_none a then Some (s', StopIter) else Some (s', Yield a)
        | None => Some (s', StopIter)
        end
      else None
    else let '(src, r) := snext (pf_src s) in
         Some (mkPf src (pf_event s) (pf_consumed s) (pf_first s) (pf_lost s), r).

  (** Any schedule of the two threads; the consumer calls __next__ until it gets StopIteration or an exception. *)
  (** prefetch_iterator.py 16-34: interleavings of the thread and the consumer. *)
  Fixpoint pf_run (is_none : A -> bool) (sched : list who) (s : pfst) (out : list A) : list A * nxt unit :=
    match sched with
    | [] => (out, Yield tt)     (* still running *)
    | Producer :: sched' => pf_run is_none sched' (match pf_thread s with Some s' => s' | None => s end) out
    | Consumer :: sched' =>
        match pf_next is_none s with
        | None => pf_run is_none sched' s out
        | Some (s', Yield a) => pf_run is_none sched' s' (out ++ [a])
        | Some (_, StopIter) => (out, StopIter)
        | Some (_, Raise e) => (out, Raise e)
        end
    end.
End Tok.
Arguments tkcfg : clear implicits.
Arguments tkst : clear implicits.
Arguments thst : clear implicits.
Arguments pfst : clear implicits.
