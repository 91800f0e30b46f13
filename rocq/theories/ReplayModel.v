(** Model of saving and loading a QueryResult: query_result.py 647-689 (to_cache), 691-739 (replay), 741-796 (from_cache).

    Not modelled: the files themselves (pickle/dill round trip of plain attributes is the identity; the chunker index
    round trip is property C33), the query log directory.  The shuffle of the keys is seeded by the keys, so the loaded
    object gets the same order.  [deepcopy]/pickle of a mixture object is a snapshot of its contents. *)
From Verif Require Import Base MixtureKeyModel UtilsModel ChunkGenModel.
Open Scope Z_scope.

(** query_result.py 658-683: what is written to disk. *)
Record saved := mkSaved {
  sv_idx : index; sv_order : list mkey;
  sv_log : list (Z * mixobj);      (** _mixture_log; pickling turns references into snapshots *)
  sv_kid : list (mkey * Z);
  sv_mix : mixobj;                 (** _mixture *)
  sv_nret : Z;                     (** _num_returns_gen *)
  sv_son : bool
}.

(** Contents of a log entry at the time of saving. *)
(** query_result.py 679: pickling writes the current contents of a referenced mixture. *)
Definition resolve (h : heap) (l : logged) : mixobj := match l with LSnap m => m | LRef r => h r end.

(** query_result.py 658-683 *)
Definition to_cache (h : heap) (q : qr) : saved :=
  mkSaved (q_idx q) (q_order q) (map (fun e => (fst e, resolve h (snd e))) (s_log (q_self q))) (s_kid (q_self q))
          (h (s_mix (q_self q))) (q_nret q) (q_son q).

(** The mixture objects of the loaded query: -1 = _mixture, i >= 0 = the (deep copied) i-th log entry. *)
Definition load_heap (sv : saved) : heap :=
  fun r => if r <? 0 then sv_mix sv
           else match nth_error (sv_log sv) (Z.to_nat r) with Some (_, m) => m | None => sv_mix sv end.

(** query_result.py 697, 739. *)
Definition set_replay (b : bool) (q : qr) : qr :=
  mkQR (q_idx q) (q_order q) (mkSelf (s_log (q_self q)) (s_kid (q_self q)) (s_mix (q_self q)) b)
       (q_count q) (q_gen q) (q_nret q) (q_son q).

Inductive loaded :=
| Loaded (q : qr)
| LoadIndexError                (** mixture_log[0] on an empty log, 703 *)
| LoadRuntimeError              (** generator exhausted during replay, 733-734 *)
| LoadAssertionError            (** 737-738 *)
| LoadError (e : exn).          (** raised by next() *)

(** query_result.py 719-734: iteration [i] of [n] left; [li] = mixture_log_index.  Note that only an entry whose chunk
    index equals [i] is installed. *)
Fixpoint replay_loop (fuel : nat) (h : heap) (log : list (Z * mixobj)) (li : nat) (i : Z) (n : nat) (q : qr) : loaded :=
  match n with
  | O => Loaded q
  | S n' =>
      let '(q1, li1) :=
        match nth_error log li with
        | Some (j, _) => if j =? i then (qr_update_mixture h (Z.of_nat li) q, S li) else (q, li)
        | None => (q, li)
        end in
      match qr_next fuel h q1 with
      | (q2, NStop) => LoadRuntimeError
      | (q2, NErr e) => LoadError e
      | (q2, _) => replay_loop fuel h log li1 (i + 1) n' q2
      end
  end.

(** query_result.py 691-739 *)
Definition replay (fuel : nat) (h : heap) (log : list (Z * mixobj)) (n : Z) (q : qr) : loaded :=
  match log with
  | [] => LoadIndexError
  | _ =>
      match replay_loop fuel h log 1 0 (Z.to_nat n) (qr_update_mixture h 0 (set_replay true q)) with
      | Loaded q' =>
          if (q_nret q' =? n) && (q_count q' =? n) then Loaded (set_replay false q') else LoadAssertionError
      | e => e
      end
  end.

(** query_result.py 741-796; [s_log] of the loaded object holds the snapshots. *)
Definition from_cache (fuel : nat) (sv : saved) : loaded :=
  let q := mkQR (sv_idx sv) (sv_order sv)
                (mkSelf (map (fun e => (fst e, LSnap (snd e))) (sv_log sv)) (sv_kid sv) (-1) false) 0 None 0 (sv_son sv) in
  if 0 <? sv_nret sv then replay fuel (load_heap sv) (sv_log sv) (sv_nret sv) q else Loaded q.

(** local_stub.py 81-91: executing a query whose result is cached: the loaded object must not have delivered anything
    (83-85), its key ids are dropped (88) and the job's mixture is installed (89). *)
Definition cache_hit (h : heap) (r : ref) (q : qr) : option qr :=
  if q_nret q =? 0 then
    Some (qr_update_mixture h r
            (mkQR (q_idx q) (q_order q) (mkSelf (s_log (q_self q)) [] (s_mix (q_self q)) (s_replay (q_self q)))
                  (q_count q) (q_gen q) (q_nret q) (q_son q)))
  else None.
