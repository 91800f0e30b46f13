(** Model of the two files a query keeps in its log directory: mixture.log and chunk.idx
    (mixtera/core/query/query_result.py 116-143) and of the places of the chunk generator that write them. *)
From Verif Require Import Base MixtureKeyModel ChunkGenModel ReplayModel.
Open Scope Z_scope.

(** mixture.py 81-85 stringified_mixture: [{str(key): val ...}]; of keys with the same text the last one stays. *)
Definition stringified (rows : list (mkey * Z)) : list (str * Z) :=
  fold_left (fun d kv => aset str_eqb (key_str (fst kv)) (snd kv) d) rows [].

(** query_result.py 128: [{chk_id: mixture.stringified_mixture() for chk_id, mixture in self._mixture_log}]; the objects
    are looked at when the file is written. *)
Definition log_json (h : heap) (log : list (Z * logged)) : list (Z * list (str * Z)) :=
  fold_left (fun d e => aset Z.eqb (fst e) (stringified (m_rows (resolve h (snd e)))) d) log [].

(** query_result.py 125-134: the JSON object in mixture.log.  Simplified: the value, not its text; [sort_keys] orders the
    entries and the indices become decimal numerals. *)
Record logfile := mkLogfile { lf_log : list (Z * list (str * Z)); lf_next : Z }.

(** query_result.py 125, 142: one file written ([open(.., "w")] replaces the whole file). *)
Inductive wr := WLog (f : logfile) | WIdx (i : Z).

(** query_result.py 90-91: the log directory; [None] = no such file. *)
Record logdir := mkDir { ld_log : option logfile; ld_idx : option Z }.

(** query_result.py 116-143: the effect of one write. *)
Definition apply_wr (d : logdir) (w : wr) : logdir :=
  match w with WLog f => mkDir (Some f) (ld_idx d) | WIdx i => mkDir (ld_log d) (Some i) end.

(** query_result.py 116-143: the directory after these writes. *)
Definition disk (ws : list wr) : logdir := fold_left apply_wr ws (mkDir None None).

(** query_result.py 116-136 _persist_mixture_log; [cnt] = the value of the shared counter. *)
Definition persist_log (h : heap) (cnt : Z) (sf : qself) : wr := WLog (mkLogfile (log_json h (s_log sf)) cnt).

(** query_result.py 316-547: [gen_loop] with the files it writes: the log whenever the mixture changed (346, 511), the index
    right before a chunk is handed out (483, 534). *)
Fixpoint gen_loop_w (fuel : nat) (idx : index) (h : heap) (cnt : Z) (g : gstate) (sf : qself) : gen * qself * gout * list wr :=
  match fuel with
  | O => (GDone, sf, YErr OutOfFuel, [])
  | S fuel' =>
      if 10 <? g_fail g then (GDone, sf, YStop, [])
      else
        let m := h (g_base g) in
        match m_rows m with
        | _ :: _ =>
            let '(g1, sf1) := note_mixture idx h g sf m in
            let w1 := if prev_differs (g_prev g) (m_rows m) then [persist_log h cnt sf1] else [] in            (* 326, 346 *)
            match run_attempt (m_strict m) (g_comps g1) (m_rows m) with
            | Err e => (GDone, sf1, YErr e, w1)
            | Ok a =>
                let mk fail cur :=
                  mkG (g_keys g1) (a_comps a) cur (g_mid g1) (g_kidx g1) (g_empty g1) (g_prev g1) fail
                      (g_base g1) (g_target g1) in
                if att_success a then
                  if g_cur g1 =? g_target g1 then
                    if keys_known (a_chunk a) (s_kid sf1) then
                      (GChunk (mk 0 (g_cur g1 + 1)), sf1,
                       YChunk (mkChunk (a_chunk a) (m_csize m) (s_kid sf1) (g_mid g1) (Some (a_mix a)) (m_strict m)),
                       w1 ++ [WIdx (g_cur g1)])                                                                 (* 483 *)
                    else (GDone, sf1, YErr AssertionError, w1 ++ [WIdx (g_cur g1)])
                  else let '(x, ws) := gen_loop_w fuel' idx h cnt (mk 0 (g_cur g1 + 1)) sf1 in (x, w1 ++ ws)
                else (GNone (mk (g_fail g1 + 1) (g_cur g1)), sf1, YNone, w1)
            end
        | [] =>
            let '(g1, sf1) := note_arbitrary g sf in
            let w1 := if (match g_prev g with Some _ => true | None => false end) || (g_cur g =? 0)
                      then [persist_log h cnt sf1] else [] in                                                   (* 505, 511 *)
            let '(comps', kidx', empty', out) :=
              round_robin fuel (g_keys g1) (m_csize m) (g_comps g1) (g_kidx g1) (g_empty g1) in
            let mk cur :=
              mkG (g_keys g1) comps' cur (g_mid g1) kidx' empty' (g_prev g1) (g_fail g1)
                  (g_base g1) (g_target g1) in
            match out with
            | RErr e => (GDone, sf1, YErr e, w1)
            | RExhausted => (GDone, sf1, YStop, w1)
            | RFound key p =>
                if g_cur g1 =? g_target g1 then
                  if keys_known [(key, p)] (s_kid sf1) then
                    (GChunk (mk (g_cur g1 + 1)), sf1,
                     YChunk (mkChunk [(key, p)] (m_csize m) (s_kid sf1) (g_mid g1) None true),
                     w1 ++ [WIdx (g_cur g1)])                                                                   (* 534 *)
                  else (GDone, sf1, YErr AssertionError, w1 ++ [WIdx (g_cur g1)])
                else let '(x, ws) := gen_loop_w fuel' idx h cnt (mk (g_cur g1 + 1)) sf1 in (x, w1 ++ ws)
            end
        end
  end.

(** query_result.py 580-581 with 310, 495, 503, 540: [gen_send] with the files it writes. *)
Definition gen_send_w (fuel : nat) (idx : index) (h : heap) (cnt : Z) (gn : gen) (sf : qself) (r : ref) (target : Z)
  : gen * qself * gout * list wr :=
  match gn with
  | GDone => (GDone, sf, YStop, [])
  | GChunk g =>
      gen_loop_w fuel idx h cnt
        (mkG (g_keys g) (g_comps g) (g_cur g) (g_mid g) (g_kidx g) (g_empty g) (g_prev g) (g_fail g) r target) sf
  | GNone g => gen_loop_w fuel idx h cnt g sf
  end.

(** query_result.py 568-596 __next__ by a single process: the files it writes (the counter has been increased, 571). *)
Definition next_writes (fuel : nat) (h : heap) (q : qr) : list wr :=
  let gn := match q_gen q with Some g => g | None => gen_init (q_idx q) (q_order q) end in
  if (match q_gen q with None => true | Some _ => false end) && negb (q_nret q =? 0) then []
  else snd (gen_send_w fuel (q_idx q) h (q_count q + 1) gn (q_self q) (s_mix (q_self q)) (q_count q)).

(** query_result.py 125, 142: [open(.., "w")] empties the file before anything is written to it; after a crash at this
    point nothing can be read from it. *)
Definition torn (d : logdir) (w : wr) : logdir :=
  match w with WLog _ => mkDir None (ld_idx d) | WIdx _ => mkDir (ld_log d) None end.
