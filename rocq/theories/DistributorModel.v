(** Model of mixtera/core/query/chunk_distributor.py (ChunkDistributor).

    What is modelled: the constructor, next_chunk_for, checkpoint, _validate_checkpoint_state, _start_checkpointing,
    _persist_checkpoint_process, checkpoint_completed and from_checkpoint, exceptions included.
    Simplifications, valid for the whole file:
    - the nested dicts _chunk_cache[g][id], _chunk_usage[g][id], _next_chunk[g][n][w] are association lists keyed by
      the tuple of keys (the outer dicts are created for every group/node in the constructor and never change);
    - the QueryResult is an oracle [src]: [src i] is the outcome of the i-th call of [next(self._query_result)], an
      arbitrary sequence, so every mixture change between two calls is covered;
    - dill.loads after dill.dumps gives back the chunk (trusted), so the cache holds the chunk itself; a chunk is an
      abstract body with its _samples_to_skip;
    - the methods run one at a time (the server's coroutines do not await inside them, 105-106). *)
From Verif Require Import Base MixtureKeyModel UtilsModel ChunkGenModel.
Open Scope Z_scope.

(** chunk_distributor.py 65-79, 84: (dp_group, node) or (dp_group, chunk id). *)
Definition p2 := (Z * Z)%type.
(** chunk_distributor.py 69-79: (dp_group, node, worker). *)
Definition p3 := (Z * Z * Z)%type.
(** Equality of dictionary keys, chunk_distributor.py 65-90. *)
Definition p2_eqb (a b : p2) : bool := (fst a =? fst b) && (snd a =? snd b).
(** Equality of dictionary keys, chunk_distributor.py 65-90. *)
Definition p3_eqb (a b : p3) : bool := p2_eqb (fst a) (fst b) && (snd a =? snd b).

(** Outcome of [next(query_result)]. *)
(** query_result.py 568-598, as seen by chunk_distributor.py 150-151. *)
Inductive qout (C : Type) := QChunk (c : C) | QNone | QStop | QErr (e : exn).
Arguments QChunk {C}. Arguments QNone {C}. Arguments QStop {C}. Arguments QErr {C}.

(** Outcome of next_chunk_for: the chunk (as bytes if [ser]) with its samples_to_skip, StopIteration, or an error. *)
(** chunk_distributor.py 92-189. *)
Inductive dout (C : Type) := DChunk (ser : bool) (c : C) (skip : Z) | DStop | DErr (e : exn).
Arguments DChunk {C}. Arguments DStop {C}. Arguments DErr {C}.

(** State of a checkpoint process: not created, or created (with what it has to write). *)
(** chunk_distributor.py 89, 288-290, 413-429. *)
Inductive cinfo := CEmpty | CStarted.

(** chunk_distributor.py 51-90. *)
Record dist (C : Type) := mkDist {
  d_dp : Z;                          (** _dp_groups *)
  d_nodes : Z;                       (** _nodes_per_group *)
  d_nw : Z;                          (** _num_workers *)
  d_og : Z;                          (** _og_num_workers *)
  d_forked : bool;                   (** os.getpid() != _constructor_pid *)
  d_calls : nat;                     (** number of next() calls on _query_result (its _num_returns_gen) *)
  d_cache : list (p2 * (C * Z));     (** _chunk_cache *)
  d_usage : list (p2 * Z);           (** _chunk_usage *)
  d_next : list (p3 * Z);            (** _next_chunk *)
  d_stat : list (p2 * list Z);       (** _worker_statuses *)
  d_rep : list p2;                   (** _nodes_reported *)
  d_ctr : Z;                         (** _checkpoint_id_counter *)
  d_cur : option Z;                  (** _current_checkpoint_id, [Some n] = "chkpnt_n" *)
  d_info : list (Z * cinfo);         (** _checkpoint_info *)
  d_cached : bool                    (** _cached_query is not None *)
}.
Arguments mkDist {C}. Arguments d_dp {C}. Arguments d_nodes {C}. Arguments d_nw {C}. Arguments d_og {C}.
Arguments d_forked {C}. Arguments d_calls {C}. Arguments d_cache {C}. Arguments d_usage {C}. Arguments d_next {C}.
Arguments d_stat {C}. Arguments d_rep {C}. Arguments d_ctr {C}. Arguments d_cur {C}. Arguments d_info {C}.
Arguments d_cached {C}.

Section Dist.
  Context {C : Type}.
  Variable src : nat -> qout C.

  (** chunk_distributor.py 69-79: one counter per (group, node, worker), starting at the worker id. *)
  Definition all_slots (dp nodes nw : Z) : list p3 :=
    flat_map (fun g => flat_map (fun n => map (fun w => (g, n, w)) (zrange 0 nw)) (zrange 0 nodes)) (zrange 0 dp).

  (** chunk_distributor.py 29-90 __init__ (query_result.stop_on_none = False is reflected in [src]). *)
  Definition dist_init (dp nodes nw : Z) (cached : bool) (calls : nat) : res (dist C) :=
    if dp <? 1 then Err ValueError                                                     (* 51-52 *)
    else
      let nw1 := if 0 <? nw then nw else 1 in                                          (* 57 *)
      Ok (mkDist dp nodes nw1 nw false calls [] []
                 (map (fun t => (t, snd t)) (all_slots dp nodes nw1)) [] [] 0 None [] cached).

  (** os.fork() of the process that holds the distributor: the child's copy. *)
  (** chunk_distributor.py 62, 130: getpid differs from the constructor's. *)
  Definition fork (s : dist C) : dist C :=
    mkDist (d_dp s) (d_nodes s) (d_nw s) (d_og s) true (d_calls s) (d_cache s) (d_usage s) (d_next s) (d_stat s)
           (d_rep s) (d_ctr s) (d_cur s) (d_info s) (d_cached s).

  (** chunk_distributor.py 128 *)
  Definition guaranteed_server (s : dist C) : bool := (1 <? d_dp s) || (1 <? d_nodes s).

  (** Record update; chunk_distributor.py 150-186. *)
  Definition with_dist (s : dist C) calls cache usage next : dist C :=
    mkDist (d_dp s) (d_nodes s) (d_nw s) (d_og s) (d_forked s) calls cache usage next (d_stat s) (d_rep s) (d_ctr s)
           (d_cur s) (d_info s) (d_cached s).

  (** chunk_distributor.py 168-189: usage count, purge of the previous chunk, next counter. *)
  Definition hand_out (s : dist C) (calls : nat) (cache : list (p2 * (C * Z))) (usage : list (p2 * Z))
             (g n w id : Z) (ser : bool) (ck : C * Z) : dist C * dout C :=
    match aget p2_eqb (g, id) usage with
    | None => (with_dist s calls cache usage (d_next s), DErr KeyError)                (* 169 *)
    | Some u =>
        let usage1 := aset p2_eqb (g, id) (u + 1) usage in
        let del := id - d_nw s in                                                      (* 173 *)
        let purge := (d_nodes s <=? u + 1) && (0 <=? del) && amem p2_eqb (g, del) cache in  (* 172-177 *)
        if purge && negb (amem p2_eqb (g, del) usage1) then
          (with_dist s calls (adel p2_eqb (g, del) cache) usage1 (d_next s), DErr KeyError)     (* 182 *)
        else
          let cache2 := if purge then adel p2_eqb (g, del) cache else cache in         (* 181 *)
          let usage2 := if purge then adel p2_eqb (g, del) usage1 else usage1 in       (* 182 *)
          (with_dist s calls cache2 usage2 (aset p3_eqb (g, n, w) (id + d_nw s) (d_next s)),    (* 186 *)
           DChunk ser (fst ck) (snd ck))
    end.

  (** chunk_distributor.py 92-189 next_chunk_for. *)
  Definition next_chunk_for (g n w : Z) (deser : bool) (s : dist C) : dist C * dout C :=
    if negb (g <? d_dp s) || negb (n <? d_nodes s) || negb (w <? d_nw s) then (s, DErr AssertionError)  (* 123-125 *)
    else if d_forked s && guaranteed_server s then (s, DErr RuntimeError)              (* 130-134 *)
    else
      match aget p3_eqb (g, n, w) (d_next s) with
      | None => (s, DErr KeyError)                                                     (* 141 *)
      | Some id =>
          match aget p2_eqb (g, id) (d_cache s) with
          | None =>                                                                    (* 143 *)
              match src (d_calls s) with
              | QErr e => (with_dist s (S (d_calls s)) (d_cache s) (d_usage s) (d_next s), DErr e)
              | QStop | QNone => (with_dist s (S (d_calls s)) (d_cache s) (d_usage s) (d_next s), DStop) (* 150-151 *)
              | QChunk c =>
                  hand_out s (S (d_calls s)) (aset p2_eqb (g, id) (c, 0) (d_cache s))
                           (aset p2_eqb (g, id) 0 (d_usage s)) g n w id (negb deser) (c, 0)  (* 153-158 *)
              end
          | Some ck => hand_out s (d_calls s) (d_cache s) (d_usage s) g n w id (negb deser) ck (* 159-166 *)
          end
      end.

  (** ** Checkpoints *)
  (** chunk_distributor.py 364-372, 393-409: what is handed to the persisting process. *)
  Record saved := mkSaved {
    v_cache : list (p2 * (C * Z)); v_usage : list (p2 * Z); v_next : list (p3 * Z);
    v_dp : Z; v_nw : Z; v_nodes : Z; v_ctr : Z; v_calls : nat
  }.

  (** chunk_distributor.py 311-321: within a group all nodes have the same counter for a worker. *)
  Definition same_chunk (next : list (p3 * Z)) : bool :=
    forallb (fun kv => match kv with (g, n, w, v) =>
               forallb (fun kv' => match kv' with (g', n', w', v') =>
                          negb ((g =? g') && (w =? w')) || (v =? v') end) next end) next.

  (** chunk_distributor.py 327-335: enumerate. *)
  Fixpoint zenum (i : Z) (l : list Z) : list (Z * Z) :=
    match l with [] => [] | x :: l' => (i, x) :: zenum (i + 1) l' end.

  (** chunk_distributor.py 326-346: append to the list per (group, worker), of which the maximum is taken. *)
  Definition push_max (k : p2) (x : Z) (m : list (p2 * Z)) : list (p2 * Z) :=
    aset p2_eqb k (match aget p2_eqb k m with Some y => Z.max x y | None => x end) m.

  (** chunk_distributor.py 326-346: the largest reported sample index per (group, worker) (the drift is only logged). *)
  Definition max_status (stat : list (p2 * list Z)) : list (p2 * Z) :=
    fold_left (fun m kv => match kv with ((g, _), st) =>
                 fold_left (fun m wx => push_max (g, fst wx) (snd wx) m) (zenum 0 st) m end) stat [].

  (** chunk_distributor.py 294-346 _validate_checkpoint_state. *)
  Definition validate (s : dist C) : res (list (p2 * Z)) :=
    if same_chunk (d_next s) then Ok (max_status (d_stat s)) else Err RuntimeError.

  (** What the persisting process gets. *)
  (** chunk_distributor.py 393-425: arguments of the process. *)
  Record job := mkJob { j_id : Z; j_state : saved; j_ids : list (p2 * Z); j_copy : bool }.

  (** chunk_distributor.py 348-429 _start_checkpointing. [qdir]: the directory <chkpnt_dir>/queryresult exists.
      Without a cached query the first checkpoint calls QueryResult.to_cache, which raises unless that directory
      already exists (query_result.py 653-654). *)
  Definition start_checkpointing (s : dist C) (id : Z) (ids : list (p2 * Z)) (qdir : bool) : res job :=
    if (d_ctr s =? 1) && negb (d_cached s) && negb qdir then Err RuntimeError           (* 378-385 *)
    else Ok (mkJob id (mkSaved (d_cache s) (d_usage s) (d_next s) (d_dp s) (d_nw s) (d_nodes s) (d_ctr s) (d_calls s))
                   ids ((d_ctr s =? 1) && d_cached s)).

  (** chunk_distributor.py 218-292: the id returned, or an exception. *)
  Inductive ckout := CkId (id : Z) | CkErr (e : exn).

  (** Record update; chunk_distributor.py 259-292. *)
  Definition with_ck (s : dist C) stat rep ctr cur info : dist C :=
    mkDist (d_dp s) (d_nodes s) (d_nw s) (d_og s) (d_forked s) (d_calls s) (d_cache s) (d_usage s) (d_next s)
           stat rep ctr cur info (d_cached s).

  (** chunk_distributor.py 218-292 checkpoint; the third component is the process that is started, if any. *)
  Definition checkpoint (g n : Z) (status : list Z) (server qdir : bool) (s : dist C) : dist C * ckout * option job :=
    if (d_dp s =? 1) && (d_nodes s =? 1) && (0 <? d_og s) && negb server then (s, CkErr NotImplementedError, None) (* 244 *)
    else if d_forked s then (s, CkErr RuntimeError, None)                                (* 255-257 *)
    else if existsb (p2_eqb (g, n)) (d_rep s) then (s, CkErr RuntimeError, None)         (* 261-262 *)
    else
      let '(ctr, id, info) :=
        match d_cur s with
        | None => (d_ctr s + 1, d_ctr s + 1, aset Z.eqb (d_ctr s + 1) CEmpty (d_info s)) (* 265-270 *)
        | Some id => (d_ctr s, id, d_info s)                                             (* 273 *)
        end in
      let stat := aset p2_eqb (g, n) status (d_stat s) in                                (* 275 *)
      let rep := d_rep s ++ [(g, n)] in                                                  (* 276 *)
      let s1 := with_ck s stat rep ctr (Some id) info in
      if Z.of_nat (length rep) =? d_dp s * d_nodes s then                                (* 278 *)
        match validate s1 with
        | Err e => (s1, CkErr e, None)                                                   (* 280 *)
        | Ok ids =>
            match start_checkpointing s1 id ids qdir with
            | Err e => (s1, CkErr e, None)                                               (* 285 *)
            | Ok j => (with_ck s1 [] [] ctr None (aset Z.eqb id CStarted info), CkId id, Some j)  (* 288-290, 413-429 *)
            end
        end
      else (s1, CkId id, None).

  (** State of the persisting process as its parent sees it. *)
  (** chunk_distributor.py 529-556: is_alive() or exitcode. *)
  Inductive pstat := PAlive | PExit (code : Z).

  (** chunk_distributor.py 514-554 checkpoint_completed; [st] is the state of that checkpoint's process. *)
  Definition checkpoint_completed (s : dist C) (id : Z) (on_disk : bool) (st : pstat) : res bool :=
    match aget Z.eqb id (d_info s) with
    | None | Some CEmpty => Ok false
    | Some CStarted =>
        if negb on_disk then Ok true
        else match st with
             | PAlive => Ok false
             | PExit c => if c =? 0 then Ok true else Err RuntimeError
             end
    end.

  (** chunk_distributor.py 474-497: the counter of every worker that has taken a chunk goes one chunk back, the usage of
      that chunk becomes 0 and its samples_to_skip the reported index. *)
  Definition adjust_slot (ids : list (p2 * Z)) (v : saved) (t : p3) : res saved :=
    let '(g, n, w) := t in
    match aget p3_eqb t (v_next v) with
    | None => Err KeyError
    | Some x =>
        let nx := x - v_nw v in
        if nx <? 0 then Ok v
        else
          match aget p2_eqb (g, nx) (v_cache v), aget p2_eqb (g, w) ids with
          | Some (c, _), Some k =>
              Ok (mkSaved (aset p2_eqb (g, nx) (c, k) (v_cache v)) (aset p2_eqb (g, nx) 0 (v_usage v))
                          (aset p3_eqb t nx (v_next v)) (v_dp v) (v_nw v) (v_nodes v) (v_ctr v) (v_calls v))
          | _, _ => Err KeyError                                                         (* 485, 489 *)
          end
    end.

  (** chunk_distributor.py 473-500: the three nested loops. *)
  Fixpoint adjust (ids : list (p2 * Z)) (v : saved) (ts : list p3) : res saved :=
    match ts with
    | [] => Ok v
    | t :: ts' => match adjust_slot ids v t with Err e => Err e | Ok v' => adjust ids v' ts' end
    end.

  (** chunk_distributor.py 464-500. *)
  Definition adjusted (j : job) : res saved :=
    adjust (j_ids j) (j_state j) (all_slots (v_dp (j_state j)) (v_nodes (j_state j)) (v_nw (j_state j))).

  (** *** The checkpoint directory *)
  (** A file or directory being written is [Partial] until the writer finished it. *)
  (** chunk_distributor.py 461, 499-507. *)
  Inductive fstate (A : Type) := Absent | Partial | Full (a : A).
  Arguments Absent {A}. Arguments Partial {A}. Arguments Full {A}.
  (** chunk_distributor.py 355-362, 458-507: the files below the checkpoint directory of a job. *)
  Record disk := mkDisk {
    k_qr : fstate unit;                                  (** queryresult/ *)
    k_ck : list (Z * (fstate saved * fstate nat))        (** chkpnt_n/: distributor state, query result state *)
  }.

  (** chunk_distributor.py 458-509 as a sequence of visible steps; the number of steps done is the program counter.
      [None]: the process raised (exit code 1). *)
  Inductive pc := PCopy | PCopying | PCheck | PMkdir | PState | PStating | PQstate | PQstating | PDone | PFailed.
  Definition persist_step (j : job) (p : pc) (k : disk) : pc * disk :=
    match p with
    | PCopy => if j_copy j then
                 match k_qr k with
                 | Absent => (PCopying, mkDisk Partial (k_ck k))                         (* 461 copytree creates the directory *)
                 | _ => (PFailed, k)                                                     (* FileExistsError *)
                 end
               else (PCheck, k)
    | PCopying => (PCheck, mkDisk (Full tt) (k_ck k))
    | PCheck => match k_qr k with Absent => (PFailed, k) | _ => (PMkdir, k) end          (* 464-466 *)
    | PMkdir => if amem Z.eqb (j_id j) (k_ck k) then (PFailed, k)                        (* 469 *)
                else (PState, mkDisk (k_qr k) (aset Z.eqb (j_id j) (Absent, Absent) (k_ck k)))
    | PState => match adjusted j with
                | Err _ => (PFailed, k)                                                  (* 474-497 *)
                | Ok _ => (PStating, mkDisk (k_qr k) (aset Z.eqb (j_id j) (Partial, Absent) (k_ck k)))  (* 500 *)
                end
    | PStating => match adjusted j with
                  | Err _ => (PFailed, k)
                  | Ok v => (PQstate, mkDisk (k_qr k) (aset Z.eqb (j_id j) (Full v, Absent) (k_ck k)))  (* 501 *)
                  end
    | PQstate => match aget Z.eqb (j_id j) (k_ck k) with
                 | Some (f, _) => (PQstating, mkDisk (k_qr k) (aset Z.eqb (j_id j) (f, Partial) (k_ck k)))  (* 504 *)
                 | None => (PFailed, k)
                 end
    | PQstating => match aget Z.eqb (j_id j) (k_ck k) with
                   | Some (f, _) => (PDone, mkDisk (k_qr k)
                                       (aset Z.eqb (j_id j) (f, Full (v_calls (j_state j))) (k_ck k)))  (* 505-507 *)
                   | None => (PFailed, k)
                   end
    | PDone => (PDone, k)
    | PFailed => (PFailed, k)
    end.

  (** The persisting process after [i] visible steps; it may be killed after any of them. *)
  (** chunk_distributor.py 458-509: the first [i] steps. *)
  Definition persist (j : job) (i : nat) (k : disk) : pc * disk :=
    Nat.iter i (fun pk => persist_step j (fst pk) (snd pk)) (PCopy, k).

  (** chunk_distributor.py 556-643 from_checkpoint. Loading a partly written file or directory raises. The restored query
      result has been replayed to [calls] (the subject of C11). [FileNotFoundError] and unpickling errors are both
      [RuntimeError] here. *)
  Definition from_checkpoint (k : disk) (id : Z) : res (dist C) :=
    match aget Z.eqb id (k_ck k), k_qr k with
    | Some (Full v, Full calls), Full _ =>
        match dist_init (v_dp v) (v_nodes v) (v_nw v) false calls with
        | Err e => Err e
        | Ok s0 =>
            Ok (mkDist (d_dp s0) (d_nodes s0) (d_nw s0) (d_og s0) false calls (v_cache v) (v_usage v) (v_next v)
                       [] [] (fold_right Z.max (v_ctr v) (map fst (k_ck k))) None [] false)      (* 619-639 *)
        end
    | _, _ => Err RuntimeError
    end.

  (** ** Histories *)
  (** chunk_distributor.py 92-189 (Req), 218-292 (Ck); a fork of the process. *)
  Inductive dop := Req (g n w : Z) (deser : bool) | Ck (g n : Z) (status : list Z) (server qdir : bool) | Fork.
  (** chunk_distributor.py 92-292: what a call returned, and the process it started. *)
  Inductive dev := EReq (o : dout C) | ECk (o : ckout) (j : option job) | EFork.

  (** chunk_distributor.py 92-292: one call. *)
  Definition dstep (s : dist C) (o : dop) : dist C * dev :=
    match o with
    | Req g n w d => let '(s', r) := next_chunk_for g n w d s in (s', EReq r)
    | Ck g n st srv qd => let '(s', r, j) := checkpoint g n st srv qd s in (s', ECk r j)
    | Fork => (fork s, EFork)
    end.

  (** chunk_distributor.py 92-292: a sequence of calls. *)
  Fixpoint drun (s : dist C) (ops : list dop) : dist C * list dev :=
    match ops with
    | [] => (s, [])
    | o :: ops' => let '(s1, e) := dstep s o in let '(s2, es) := drun s1 ops' in (s2, e :: es)
    end.
End Dist.
Arguments Absent {A}. Arguments Partial {A}. Arguments Full {A}.
Arguments saved : clear implicits. Arguments job : clear implicits. Arguments disk : clear implicits. Arguments dev : clear implicits.
