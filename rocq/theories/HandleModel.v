(** Model of mixtera/utils/checkpoint.py (handle_mixtera_checkpoint): every node reports, the node (0, 0) writes the id of
    the checkpoint into the file mixtera.id of the training framework's checkpoint directory, every node polls until the
    checkpoint is completed.  On top of the chunk distributor (DistributorModel) with the processes that write checkpoints.

    Simplifications.  One call is made of the visible steps below, interleaved with everything else in any order.  The
    worker statuses are any lists (TorchModel has where they come from).  Requests to the distributor are atomic.  The
    directory of the checkpoints is used by this job only.  [sleep] between polls is not modelled: a poll can come at any
    time.  lines 45-49 (checkpoint_path is a directory, the loader has a Mixtera dataset) are assumed to have passed. *)
From Verif Require Import Base MixtureKeyModel UtilsModel ChunkGenModel DistributorModel.
Open Scope Z_scope.

Section Handle.
  Context {C : Type}.
  Variable src : nat -> qout C.

  (** A process started by _start_checkpointing, chunk_distributor.py 413-429: what it writes, how far it is, whether it
      was killed. *)
  Record proc := mkProc { p_job : job C; p_pc : pc; p_killed : bool }.

  (** Where a node is in handle_mixtera_checkpoint.  [wait] is its argument wait_for_disk. *)
  Inductive phase :=
  | HIdle                            (** never called *)
  | HOpen (id : Z) (wait : bool)     (** has its id; (0, 0) is about to open mixtera.id *)
  | HWrite (id : Z) (wait : bool)    (** (0, 0) has opened (and so emptied) mixtera.id *)
  | HWait (id : Z) (wait : bool)     (** polling *)
  | HReturned (id : Z)               (** returned *)
  | HRaised.                         (** raised *)

  (** utils/checkpoint.py 10-68: all nodes at their places in it, the distributor they call, and the disk. *)
  Record hstate := mkH {
    h_dist : dist C;
    h_phase : p2 -> phase;
    h_file : fstate Z;               (** mixtera.id *)
    h_procs : list (Z * proc);       (** _checkpoint_info[id]["process"] *)
    h_disk : disk C
  }.

  (** utils/checkpoint.py 30-68: inside a call. *)
  Definition is_busy (p : phase) : bool := match p with HOpen _ _ | HWrite _ _ | HWait _ _ => true | _ => false end.
  (** Record update; utils/checkpoint.py 10-68. *)
  Definition pupd (f : p2 -> phase) (t : p2) (x : phase) : p2 -> phase := fun t' => if p2_eqb t t' then x else f t'.
  (** Record update; utils/checkpoint.py 10-68. *)
  Definition with_phase (h : hstate) (t : p2) (x : phase) : hstate :=
    mkH (h_dist h) (pupd (h_phase h) t x) (h_file h) (h_procs h) (h_disk h).

  (** What chunk_distributor.py 547-553 sees of the process of checkpoint [id] (exit code -9 after SIGKILL, 1 after an
      exception). *)
  Definition proc_state (h : hstate) (id : Z) : pstat :=
    match aget Z.eqb id (h_procs h) with
    | None => PAlive
    | Some p => if p_killed p then PExit (-9)
                else match p_pc p with PDone => PExit 0 | PFailed => PExit 1 | _ => PAlive end
    end.

  Inductive hev :=
  | HReq (g n w : Z) (deser : bool)                       (** a worker asks for a chunk *)
  | HReport (g n : Z) (st : list Z) (srv wait : bool)     (** checkpoint.py 51-58 *)
  | HFile (g n : Z)                                       (** checkpoint.py 60-63: open, then write and close *)
  | HPoll (g n : Z)                                       (** checkpoint.py 65-66 *)
  | HProc (id : Z)                                        (** a step of the writing process *)
  | HKill (id : Z).                                       (** it is killed *)

  (** The directory <chkpnt_dir>/queryresult exists, chunk_distributor.py 383 and query_result.py 653-654. *)
  Definition qdir_exists (k : disk C) : bool := match k_qr k with Absent => false | _ => true end.

  (** utils/checkpoint.py 10-68, chunk_distributor.py 218-292, 432-556: one step of a node or of the writing process. *)
  Definition hstep (h : hstate) (e : hev) : hstate :=
    match e with
    | HReq g n w d => mkH (fst (next_chunk_for src g n w d (h_dist h))) (h_phase h) (h_file h) (h_procs h) (h_disk h)
    | HReport g n st srv wait =>
        if is_busy (h_phase h (g, n)) then h              (* a node makes one call at a time *)
        else
          let '(s', r, j) := checkpoint g n st srv (qdir_exists (h_disk h)) (h_dist h) in
          mkH s'
              (pupd (h_phase h) (g, n)
                 (match r with CkErr _ => HRaised | CkId id => if (g =? 0) && (n =? 0) then HOpen id wait else HWait id wait end))
              (h_file h)
              (match j with Some j => aset Z.eqb (j_id j) (mkProc j PCopy false) (h_procs h) | None => h_procs h end)
              (h_disk h)
    | HFile g n =>
        match h_phase h (g, n) with
        | HOpen id wait => mkH (h_dist h) (pupd (h_phase h) (g, n) (HWrite id wait)) Partial (h_procs h) (h_disk h)
        | HWrite id wait => mkH (h_dist h) (pupd (h_phase h) (g, n) (HWait id wait)) (Full id) (h_procs h) (h_disk h)
        | _ => h
        end
    | HPoll g n =>
        match h_phase h (g, n) with
        | HWait id wait =>
            match checkpoint_completed (h_dist h) id wait (proc_state h id) with
            | Err _ => with_phase h (g, n) HRaised
            | Ok true => with_phase h (g, n) (HReturned id)
            | Ok false => h
            end
        | _ => h
        end
    | HProc id =>
        match aget Z.eqb id (h_procs h) with
        | Some p => if p_killed p then h
                    else let '(pc', k') := persist_step (p_job p) (p_pc p) (h_disk h) in
                         mkH (h_dist h) (h_phase h) (h_file h) (aset Z.eqb id (mkProc (p_job p) pc' false) (h_procs h)) k'
        | None => h
        end
    | HKill id =>
        match aget Z.eqb id (h_procs h) with
        | Some p => match p_pc p with
                    | PDone | PFailed => h                (* it has exited already *)
                    | _ => mkH (h_dist h) (h_phase h) (h_file h) (aset Z.eqb id (mkProc (p_job p) (p_pc p) true) (h_procs h)) (h_disk h)
                    end
        | None => h
        end
    end.

  (** utils/checkpoint.py 10-68: any interleaving. *)
  Definition hrun (h : hstate) (evs : list hev) : hstate := fold_left hstep evs h.

  (** A job that starts: no call was made; the file and the directory are as left by whoever was there before. *)
  (** utils/checkpoint.py 10-68: nobody has called it yet. *)
  Definition hstart (s : dist C) (k : disk C) (f : fstate Z) : hstate := mkH s (fun _ => HIdle) f [] k.
End Handle.
Arguments proc : clear implicits. Arguments hstate : clear implicits.
