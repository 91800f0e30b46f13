(** Model of mixtera/torch/mixtera_torch_dataset.py (MixteraTorchDataset) on top of the chunk distributor: data loader
    workers that stream their chunks, the shared array with the worker statuses, the trainer that takes samples from the
    workers, and checkpoints reported with the statuses.

    Simplifications.  [items c] are the samples a chunk yields when nothing is skipped, in order (ResultChunkModel; C23: a
    chunk with [k] samples to skip yields the samples from the [k]-th on, with the same indices).  The data loader's queue
    between a worker and the trainer is first in, first out and of any size (batching only groups samples).  Every worker
    iterates over the dataset once per process.  Requests to the distributor are atomic (DistributorModel). *)
From Verif Require Import Base MixtureKeyModel UtilsModel ChunkGenModel DistributorModel.
Open Scope Z_scope.

Section Torch.
  Context {C X : Type}.
  Variable src : nat -> qout C.
  Variable items : C -> list X.

  (** A data loader worker: the generator of [__iter__] and its slot in the status array. *)
  (** mixtera_torch_dataset.py 250-282: a data loader worker in __iter__. *)
  Record worker := mkWorker {
    t_status : Z;              (** status_array[worker_id] *)
    t_chunks : nat;            (** how many chunks this process has got *)
    t_done : nat;              (** how many samples of the current chunk it has yielded *)
    t_rest : list (Z * X);     (** what is left of the current chunk: (sample index in the chunk, sample) *)
    t_out : list X;            (** everything it has yielded *)
    t_seen : nat               (** how many of these the trainer has taken *)
  }.

  (** mixtera_torch_dataset.py 140-150 (_init_status_shm) and 262: all statuses start at 0. *)
  Definition fresh_worker : worker := mkWorker 0 0 0 [] [] 0.

  (** mixtera_torch_dataset.py 250-282: only one worker's state changes. *)
  Definition wupd (W : p3 -> worker) (t : p3) (x : worker) : p3 -> worker := fun t' => if p3_eqb t t' then x else W t'.

  (** result_chunk.py 273-274: the samples from the [k]-th on, with their indices in the chunk. *)
  Fixpoint numbered (i : Z) (l : list X) : list (Z * X) :=
    match l with [] => [] | x :: l' => (i, x) :: numbered (i + 1) l' end.
  (** result_chunk.py 273-274. *)
  Definition chunk_samples (c : C) (k : Z) : list (Z * X) := numbered k (skipn (Z.to_nat k) (items c)).

  (** mixtera_torch_dataset.py 240-248 worker_status of node [n] in group [g]. *)
  Definition statuses (W : p3 -> worker) (nw g n : Z) : list Z := map (fun w => t_status (W (g, n, w))) (zrange 0 nw).

  Inductive top :=
  | TFetch (g n w : Z)                   (** the worker asks for its next chunk *)
  | TYield (g n w : Z)                   (** the worker yields its next sample *)
  | TTake (g n w : Z)                    (** the trainer takes the worker's next sample *)
  | TReport (g n : Z) (srv qd : bool).   (** checkpoint.py 11-64: node [n] of group [g] reports its worker statuses *)

  (** One step of the job; the second component is the request it makes of the distributor, if any, with the answer. *)
  Definition tstep (s : dist C) (W : p3 -> worker) (o : top) : dist C * (p3 -> worker) * list (dop * dev C) :=
    match o with
    | TFetch g n w =>                                            (* mixtera_client.py 279-289: only when the chunk is used up *)
        let x := W (g, n, w) in
        match t_rest x with
        | _ :: _ => (s, W, [])
        | [] =>
            let '(s', r) := next_chunk_for src g n w true s in   (* chunk_distributor.py 191-217 *)
            let W' := match r with
                      | DChunk _ c k => wupd W (g, n, w)
                          (mkWorker (t_status x) (S (t_chunks x)) 0 (chunk_samples c k) (t_out x) (t_seen x))
                      | _ => W
                      end in
            (s', W', [(Req g n w true, EReq r)])
        end
    | TYield g n w =>
        let x := W (g, n, w) in
        match t_rest x with
        | [] => (s, W, [])
        | (i, y) :: rest =>                                      (* mixtera_torch_dataset.py 266-268 *)
            (s, wupd W (g, n, w) (mkWorker i (t_chunks x) (S (t_done x)) rest (t_out x ++ [y]) (t_seen x)), [])
        end
    | TTake g n w =>
        let x := W (g, n, w) in
        (s, wupd W (g, n, w) (mkWorker (t_status x) (t_chunks x) (t_done x) (t_rest x) (t_out x)
                                       (Nat.min (S (t_seen x)) (length (t_out x)))), [])
    | TReport g n srv qd =>                                      (* checkpoint.py 49-55 *)
        let st := statuses W (d_nw s) g n in
        let '(s', r, j) := checkpoint g n st srv qd s in
        (s', W, [(Ck g n st srv qd, ECk r j)])
    end.

  (** mixtera_torch_dataset.py 250-282 and checkpoint.py 51-65: a job, step by step. *)
  Fixpoint trun (s : dist C) (W : p3 -> worker) (ops : list top) : dist C * (p3 -> worker) * list (dop * dev C) :=
    match ops with
    | [] => (s, W, [])
    | o :: ops' => let '(s1, W1, e1) := tstep s W o in let '(s2, W2, e2) := trun s1 W1 ops' in (s2, W2, e1 ++ e2)
    end.
End Torch.
Arguments worker : clear implicits.
