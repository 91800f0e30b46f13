(** Model of mixtera/hf/mixtera_hf_dataset.py (MixteraHFDataset): how a process of a training job that uses Hugging Face's
    IterableDataset finds the slot (group, node, worker) as which it streams its chunks.

    The library's side, `datasets.IterableDataset.__iter__`, is part of the model: it shards the examples iterable by
    (world size, rank) if the dataset was split by node, then by (number of data loader workers, worker id) inside a data
    loader worker.  Not modelled: transformations of the dataset (map, batch ...) around it; the streaming itself
    (TorchModel). *)
From Verif Require Import Base MixtureKeyModel UtilsModel ChunkGenModel DistributorModel ChunkerModel SerialModel.
Open Scope Z_scope.

(** QueryExecutionArgs, mixtera_client.py 24-29. *)
Record qargs := QArgs { qa_dp : Z; qa_nodes : Z; qa_nw : Z }.
(** A _MixteraHFIterable: dp_group_id, node_id and worker_id of its ResultStreamingArgs, and _shard_call_count. *)
(** mixtera_hf_dataset.py 20-48: the attributes of the iterable that decide which slot is streamed. *)
Record hfit := HfIt { hf_g : Z; hf_n : Z; hf_w : Z; hf_count : Z }.
(** A process.  [pl_own]: it iterates over the MixteraHFDataset object itself; false: over a dataset the library derived
    from it (split_dataset_by_node, map, ... return a plain IterableDataset around the same _MixteraHFIterable).
    [pl_dist]: its rank and the world size if the dataset is split by node (`_distributed`).  [pl_worker]: the id of the
    data loader worker and their number, inside a worker (torch's get_worker_info()). *)
(** mixtera_hf_dataset.py 64-99: the process asking: own dataset object, split_dataset_by_node, data loader worker. *)
Record place := Place { pl_own : bool; pl_dist : option (Z * Z); pl_worker : option (Z * Z) }.

Section Hf.
  Variable q : qargs.

  (** mixtera_torch_dataset.py 73-74; also run for every shard (mixtera_hf_dataset.py 88-99). *)
  Definition hf_new (it : hfit) : res hfit :=
    if (hf_g it <? qa_dp q) && (hf_n it <? qa_nodes q) then Ok it else Err AssertionError.

  (** mixtera_hf_dataset.py 63-66 num_shards *)
  Definition hf_num_shards : Z := Z.max (qa_nw q) 1 * Z.max (qa_dp q) 1 * 8.
  (** mixtera_torch_dataset.py 181-183 num_workers *)
  Definition hf_num_workers : Z := Z.max (qa_nw q) 1.

  (** mixtera_hf_dataset.py 73-99 shard_data_sources *)
  Definition hf_shard (num index : Z) (it : hfit) : res hfit :=
    if (num =? Z.max (qa_nw q) 1) || (num =? qa_dp q)
    then hf_new (HfIt (hf_g it) (hf_n it) index (hf_count it + 1))
    else Err AssertionError.

  (** mixtera_torch_dataset.py 185-196 worker_id of the base class *)
  Definition torch_worker_id (p : place) : res Z :=
    let w := match pl_worker p with None => 0 | Some (id, _) => id end in
    if w <? hf_num_workers then Ok w else Err AssertionError.

  (** mixtera_hf_dataset.py 101-121 validate_state; the worker id it settles on. *)
  Definition hf_validate (p : place) (it : hfit) : res Z :=
    if negb (0 <? hf_count it) then Err AssertionError                                   (* 102-107 *)
    else if negb (hf_count it <=? 2) then Err AssertionError                             (* 108 *)
    else if hf_count it =? 1 then
      let fixed := if qa_nw q =? 0
                   then if hf_w it =? hf_g it then Ok 0 else Err AssertionError          (* 112-117 *)
                   else Ok (hf_w it) in
      match fixed, torch_worker_id p with
      | Ok w, Ok t => if t =? w then Ok w else Err AssertionError                        (* 119-121 *)
      | Err e, _ | _, Err e => Err e
      end
    else Ok (hf_w it).

  (** mixtera_hf_dataset.py 167-179: what MixteraHFDataset.__iter__ checks. *)
  Definition hf_checks (p : place) (it : hfit) : bool :=
    if negb (pl_own p) then true
    else match pl_dist p with
    | Some (rank, world) => (world =? qa_dp q) && (rank =? hf_g it)
    | None => (qa_dp q =? 1) && (hf_g it =? 0)
    end.

  (** The library: iterable_dataset.py _prepare_ex_iterable_for_iteration. *)
  (** Called for mixtera_hf_dataset.py 73-99 shard_data_sources. *)
  Definition hf_by_node (p : place) (it : hfit) : res hfit :=
    match pl_dist p with
    | Some (rank, world) => if hf_num_shards mod world =? 0 then hf_shard world rank it else Ok it
    | None => Ok it
    end.
  (** If the number of shards is not a multiple of the world size, every rank keeps only each world-th example it reads. *)
  (** Called for mixtera_hf_dataset.py 64-99. *)
  Definition hf_step (p : place) : option (Z * Z) :=
    match pl_dist p with Some (rank, world) => if hf_num_shards mod world =? 0 then None else Some (rank, world) | None => None end.
  (** The library: _iter_pytorch; [None]: a worker without a shard yields nothing. *)
  (** Called for mixtera_hf_dataset.py 73-99 shard_data_sources. *)
  Definition hf_by_worker (p : place) (it : hfit) : res (option hfit) :=
    match pl_worker p with
    | None => Ok (Some it)
    | Some (id, num) =>
        if id <? hf_num_shards
        then match hf_shard num id it with Ok it' => Ok (Some it') | Err e => Err e end
        else Ok None
    end.

  (** mixtera_hf_dataset.py 165-181 and 123-127, mixtera_torch_dataset.py 250-266: the slot as which the process streams,
      once it has got through all checks.  The worker's id is also its index in the status array (IndexError). *)
  Definition hf_iterate (p : place) (it : hfit) : res (option p3) :=
    if negb (hf_checks p it) then Err AssertionError
    else match hf_by_node p it with
    | Err e => Err e
    | Ok it1 =>
        match hf_by_worker p it1 with
        | Err e => Err e
        | Ok None => Ok None
        | Ok (Some it2) =>
            match hf_validate p it2 with
            | Err e => Err e
            | Ok w => if (- hf_num_workers <=? w) && (w <? hf_num_workers) then Ok (Some (hf_g it2, hf_n it2, w)) else Err IndexError
            end
        end
    end.
  (** The whole process: construction (mixtera_hf_dataset.py 137-149) and iteration.  [w0]: the worker_id in the arguments,
      which the caller usually leaves at its default 0. *)
  Definition hf_process (g n w0 : Z) (p : place) : res (option p3) :=
    match hf_new (HfIt g n w0 0) with Err e => Err e | Ok it => hf_iterate p it end.

  (** mixtera_hf_dataset.py 181-185: what happens when the stream has ended.  MixteraHFDataset's own __iter__ then logs the
      worker_id (68-71) of its examples iterable, of which only the shards, not it itself, have been sharded. *)
  Definition hf_worker_id (it : hfit) : res Z := if 0 <? hf_count it then Ok (hf_w it) else Err AssertionError.
  (** mixtera_hf_dataset.py 165-185. *)
  Definition hf_after_end (g n w0 : Z) (p : place) : res unit :=
    if pl_own p then match hf_worker_id (HfIt g n w0 0) with Ok _ => Ok tt | Err e => Err e end else Ok tt.
End Hf.

(** mixtera_hf_dataset.py 123-135: the separator of example keys. *)
Definition dash : Z := 45.
(** mixtera_hf_dataset.py 130: the key of a process's [idx]-th sample. *)
Definition sample_key (t : p3) (idx : Z) : str :=
  match t with (g, n, w) => int_str g ++ dash :: int_str n ++ dash :: int_str w ++ dash :: int_str idx end.
(** mixtera_hf_dataset.py 128: the key id of every token of a tokenised sample. *)
Definition token_key_ids {T} (sample : list T) (key_id : Z) : list Z := map (fun _ => key_id) sample.
