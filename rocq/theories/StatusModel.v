(** Model of the status array of mixtera/torch/mixtera_torch_dataset.py: what the main process of a node reads as
    [worker_status] (240-248) while its data is loaded, in data loader workers or in the main process itself, and what
    handle_mixtera_checkpoint (utils/checkpoint.py 51-57) does with it.

    Simplifications.  Data loader workers are forked (they inherit the mapping; spawned ones attach by name).  Shared memory
    keeps its contents as long as a mapping exists.  Reads and writes of one slot are atomic.  A numpy array over the buffer
    of a closed SharedMemory object (its [buf] is None) is fresh, uninitialised memory: [Junk]. *)
From Verif Require Import Base MixtureKeyModel UtilsModel ChunkGenModel.
Open Scope Z_scope.

(** Where a node loads its data; [HfMain]: in the main process through the Hugging Face dataset, whose shards
    (mixtera_hf_dataset.py 90-99) share one SharedMemory object with the dataset that is asked for the status. *)
Inductive loading := TorchMain | HfMain | Workers.
(** mixtera_torch_dataset.py 144, 205-210: the attribute _status_shm of the dataset object in the main process. *)
(** mixtera_torch_dataset.py 144, 207-210: open, closed, or set to None. *)
Inductive handle := Open | Closed | Gone.
(** mixtera_torch_dataset.py 139-146: the array and the main process's handle. *)
Record shm := Shm { sh_array : list Z; sh_handle : handle }.

(** What happens in worker [w] of the node (in the main process: [w] = 0). *)
Inductive sev :=
| SStart (w : Z)               (** iteration starts: 262 *)
| SYield (w : Z) (i : Z)       (** the [i]-th sample of the current chunk is yielded: 267 *)
| SEnd (w : Z).                (** iteration ends: the data ended, an exception, or the iterator was dropped: 270-282 *)

(** mixtera_torch_dataset.py 139-146 (_init_status_shm) *)
Definition shm_init (num_workers : Z) : shm := Shm (repeat 0 (Z.to_nat num_workers)) Open.

(** mixtera_torch_dataset.py 262, 267: status_array[worker_id] = x. *)
Fixpoint set_slot (i : nat) (x : Z) (l : list Z) : list Z :=
  match l, i with [], _ => [] | _ :: l', O => x :: l' | y :: l', S j => y :: set_slot j x l' end.
(** mixtera_torch_dataset.py 262, 267: a write by the process that iterates; [visible]: it goes to the shared memory. *)
(** mixtera_torch_dataset.py 262, 267. *)
Definition write (visible : bool) (w x : Z) (s : shm) : shm :=
  if visible then Shm (set_slot (Z.to_nat w) x (sh_array s)) (sh_handle s) else s.
(** mixtera_torch_dataset.py 256-258: does a write reach the memory the main process reads. *)
Definition sees (m : loading) (s : shm) : bool :=
  match m, sh_handle s with Workers, _ | _, Open => true | _, _ => false end.
(** mixtera_torch_dataset.py 250-282: one event in the process that iterates. *)
Definition shm_step (m : loading) (s : shm) (e : sev) : shm :=
  match e with
  | SStart w => write (sees m s) w 0 s
  | SYield w i => write (sees m s) w i s
  | SEnd w =>                                       (* 201-237 _cleanup_shared_memory, in the process that iterated *)
      match m with
      | Workers => s                                (* a worker's own objects *)
      | TorchMain => Shm (sh_array s) Gone          (* 205-210 *)
      | HfMain => Shm (sh_array s) (match sh_handle s with Open => Closed | h => h end)   (* the shard's attribute is set to None *)
      end
  end.
(** mixtera_torch_dataset.py 250-282, several events. *)
Definition shm_run (m : loading) (s : shm) (evs : list sev) : shm := fold_left (shm_step m) evs s.

(** mixtera_torch_dataset.py 251: can an iteration start *)
Definition can_start (m : loading) (s : shm) : res unit :=
  match m, sh_handle s with TorchMain, Gone => Err AssertionError | _, _ => Ok tt end.

(** mixtera_torch_dataset.py 240-248: the list, None, or arbitrary numbers from a closed mapping. *)
Inductive answer := Status (l : list Z) | NoStatus | Junk.
(** mixtera_torch_dataset.py 239-248 worker_status *)
Definition worker_status (s : shm) : answer :=
  match sh_handle s with Open => Status (sh_array s) | Closed => Junk | Gone => NoStatus end.
(** utils/checkpoint.py 51-57 with network/connection/server_connection.py 632-635: what is reported to the server.
    [len(None)] raises.  [None]: whatever the memory held. *)
Definition reported (a : answer) : res (option (list Z)) :=
  match a with Status l => Ok (Some l) | NoStatus => Err TypeError | Junk => Ok None end.
