(** Processes of a training job that uses Mixtera through Hugging Face's datasets. *)
From Verif Require Import Base MixtureKeyModel UtilsModel ChunkGenModel DistributorModel SpecDistributor HfModel.
Open Scope Z_scope.

(** The data loader worker a process is: its own id, or 0 if the data is loaded in the main process. *)
Definition own_worker (p : place) : Z := match pl_worker p with Some (id, _) => id | None => 0 end.
(** Ranks and worker ids are numbered from 0. *)
Definition place_ok (p : place) : Prop :=
  (match pl_dist p with Some (rank, world) => 0 <= rank < world | None => True end) /\
  (match pl_worker p with Some (id, num) => 0 <= id < num | None => True end).

(** The process that worker [w] of a node of group [g] is, in a job set up the way it was registered: the dataset is split
    over the [dp] groups (split_dataset_by_node), and each node loads its data with the registered number of data loader
    workers (0: in the main process). *)
Definition as_registered (q : qargs) (g w : Z) : place :=
  Place false (Some (g, qa_dp q)) (if 0 <? qa_nw q then Some (w, qa_nw q) else None).
(** The same without a split dataset: only one group.  [own]: the dataset is used as it is, or after map etc. *)
Definition unsplit (own : bool) (q : qargs) (w : Z) : place := Place own None (if 0 <? qa_nw q then Some (w, qa_nw q) else None).
