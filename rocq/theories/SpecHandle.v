(** Vocabulary of C63. *)
From Verif Require Import Base MixtureKeyModel UtilsModel ChunkGenModel DistributorModel HandleModel.
Open Scope Z_scope.

(** A job with [dp] groups of [nodes] nodes begins: a new one, or one restored from a checkpoint in the directory [k]. *)
Definition job_begins {C} (dp nodes : Z) (s : dist C) (k : disk C) : Prop :=
  (exists nw cached, dist_init dp nodes nw cached 0 = Ok s)
  \/ (exists id, from_checkpoint k id = Ok s /\ d_dp s = dp /\ d_nodes s = nodes).

(** Only nodes of the job call. *)
Definition from_job (dp nodes : Z) (e : hev) : Prop :=
  match e with HReport g n _ _ _ => 0 <= g < dp /\ 0 <= n < nodes | _ => True end.
(** Every node waits for the disk and no writing process is killed. *)
Definition careful (e : hev) : Prop := match e with HReport _ _ _ _ wait => wait = true | HKill _ => False | _ => True end.

(** The node is inside its call, holding checkpoint id [id]. *)
Definition holds (p : phase) (id : Z) : Prop := exists wait, p = HOpen id wait \/ p = HWrite id wait \/ p = HWait id wait.

(** Restoring [id] from the directory gives the state the distributor had when the last node reported, with every worker
    one chunk back (the state [adjusted] of the job of that checkpoint, which C20 is about). *)
Definition restores {C} (h : hstate C) (id : Z) : Prop :=
  exists p v s2, aget Z.eqb id (h_procs h) = Some p /\ j_id (p_job p) = id /\ adjusted (p_job p) = Ok v
    /\ from_checkpoint (h_disk h) id = Ok s2
    /\ d_calls s2 = v_calls (j_state (p_job p)) /\ d_cache s2 = v_cache v /\ d_usage s2 = v_usage v /\ d_next s2 = v_next v.
