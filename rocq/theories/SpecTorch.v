(** What a training job sees of its data over checkpoints and restarts. *)
From Verif Require Import Base MixtureKeyModel UtilsModel ChunkGenModel DistributorModel SpecDistributor TorchModel.
Open Scope Z_scope.

(** The samples a trainer saw in consecutive lives of a job, where every life after the first non-empty one starts by
    repeating the last sample of the one before: the repetitions removed. *)
Definition continue_with {X} (a b : list X) : list X := match a with [] => b | _ => a ++ tl b end.
Definition joined {X} (lives : list (list X)) : list X := fold_left continue_with lives [].
(** Every life after the first non-empty one does start by repeating the last sample seen (or is empty so far). *)
Definition starts_with_last {X} (a b : list X) : Prop :=
  match rev a, b with y :: _, z :: _ => z = y | _, _ => True end.
Fixpoint chained {X} (seen : list X) (lives : list (list X)) : Prop :=
  match lives with
  | [] => True
  | b :: more => starts_with_last seen b /\ chained (continue_with seen b) more
  end.

Section Spec.
  Context {C X : Type}.
  Variable src : nat -> qout C.
  Variable items : C -> list X.
  Variables dp nodes nw : Z.
  Variable cached : bool.

  (** The samples the trainer has taken from a worker in this life of the job. *)
  Definition took (x : worker X) : list X := firstn (t_seen x) (t_out x).

  (** A good moment for the last node to report for a checkpoint: [reports] (of the other nodes) are still up to date;
      the trainer has taken everything the workers have yielded; every worker has either never had a chunk, or has
      yielded a sample of the chunk it is at; and the nodes of a group are at the same sample. *)
  Definition settled (W : p3 -> worker X) (lives : p3 -> list (list X)) (reports : list (p2 * list Z)) : Prop :=
    (forall g n st, In ((g, n), st) reports -> st = statuses W (eff_workers nw) g n) /\
    (forall g n w, valid_slot dp nodes (eff_workers nw) g n w ->
       t_seen (W (g, n, w)) = length (t_out (W (g, n, w))) /\
       ((t_chunks (W (g, n, w)) = O /\ joined (lives (g, n, w)) = []) \/ (0 < t_done (W (g, n, w)))%nat) /\
       forall n', 0 <= n' < nodes -> t_status (W (g, n', w)) = t_status (W (g, n, w))).

  (** [training s W lives reports]: a job can reach distributor state [s] and worker states [W]; [lives t] are the samples
      the trainer took from worker [t] in the lives of the job before the current one; [reports] are the reports of the
      current checkpoint round.  A restart is from the checkpoint just completed, at a good moment. *)
  Inductive training : dist C -> (p3 -> worker X) -> (p3 -> list (list X)) -> list (p2 * list Z) -> Prop :=
  | tr_start s : dist_init dp nodes nw cached 0 = Ok s -> training s (fun _ => fresh_worker) (fun _ => []) []
  | tr_step s W lives reports o s' W' es : training s W lives reports -> tstep src items s W o = (s', W', es) ->
      (forall g n srv qd, o = TReport g n srv qd -> 0 <= g < dp /\ 0 <= n < nodes) ->
      training s' W' lives (round reports (map fst es) (map snd es))
  | tr_restart s W lives reports g n srv qd s1 id j v k s2 : training s W lives reports -> settled W lives reports ->
      0 <= g < dp -> 0 <= n < nodes ->
      checkpoint g n (statuses W (eff_workers nw) g n) srv qd s = (s1, CkId id, Some j) ->
      adjusted j = Ok v -> aget Z.eqb id (k_ck k) = Some (Full v, Full (v_calls (j_state j))) -> k_qr k = Full tt ->
      from_checkpoint k id = Ok s2 ->
      training s2 (fun _ => fresh_worker) (fun t => lives t ++ [took (W t)]) [].
End Spec.

(** A job that runs [ops1], whose last step completes a checkpoint, is killed, restored from that checkpoint and runs
    [ops2]; [before] and [after]: the samples the trainer took from each worker in the two lives, [s] and [W] the final
    state.  Nothing is assumed about the moment of the checkpoint. *)
Definition interrupted {C X} (src : nat -> qout C) (items : C -> list X) (dp nodes nw : Z) (ops1 ops2 : list top)
    (before after : p3 -> list X) (s : dist C) (W : p3 -> worker X) : Prop :=
  exists s0 s1 W1 es o id j v k s2 es2,
    dist_init dp nodes nw true 0 = Ok s0 /\
    trun src items s0 (fun _ => fresh_worker) ops1 = (s1, W1, es ++ [(o, ECk (CkId id) (Some j))]) /\
    adjusted j = Ok v /\ k_qr k = Full tt /\ aget Z.eqb id (k_ck k) = Some (Full v, Full (v_calls (j_state j))) /\
    from_checkpoint k id = Ok s2 /\
    trun src items s2 (fun _ => fresh_worker) ops2 = (s, W, es2) /\
    before = (fun t => took (W1 t)) /\ after = (fun t => took (W t)).

(** Worker [t] has reached the end of its data and the trainer has taken everything. *)
Definition at_end {C X} (src : nat -> qout C) (t : p3) (s : dist C) (W : p3 -> worker X) : Prop :=
  t_rest (W t) = [] /\ t_seen (W t) = length (t_out (W t)) /\
  match t with (g, n, w) => exists s', next_chunk_for src g n w true s = (s', DStop) end.
