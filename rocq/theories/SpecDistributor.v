(** Vocabulary of the distributor properties, in terms of requests and their answers only. *)
From Verif Require Import Base MixtureKeyModel UtilsModel ChunkGenModel DistributorModel.
Open Scope Z_scope.

Section Spec.
  Context {C : Type}.

  (** The chunks (with the samples to skip) a (group, node, worker) was handed, oldest first. *)
  Fixpoint got_skip (g n w : Z) (ops : list dop) (es : list (dev C)) : list (C * Z) :=
    match ops, es with
    | Req g' n' w' _ :: ops', EReq (DChunk _ c k) :: es' =>
        if (g =? g') && (n =? n') && (w =? w') then (c, k) :: got_skip g n w ops' es' else got_skip g n w ops' es'
    | _ :: ops', _ :: es' => got_skip g n w ops' es'
    | _, _ => []
    end.
  Definition got (g n w : Z) (ops : list dop) (es : list (dev C)) : list C := map fst (got_skip g n w ops es).

  (** The chunks the query gave in its first [k] calls. *)
  Definition chunk_of (o : qout C) : list C := match o with QChunk c => [c] | _ => [] end.
  Definition taken (src : nat -> qout C) (k : nat) : list C := flat_map (fun i => chunk_of (src i)) (seq 0 k).

  (** The query never gives the same chunk twice (C01 for chunks with rows). *)
  Definition distinct_source (src : nat -> qout C) : Prop :=
    forall i j c, src i = QChunk c -> src j = QChunk c -> i = j.

  Definition valid_slot (dp nodes nw g n w : Z) : Prop := 0 <= g < dp /\ 0 <= n < nodes /\ 0 <= w < nw.

  (** Number of workers per node the distributor uses (0 stands for 1). *)
  Definition eff_workers (nw : Z) : Z := if 0 <? nw then nw else 1.

  (** The chunks in memory for a group and a worker. *)
  Definition in_memory (s : dist C) (g w : Z) : list (p2 * (C * Z)) :=
    filter (fun kv => (fst (fst kv) =? g) && ((snd (fst kv) - w) mod d_nw s =? 0)) (d_cache s).

  (** The reports of the current checkpoint round: who reported since the last checkpoint was started. A node whose
      report was refused because it had reported already, or because checkpoints are not supported, does not count;
      a report that made the round fail does. *)
  Fixpoint round (acc : list (p2 * list Z)) (ops : list dop) (es : list (dev C)) : list (p2 * list Z) :=
    match ops, es with
    | Ck g n st _ _ :: ops', ECk (CkId _) (Some _) :: es' => round [] ops' es'
    | Ck g n st _ _ :: ops', ECk (CkId _) None :: es' => round (acc ++ [((g, n), st)]) ops' es'
    | Ck g n st _ _ :: ops', ECk (CkErr RuntimeError) _ :: es' =>
        round (if existsb (p2_eqb (g, n)) (map fst acc) then acc else acc ++ [((g, n), st)]) ops' es'
    | _ :: ops', _ :: es' => round acc ops' es'
    | _, _ => acc
    end.

  (** How many checkpoints have been started. *)
  Fixpoint started (es : list (dev C)) : Z :=
    match es with
    | [] => 0
    | ECk _ (Some _) :: es' => 1 + started es'
    | _ :: es' => started es'
    end.

  (** Requests for checkpoints only come from nodes of the job. *)
  Definition ck_valid (dp nodes : Z) (o : dop) : Prop :=
    match o with Ck g n _ _ _ => 0 <= g < dp /\ 0 <= n < nodes | _ => True end.

  (** [x] is the largest index reported for worker [w] by a node of group [g]. *)
  Definition largest_reported (rep : list (p2 * list Z)) (g w x : Z) : Prop :=
    (exists n st, In ((g, n), st) rep /\ nth_error st (Z.to_nat w) = Some x) /\
    (forall n st y, In ((g, n), st) rep -> nth_error st (Z.to_nat w) = Some y -> y <= x).

  (** ** Resuming *)
  (** A history of chunk requests of the workers of the job. *)
  Definition only_requests (dp nodes nw : Z) (ops : list dop) : Prop :=
    Forall (fun o => match o with Req g n w _ => valid_slot dp nodes nw g n w | _ => False end) ops.
  (** The history without the first request of every worker in [pend], and what was answered to the rest. *)
  Fixpoint without_first (pend : list p3) (ops : list dop) (es : list (dev C)) : list dop * list (dev C) :=
    match ops, es with
    | Req g n w d :: ops', e :: es' =>
        if existsb (p3_eqb (g, n, w)) pend
        then without_first (filter (fun t => negb (p3_eqb (g, n, w) t)) pend) ops' es'
        else let '(o, r) := without_first pend ops' es' in (Req g n w d :: o, e :: r)
    | o :: ops', e :: es' => let '(os, r) := without_first pend ops' es' in (o :: os, e :: r)
    | _, _ => ([], [])
    end.
  (** Has the worker asked for a chunk? *)
  Definition asked_for (t : p3) (ops : list dop) : bool :=
    existsb (fun o => match o with Req g n w _ => p3_eqb (g, n, w) t | _ => false end) ops.
  (** The workers that had taken a chunk, given what everyone was handed. *)
  Definition had_chunk (dp nodes nw : Z) (D : Z -> Z -> Z -> list C) : list p3 :=
    filter (fun t => match t with (g, n, w) => negb (Nat.eqb (length (D g n w)) 0) end) (all_slots dp nodes nw).

  (** The life of a job over any number of checkpoints and restarts. [life s pend rep D]: the distributor is in state
      [s]; the workers in [pend] still have to be handed the chunk they were consuming at the checkpoint this process was
      restored from; [rep] are the reports of the current checkpoint round; [D g n w] are the chunks handed to a worker in
      the whole life of the job, oldest first, a chunk handed out again after a restart not counted twice.
      A restart is from the checkpoint [s] had just completed, as far as the job is concerned; [k] is whatever is on disk. *)
  Inductive life (src : nat -> qout C) (dp nodes nw : Z) (cached : bool)
    : dist C -> list p3 -> list (p2 * list Z) -> (Z -> Z -> Z -> list C) -> Prop :=
  | life_start s : dist_init dp nodes nw cached 0 = Ok s -> life src dp nodes nw cached s [] [] (fun _ _ _ => [])
  | life_run s pend rep D ops s' es : life src dp nodes nw cached s pend rep D ->
      drun src s ops = (s', es) -> Forall (ck_valid dp nodes) ops -> ~ In Fork ops ->
      life src dp nodes nw cached s' (filter (fun t => match t with (g, n, w) => Nat.eqb (length (got g n w ops es)) 0 end) pend)
           (round rep ops es)
           (fun g n w => D g n w ++ if existsb (p3_eqb (g, n, w)) pend then tl (got g n w ops es) else got g n w ops es)
  | life_restart s rep D g n st srv qd s1 id j v k s2 : life src dp nodes nw cached s [] rep D ->
      0 <= g < dp -> 0 <= n < nodes -> checkpoint g n st srv qd s = (s1, CkId id, Some j) ->
      (forall x st', In (x, st') (rep ++ [((g, n), st)]) -> eff_workers nw <= Z.of_nat (length st')) ->
      adjusted j = Ok v -> aget Z.eqb id (k_ck k) = Some (Full v, Full (v_calls (j_state j))) -> k_qr k = Full tt ->
      from_checkpoint k id = Ok s2 ->
      life src dp nodes nw cached s2 (had_chunk dp nodes (eff_workers nw) D) [] D.
End Spec.

(** How many chunks a worker has got, the one to be handed out again after a restart not counted. *)
Definition position {C} (pend : list p3) (D : Z -> Z -> Z -> list C) (g n w : Z) : nat :=
  (length (D g n w) - if existsb (p3_eqb (g, n, w)) pend then 1 else 0)%nat.

(** The last element, if there is one. *)
Definition last_of {A} (l : list A) : list A := match rev l with [] => [] | x :: _ => [x] end.
