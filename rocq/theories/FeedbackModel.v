(** Model of the way training feedback takes: mixtera/utils/feedback.py (handle_mixtera_feedback, called by every process
    of a training job), mixtera/core/client/local/local_stub.py 215-223 (process_feedback), mixture.py 60-88 and the
    overrides in dynamic_mixture.py and mixture_schedule.py.  What lies between a client and a server is ProtoModel /
    ServerModel; the dynamic mixing algorithm is DynModel.

    Simplifications.  Finding the dataset in the caller's object (_recover_mixtera_dataset) is a boolean here (see
    RecoverModel).  Converting losses and counts to numpy arrays (feedback.py 25-26) is the identity.  A dtype mix-up is
    not modelled. *)
From Coq Require Import QArith.
From Verif Require Import Base MixtureKeyModel UtilsModel ChunkGenModel ClientModel MixtureModel DynModel.
Open Scope Z_scope.

Section Feedback.
  Context {S : Type}.
  Variable fl : Q -> Q.
  Variable nsum : list Q -> Q.
  (** the dynamic mixing algorithm: DynamicMixingAlgorithm.process_losses, and being told the initial mixture *)
  Variable process : list Q -> list Z -> Z -> S -> S * (option (list Q) + exn).
  Variable inform : list Q -> S -> S.

  (** client_feedback.py *)
  (** client_feedback.py 1-11: ClientFeedback. *)
  Record message := Message { f_steps : Z; f_mixture : Z; f_losses : option (list Q); f_counts : option (list Z) }.

  (** The mixture classes, as far as feedback is concerned: [MPlain] is StaticMixture, HierarchicalStaticMixture,
      InferringMixture or ArbitraryMixture; [MSchedule] keeps its entries sorted by start step. *)
  (** mixture.py 16-27, mixture_schedule.py 13-44, dynamic_mixture.py 18-43: the mixture classes, as far as feedback is concerned. *)
  Inductive mix :=
  | MPlain (step : Z) (rows : list (mkey * Z))
  | MDynamic (step : Z) (d : dyn S)
  | MSchedule (step : Z) (entries : list (Z * mix)).

  (** mixture.py 71-79 *)
  Definition step_of (m : mix) : Z := match m with MPlain s _ | MDynamic s _ | MSchedule s _ => s end.
  (** mixture.py 71-79 _update_training_step. *)
  Definition set_step (s : Z) (m : mix) : mix :=
    match m with MPlain _ r => MPlain s r | MDynamic _ d => MDynamic s d | MSchedule _ e => MSchedule s e end.
  (** _process_losses: mixture.py 84-88 does nothing, dynamic_mixture.py 87-105 overrides it; mixture_schedule.py does not. *)
  Definition take_losses (losses : list Q) (counts : list Z) (mixture_id : Z) (m : mix) : mix * option exn :=
    match m with
    | MDynamic s d => let '(d', e) := dyn_losses fl nsum process losses counts mixture_id d in (MDynamic s d', e)
    | _ => (m, None)
    end.
  (** mixture.py 60-69 process_client_feedback *)
  Definition client_feedback (f : message) (m : mix) : mix * option exn :=
    let m := set_step (Z.max (step_of m) (f_steps f)) m in
    match f_counts f, f_losses f with
    | Some c, Some l => take_losses l c (f_mixture f) m
    | _, _ => (m, None)
    end.
  (** mixture.py 81-82 process_id_map; overridden in dynamic_mixture.py only *)
  Definition id_map (key_id : list (mkey * Z)) (m : mix) : mix * option exn :=
    match m with
    | MDynamic s d => let '(d', e) := process_id_map fl nsum inform key_id d in (MDynamic s d', e)
    | _ => (m, None)
    end.
  (** mixture_in_rows: dynamic_mixture.py 55-56; mixture_schedule.py 47-55, 67-80 *)
  Fixpoint rows_of (fuel : nat) (m : mix) : list (mkey * Z) :=
    match m with
    | MPlain _ r => r
    | MDynamic _ d => dy_rows d
    | MSchedule s entries =>
        match fuel, match find (fun e => fst e <=? s) (rev entries) with Some e => Some e | None => nth_error entries 0 end with
        | Datatypes.S fuel', Some (_, e) => rows_of fuel' e
        | _, _ => []
        end
    end.

  (** local_stub.py 215-223: the jobs of the stub and their mixtures. *)
  Definition jobs := list (str * mix).
  (** local_stub.py 215-223 process_feedback. *)
  Definition process_feedback (job : str) (f : message) (t : jobs) : jobs * (bool + exn) :=
    match aget str_eqb job t with
    | None => (t, inl false)
    | Some m => let '(m', e) := client_feedback f m in
                (aset str_eqb job m' t, match e with None => inl true | Some e => inr e end)
    end.

  (** ** utils/feedback.py *)
  (** A call of handle_mixtera_feedback by the process with these ranks. *)
  (** utils/feedback.py 10-13: arguments of handle_mixtera_feedback, and the rank of the caller. *)
  Record call := Call { c_dp : Z; c_tp : Z; c_steps : Z; c_losses : option (list Q); c_counts : option (list Z) }.
  (** 13-31: what is sent, if anything; [mark] is the mixture id shared by the data loader workers of the process. *)
  Definition to_send (has_dataset : bool) (mark : Z) (c : call) : res (option message) :=
    if c_steps c <? 0 then Err AssertionError
    else if negb (c_dp c =? 0) || negb (c_tp c =? 0) then Ok None
    else if negb has_dataset then Ok None
    else match current_mixture_id mark with
         | None => Err AssertionError
         | Some i => Ok (Some (Message (c_steps c) i (c_losses c) (c_counts c)))
         end.

  (** What happens in a training run: a data loader worker of a process starts a chunk or ends, some process calls
      handle_mixtera_feedback, another job sends feedback, or the query tells the mixture about new keys.  All processes
      with ranks (0, 0) (one for each pipeline stage) have their own clients: [who] is the pipeline stage. *)
  Inductive fevent :=
  | FWorker (who : Z) (e : wevent)
  | FCall (who : Z) (c : call)
  | FOther (job : str) (f : message)
  | FIds (key_id : list (mkey * Z)).
  (** mixtera_client.py 138 (the shared mixture id of each process) and local_stub.py 22-41 (the jobs). *)
  Record run := Run { r_marks : list (Z * Z); r_jobs : jobs }.
  (** mixtera_client.py 142-149. *)
  Definition mark_of (who : Z) (r : run) : Z := match aget Z.eqb who (r_marks r) with Some v => v | None => id_init end.
  (** 34-36: a failure is only logged; an exception of a local client reaches the training loop. *)
  Definition fstep (job : str) (r : run) (e : fevent) : run * option exn :=
    match e with
    | FWorker who w => (Run (aset Z.eqb who (id_step w (mark_of who r)) (r_marks r)) (r_jobs r), None)
    | FCall who c => match to_send true (mark_of who r) c with
                     | Err x => (r, Some x)
                     | Ok None => (r, None)
                     | Ok (Some f) => let '(t, a) := process_feedback job f (r_jobs r) in
                                      (Run (r_marks r) t, match a with inl _ => None | inr x => Some x end)
                     end
    | FOther j f => (Run (r_marks r) (fst (process_feedback j f (r_jobs r))), None)
    | FIds k => match aget str_eqb job (r_jobs r) with
                | None => (r, None)
                | Some m => (Run (r_marks r) (aset str_eqb job (fst (id_map k m)) (r_jobs r)), None)
                end
    end.
  (** utils/feedback.py 10-37: any sequence of calls and chunk starts. *)
  Definition frun (job : str) (r : run) (evs : list fevent) : run := fold_left (fun r e => fst (fstep job r e)) evs r.
End Feedback.
Arguments mix : clear implicits.
Arguments run : clear implicits.
Arguments jobs : clear implicits.
