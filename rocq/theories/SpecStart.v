(** Specification vocabulary for the start of a distributed job (C78). *)
From Verif Require Import Base MixtureKeyModel NetModel SpecNet ProtoModel ServerModel SpecProto StartModel.
Open Scope Z_scope.

Section SpecStart.
  Context {Ob Ar St D : Type} (dumps : Ob -> list Z) (loads : list Z -> option Ob) (save : Ar -> list Z) (load : list Z -> option Ar) (job_of : Ob -> str).

  (** What the job's first process asks the server to do: execute its query with its arguments, or restore its checkpoint. *)
  Definition asked_task (p : proc Ob) : qtask Ob :=
    match pr_ckpt p with
    | None => TRegister (pr_query p) (Some (pr_mixture p)) (Some (pr_groups p)) (Some (pr_nodes p)) (Some (pr_workers p))
    | Some c => TRestore (Some (job_of (pr_query p))) (Some c)
    end.
  (** What is sent can be sent (C41): job ids and checkpoint ids are strings without surrogates, objects survive pickling. *)
  Definition sendable (procs : nat -> proc Ob) : Prop :=
    forall i, str_ok IDN (job_of (pr_query (procs i))) /\ (forall q : creq Ob Ar, q = start_request job_of (procs i) -> sent_ok dumps loads save load q).
  (** A request that reaches the server arrives whole, an answer that reaches the client as well. *)
  Definition whole (d : delivery) : Prop :=
    match d with Answered _ fr fr' => timely fr /\ timely fr' | Unanswered _ fr _ => timely fr | Unreached => True end.
  (** The processes of one job: the same job id, no two at the same position. *)
  Definition one_job (j : str) (procs : nat -> proc Ob) : Prop :=
    (forall i, job_of (pr_query (procs i)) = j)
    /\ (forall i k, pr_group (procs i) = pr_group (procs k) -> pr_node (procs i) = pr_node (procs k) -> i = k).
  (** Nobody else executes or restores the job [j]. *)
  Definition leaves_alone (j : str) (e : event) : Prop :=
    match e with
    | EServe _ r => match snd (read_request loads (load) r) with
                    | inl (Some (SRegisterQuery _ _ _ _ (Some query))) => job_of query <> j
                    | inl (Some (SRestore job _)) => job <> Some j
                    | _ => True
                    end
    | _ => True
    end.
  Definition jwhole (e : jevent) : Prop := match e with JStart _ d | JPoll _ d => whole d | JServer _ => True end.
  Definition jalone (j : str) (e : jevent) : Prop := match e with JServer e => leaves_alone j e | _ => True end.
End SpecStart.
