(** Model of the waiting of the local client (mixtera/utils/utils.py 42-57 wait_for_key_in_dict; its three uses in
    core/client/local/local_stub.py 97-100, 174-182) against the table of running jobs that other threads of the
    process fill at any moment (local_stub.py 148-172 _register_query, 194-213 restore_checkpoint).
    Simplifications: time is counted in whole milliseconds (the code uses a float clock that is assumed not to be set
    back); every step between two looks at the clock or at the table takes an arbitrary non-negative time that the
    schedule decides; a look at the table is atomic (a Python dict under the interpreter lock). *)
From Coq Require Import ZArith List Bool.
Import ListNotations.
Open Scope Z_scope.

Section Wait.
  (** local_stub.py 161-169: what the table holds for a job (distributor, query and mixture), kept abstract. *)
  Variable V : Type.

  (** local_stub.py 161-169, 209-213: one assignment to the table: at this time, of this job, this entry. *)
  Record assignment := Asg { a_time : Z; a_job : Z; a_val : V }.

  (** local_stub.py 39-40 (the table starts empty), 161-169, 209-213: assignments in the order they happened. *)
  Definition history := list assignment.

  (** local_stub.py 40, 161-169, 209-213: the dict read at time [t]: the last assignment to the job made by then (local_stub.py never deletes an entry). *)
  Fixpoint lookup (h : history) (j t : Z) : option V :=
    match h with
    | [] => None
    | a :: h' =>
        match lookup h' j t with
        | Some v => Some v
        | None => if andb (Z.eqb (a_job a) j) (Z.leb (a_time a) t) then Some (a_val a) else None
        end
    end.

  (** utils.py 54, 57: [key in dictionary] at time [t]. *)
  Definition present (h : history) (j t : Z) : bool :=
    match lookup h j t with Some _ => true | None => false end.

  (** The time one turn of the loop takes (utils.py 54-57): from the look at the table to the look at the clock, what the
      sleep takes beyond the half second asked for, and from leaving the loop to the final look at the table. *)
  Record delays := Delays { d_clock : nat; d_over : nat; d_ret : nat }.

  (** utils.py 55: time.sleep(0.5). *)
  Definition nap : Z := 500.

  (** utils.py 54-57: the loop entered at [now]; [None]: the schedule given ends before the loop does. Result and time of
      the final look. *)
  Fixpoint wait_loop (h : history) (j deadline now : Z) (ds : list delays) : option (bool * Z) :=
    match ds with
    | [] => None
    | d :: ds' =>
        if present h j now then
          let e := now + Z.of_nat (d_ret d) in Some (present h j e, e)
        else
          let c := now + Z.of_nat (d_clock d) in
          if c <=? deadline then wait_loop h j deadline (c + nap + Z.of_nat (d_over d)) ds'
          else let e := c + Z.of_nat (d_ret d) in Some (present h j e, e)
    end.

  (** utils.py 42-57: called at [start]; the first delay of the schedule's head is not used for line 52, so the loop
      starts [lag] after the clock was read there. *)
  Definition wait_for_key (h : history) (j timeout start : Z) (lag : nat) (ds : list delays) : option (bool * Z) :=
    wait_loop h j (start + timeout) (start + Z.of_nat lag) ds.

  (** local_stub.py 97-100. *)
  Definition wait_for_execution (h : history) (j start : Z) (lag : nat) (ds : list delays) : option (bool * Z) :=
    wait_for_key h j 30000 start lag ds.

  (** local_stub.py 174-182: what a request that needs the job's distributor gets: its entry, "Unknown job" or a KeyError. *)
  Inductive got := Got (v : V) | Unknown | KeyErr.

  (** local_stub.py 174-182 (_get_query_result and _get_query_chunk_distributor): wait, then read the table [late] later. *)
  Definition get_job (h : history) (j start : Z) (lag : nat) (ds : list delays) (late : nat) : option (got * Z) :=
    match wait_for_key h j 60000 start lag ds with
    | None => None
    | Some (false, e) => Some (Unknown, e)
    | Some (true, e) =>
        let r := e + Z.of_nat late in
        match lookup h j r with
        | Some v => Some (Got v, r)
        | None => Some (KeyErr, r)
        end
    end.
End Wait.
Arguments Asg {V}. Arguments a_time {V}. Arguments a_job {V}. Arguments a_val {V}.
Arguments lookup {V}. Arguments present {V}. Arguments wait_loop {V}. Arguments wait_for_key {V}.
Arguments wait_for_execution {V}. Arguments get_job {V}. Arguments Got {V}. Arguments Unknown {V}. Arguments KeyErr {V}.
