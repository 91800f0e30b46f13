(** Specification of tokenised chunks: windows of a token list. *)
From Verif Require Import Base ChunkGenModel TokenModel.
Local Open Scope nat_scope.

(** The [i]-th window of [n] tokens when windows start [step] tokens apart. *)
Definition window_at (n step i : nat) (T : list Z) : list Z := firstn n (skipn (i * step) T).

(** How many complete windows there are. *)
Definition window_count (n step : nat) (T : list Z) : nat :=
  if length T <? n then 0 else (length T - n) / step + 1.

Definition all_windows (n step : nat) (T : list Z) : list (list Z) :=
  map (fun i => window_at n step i T) (seq 0 (window_count n step T)).

(** [n] tokens, repeating [T] cyclically. *)
Definition cyclic (n : nat) (T : list Z) : list Z := map (fun i => nth (i mod length T) T 0%Z) (seq 0 n).

(** What a token stream [T] should be turned into: all complete windows of [len+1] tokens, starting [len] tokens apart
    (overlapping by one token) or [len+1] tokens apart (disjoint); if there is no complete window but there are tokens
    and at least one sample was asked for, one window that repeats the tokens. *)
Definition token_spec (len : nat) (overlap one : bool) (T : list Z) : list (list Z) :=
  let step := if overlap then len else len + 1 in
  if (length T <? len + 1) && (0 <? length T) && one then [cyclic (len + 1) T] else all_windows (len + 1) step T.

(** The concatenated tokens of the samples. *)
Definition token_stream {A} (ids : A -> list Z) (items : list A) : list Z := flat_map ids items.

(** The number of turns of a schedule in which the chosen thread could run. *)
Fixpoint effective {A} (c : tkcfg A) (sched : list who) (s : thst A) : nat :=
  match sched with
  | [] => 0
  | w :: sched' => match th_turn c w s with Some s' => S (effective c sched' s') | None => effective c sched' s end
  end.

(** Some thread can run. *)
Definition can_run {A} (c : tkcfg A) (s : thst A) : Prop := exists w s', th_turn c w s = Some s'.

Definition is_consumer (w : who) : bool := match w with Consumer => true | Producer => false end.
