(** Specification of C89: the history of a domain that its scaling law is fitted to, in terms of the messages.
    Steps are numbered from 0. *)
From Verif Require Import Base UtilsModel SpecDyn.
From Coq Require Import QArith.
Open Scope Z_scope.

Definition no_msg : fb := Fb [] [] 0.
Definition msg (l : list fb) (i : nat) : fb := nth i l no_msg.
(** Tokens of key [k] in step [i]; with [same] every key sampled so far is credited with all tokens of the step. *)
Definition tokens (same : bool) (l : list fb) (i k : nat) : Z :=
  if same then (if 0 <? zsum (counts_of k (firstn (S i) l)) then zsum (fb_counts (msg l i)) else 0)
  else nth k (fb_counts (msg l i)) 0.
(** Tokens of key [k] up to and including step [i]. *)
Definition upto (same : bool) (l : list fb) (i k : nat) : Z := zsum (map (fun j => tokens same l j k) (seq 0 (S i))).
(** Loss per token of key [k] in step [i]. *)
Definition step_loss (fl : Q -> Q) (l : list fb) (i k : nat) : Q :=
  if nth k (fb_counts (msg l i)) 0 =? 0 then 0%Q
  else fl (nth k (fb_losses (msg l i)) 0 / inject_Z (nth k (fb_counts (msg l i)) 0%Z))%Q.
(** With [same], a step without loss repeats the one before. *)
Fixpoint last_loss (fl : Q -> Q) (same : bool) (l : list fb) (i k : nat) : Q :=
  let x := step_loss fl l i k in
  if same then match i with O => x | S j => if Qeq_bool x 0 then last_loss fl same l j k else x end else x.
(** The steps that have a loss. *)
Definition loss_steps (fl : Q -> Q) (same : bool) (l : list fb) (k : nat) : list nat :=
  filter (fun i => same || negb (Qle_bool (step_loss fl l i k) 0)) (seq 0 (length l)).
(** Every [n]-th element, the first one included. *)
Definition thinned {A} (n : Z) (l : list A) : list A :=
  if 1 <? n then flat_map (fun i => match nth_error l (i * Z.to_nat n) with Some x => [x] | None => [] end) (seq 0 (length l)) else l.

(** No message reports fewer keys than an earlier one; with [same], the first one counts something and no count is negative. *)
Definition steady_growth (same : bool) (l : list fb) : Prop :=
  (forall l1 f l2, l = l1 ++ f :: l2 -> (widest l1 <= length (fb_losses f))%nat)
  /\ (same = true -> Forall (fun f => Forall (fun c => 0 <= c) (fb_counts f)) l
      /\ match l with [] => True | f :: _ => Exists (fun c => 0 < c) (fb_counts f) end).

(** Tokens as samples of [d] tokens. *)
Definition in_samples (fl : Q -> Q) (d : option Z) (x : Z) : Q :=
  match d with None => inject_Z x | Some d => if Z.leb d 1 then inject_Z x else fl (inject_Z x / inject_Z d)%Q end.
(** The steps after the ignored ones, by which key [k] was sampled. *)
Definition counted (same : bool) (l : list fb) (ignore : Z) (k : nat) (i : nat) : bool := (ignore <? Z.of_nat i) && (0 <? upto same l i k).
(** The points of key [k], given the values [zs] of its steps with a loss: step, tokens so far (as samples), value. *)
Definition law_points (fl : Q -> Q) (same : bool) (d : option Z) (sub ignore : Z) (l : list fb) (k : nat) (zs : list Q) : list (nat * Q * Q) :=
  map (fun p : nat * Q => (fst p, in_samples fl d (upto same l (fst p) k), snd p))
      (thinned sub (filter (fun p : nat * Q => counted same l ignore k (fst p)) (combine (loss_steps fl same l k) zs))).
(** Step number [T] (counted from 1) is one at which the laws are fitted. *)
Definition due (start interval T : Z) : Prop := T = start \/ (start <= T /\ (T - start) mod interval = 0).
(** The losses of key [k], one for each step with a loss. *)
Definition own_losses (fl : Q -> Q) (same : bool) (l : list fb) (k : nat) : list Q := map (fun i => last_loss fl same l i k) (loss_steps fl same l k).
