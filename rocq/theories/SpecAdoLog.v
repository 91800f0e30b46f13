(** Specification of C91: what the log of ADO holds, in terms of the messages and of an ADO object without a log. *)
From Verif Require Import Base UtilsModel ChunkGenModel DynModel SpecDyn SpecAdoFit AdoLogModel.
From Coq Require Import QArith.
Open Scope Z_scope.

(** The messages of a history. *)
Definition messages (es : list levent) : list fb := flat_map (fun e => match e with Reports f _ => [f] | Saves _ => [] end) es.
Definition outcome_of (e : levent) : outcome := match e with Reports _ w => w | Saves w => w end.

Section Spec.
  Variables (fl : Q -> Q) (cfg : config) (P : Type).
  (** The messages; the answers of ADO and its state after every step, counted from 1. *)
  Variables (l : list fb) (answer : nat -> option (list Q)) (after : nat -> ado P).
  (** Step [T] computes a mixture; it has an entry if it does, or if it is before the first mixture. *)
  Definition mixes (T : nat) : bool := match answer T with Some _ => true | None => false end.
  Definition has_entry (T : nat) : bool := (Z.of_nat T <? c_start cfg) || mixes T.
  (** What is written down about step [T]. *)
  Definition tells (T : nat) (e : entry P) : Prop :=
    e_step P e = Z.of_nat T
    /\ e_counts P e = map (fun k => zsum (counts_of k (firstn T l))) (seq 0 (widest (firstn T l)))
    /\ length (e_losses P e) = widest (firstn T l)
    /\ (forall k, float_sum fl (length (losses_of k (firstn T l))) (losses_of k (firstn T l)) (nth k (e_losses P e) 0%Q))
    /\ (if Z.of_nat T <? c_start cfg then e_mixed P e = None
        else exists m, e_mixed P e = Some m /\ x_pi P m = answer T /\ x_h P m = o_h P (after T) /\ x_pibar P m = o_pibar P (after T) /\ x_laws P m = o_params P (after T)).
  (** The steps at which laws are fitted. *)
  Definition fits_at (T : nat) : bool := (Z.of_nat T =? c_start cfg) || ((c_start cfg <=? Z.of_nat T) && ((Z.of_nat T - c_start cfg) mod c_interval cfg =? 0)).
  (** One line per domain and fit: step, domain, law. *)
  Definition fit_lines (T : nat) : list (Z * nat * option P) :=
    map (fun k => (Z.of_nat T, k, match o_params P (after T) with Some ps => nth_error ps k | None => None end)) (seq 0 (widest (firstn T l))).
  Definition complete (g : alog P) : Prop :=
    Forall2 tells (filter has_entry (seq 1 (length l))) (g_entries P g)
    /\ map (fun w => (w_step P w, w_domain P w, Some (w_law P w))) (g_laws P g) = flat_map fit_lines (filter fits_at (seq 1 (length l)))
    /\ g_counts P g = map fb_counts l.
End Spec.

(** The file holds the log as it was after [es]. *)
Definition holds {P} (state : list levent -> lstate P) (es : list levent) (f : file P) : Prop :=
  f = Whole P (mkContent P (l_log P (state es)) (o_mu P (l_ado P (state es)))).
(** Event [e] after [es] asks for a write: a save, the entry of every 5000th step, and, in the third variant, every mixture but the first. *)
Definition asks (cfg : config) (answer : nat -> option (list Q)) (es : list levent) (e : levent) : Prop :=
  match e with
  | Saves _ => True
  | Reports _ _ =>
      let T := S (length (messages es)) in
      (Z.of_nat T mod 5000 = 0 /\ has_entry cfg answer T = true)
      \/ (c_variant cfg = AdjustedV3 /\ mixes answer T = true /\ exists T', (1 <= T' < T)%nat /\ mixes answer T' = true)
  end.
(** The last write that was asked for and done is that of [e] after [es1]. *)
Definition last_write (cfg : config) (answer : nat -> option (list Q)) (es es1 : list levent) (e : levent) : Prop :=
  exists es2, es = es1 ++ e :: es2 /\ asks cfg answer es1 e /\ outcome_of e = Written
    /\ forall es3 e' es4, es2 = es3 ++ e' :: es4 -> asks cfg answer (es1 ++ e :: es3) e' -> outcome_of e' <> Written.
Definition no_write (cfg : config) (answer : nat -> option (list Q)) (es : list levent) : Prop :=
  forall es3 e' es4, es = es3 ++ e' :: es4 -> asks cfg answer es3 e' -> outcome_of e' <> Written.
