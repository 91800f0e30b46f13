(** Specification vocabulary for the mixture log on disk (C81). *)
From Verif Require Import Base MixtureKeyModel ChunkGenModel SpecChunk MixLogModel.
Open Scope Z_scope.

(** All files written by a history of one consumer, in order. *)
Fixpoint all_writes (fuel : nat) (ops : list qop) (q : qr) : list wr :=
  match ops with
  | [] => []
  | Next h :: ops' => next_writes fuel h q ++ all_writes fuel ops' (fst (qr_next fuel h q))
  | Update h r :: ops' => all_writes fuel ops' (qr_update_mixture h r q)
  end.

(** The mixture each delivered chunk was made with: [ms] = one mixture per call, [os] = one result per call. *)
Fixpoint delivered (ms : list mixobj) (os : list nout) : list mixobj :=
  match ms, os with
  | m :: ms', NChunk _ :: os' => m :: delivered ms' os'
  | _ :: ms', _ :: os' => delivered ms' os'
  | _, _ => []
  end.

(** [e] is the JSON form of the row numbers [rows]: the text of each key, with its number, and nothing else. *)
Definition json_of (rows : list (mkey * Z)) (e : list (str * Z)) : Prop :=
  forall s v, aget str_eqb s e = Some v <-> exists k, key_str k = s /\ aget mkey_eqb k rows = Some v.

(** The log says that chunk [i] was made with row numbers [rows]: the entry with the greatest index not above [i]. *)
Definition log_says (f : logfile) (i : Z) (rows : list (mkey * Z)) : Prop :=
  exists j e, j <= i /\ aget Z.eqb j (lf_log f) = Some e /\ (forall j', j < j' <= i -> aget Z.eqb j' (lf_log f) = None)
  /\ json_of rows e.

(** The file, if there is one, is right about all these chunks; it must be there if there are any. *)
Definition log_right (f : option logfile) (ms : list mixobj) : Prop :=
  forall i m, nth_error ms i = Some m -> exists f0, f = Some f0 /\ log_says f0 (Z.of_nat i) (m_rows m).

(** The number of the last chunk. *)
Definition last_index {A} (l : list A) : option Z := match l with [] => None | _ => Some (Z.of_nat (length l) - 1) end.

(** Different keys of a mixture have different texts. *)
Definition texts_differ (h : heap) : Prop :=
  forall r k k' v v', aget mkey_eqb k (m_rows (h r)) = Some v -> aget mkey_eqb k' (m_rows (h r)) = Some v' -> key_str k = key_str k' -> k = k'.

(** A mixture object that is arbitrary at one time is arbitrary at all later times. *)
Definition stay_arbitrary (hs : list heap) : Prop :=
  forall i j h h' r, (i <= j)%nat -> nth_error hs i = Some h -> nth_error hs j = Some h' -> m_rows (h r) = [] -> m_rows (h' r) = [].

(** No call raised an exception other than StopIteration. *)
Definition no_error (os : list nout) : Prop := Forall (fun o => match o with NErr _ => False | _ => True end) os.

(** [curr_chunk_idx] of the file: one more than the greatest index of its entries. *)
Definition next_right (f : option logfile) : Prop :=
  forall f0, f = Some f0 -> exists j e, aget Z.eqb j (lf_log f0) = Some e /\ (forall j', j < j' -> aget Z.eqb j' (lf_log f0) = None) /\ lf_next f0 = j + 1.
