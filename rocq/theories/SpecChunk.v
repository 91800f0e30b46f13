(** Specification vocabulary for chunks: which rows (dataset id, file id, row number) an index or a chunk lists. *)
From Verif Require Import Base MixtureKeyModel UtilsModel ChunkGenModel.
Open Scope Z_scope.

(** (dataset id, file id, row number) *)
Definition row := (Z * Z * Z)%type.

(** The rows of one half-open range of file [f] of dataset [d]. *)
Definition range_rows (d f : Z) (r : range) : list row := map (fun i => (d, f, i)) (zrange (fst r) (snd r)).

(** All rows listed for one key. *)
Definition rows_of (p : part) : list row :=
  flat_map (fun df => flat_map (fun fr => flat_map (range_rows (fst df) (fst fr)) (snd fr)) (snd df)) p.

(** All rows listed in an index or chunk. *)
Definition all_rows (c : index) : list row := flat_map (fun kp => rows_of (snd kp)) c.

(** The rows an index or chunk lists under key [k]. *)
Definition rows_under (k : mkey) (c : index) : list row :=
  flat_map (fun kp => if mkey_eqb (fst kp) k then rows_of (snd kp) else []) c.

(** The number a mixture (dict) gives to key [k]; 0 if absent. *)
Definition asked (m : list (mkey * Z)) (k : mkey) : Z :=
  match aget mkey_eqb k m with Some v => v | None => 0 end.

(** A mixture: a dict (distinct keys) of non-negative row numbers. *)
Definition mixture_ok (m : list (mkey * Z)) : Prop := NoDup (map fst m) /\ Forall (fun kv => 0 <= snd kv) m.

(** Ranges of one file: sorted and pairwise disjoint: each range ends before the next one starts. *)
Fixpoint ranges_sorted (l : list range) : Prop :=
  match l with
  | r :: l' => fst r <= snd r /\ Forall (fun r' => snd r <= fst r') l' /\ ranges_sorted l'
  | [] => True
  end.

(** ** Well-formed query results
    Distinct keys (each a dict: distinct property names), distinct dataset and file ids, ranges of a file sorted and
    disjoint, and no row under two keys.  This is what the chunker builds (C31, C32). *)
Record index_ok (idx : index) : Prop := {
  ix_keys : NoDup (map fst idx);
  ix_dict : forall k p, In (k, p) idx -> NoDup (map fst k);
  ix_ds : forall k p, In (k, p) idx -> NoDup (map fst p);
  ix_files : forall k p d fs, In (k, p) idx -> In (d, fs) p -> NoDup (map fst fs);
  ix_ranges : forall k p d fs f rs, In (k, p) idx -> In (d, fs) p -> In (f, rs) fs -> ranges_sorted rs;
  ix_rows : NoDup (all_rows idx)
}.

(** Every mixture object in the heap is a dict with non-negative numbers and a non-negative chunk size. *)
Definition heap_ok (h : heap) : Prop := forall r, mixture_ok (m_rows (h r)) /\ 0 <= m_csize (h r).

(** ** Histories of a QueryResult
    A user calls [next()], or installs a mixture with [update_mixture]; between calls mixture objects may change. *)
Inductive qop := Next (h : heap) | Update (h : heap) (r : ref).
Definition op_heap (o : qop) : heap := match o with Next h => h | Update h _ => h end.

Fixpoint qrun (fuel : nat) (ops : list qop) (q : qr) : qr * list nout :=
  match ops with
  | [] => (q, [])
  | Next h :: ops' => let '(q1, o) := qr_next fuel h q in
                      let '(q2, os) := qrun fuel ops' q1 in (q2, o :: os)
  | Update h r :: ops' => qrun fuel ops' (qr_update_mixture h r q)
  end.

(** The chunks among the results. *)
Definition chunks (os : list nout) : list rchunk :=
  flat_map (fun o => match o with NChunk c => [c] | _ => [] end) os.

(** [q] with results [os] is reachable from a fresh QueryResult. *)
Definition reachable (fuel : nat) (idx : index) (order : list mkey) (q : qr) (os : list nout) : Prop :=
  exists h0 r0 son ops,
    heap_ok h0 /\ Forall (fun o => heap_ok (op_heap o)) ops /\ qrun fuel ops (qr_init idx order h0 r0 son) = (q, os).

(** ** Requested mixtures *)
Definition same_dict (a b : list (mkey * Z)) : Prop := forall k, aget mkey_eqb k a = aget mkey_eqb k b.

(** The mixture object each [next()] of a history works with: the installed one at the time of the call, except that
    after a failed call (no chunk) the generator keeps working with the mixture object of the failed call ([held]). *)
Fixpoint working (ops : list qop) (os : list nout) (inst : ref) (held : option ref) : list mixobj :=
  match ops, os with
  | Update _ r :: ops', _ => working ops' os r held
  | Next h :: ops', o :: os' =>
      let r := match held with Some r => r | None => inst end in
      h r :: working ops' os' inst (match o with NChunk _ => None | _ => Some r end)
  | _, _ => []
  end.

(** Their contents: row numbers per key; empty for an arbitrary mixture. *)
Definition requests (ops : list qop) (os : list nout) (inst : ref) (held : option ref) : list (list (mkey * Z)) :=
  map m_rows (working ops os inst held).

(** All mixture objects are arbitrary mixtures with a positive chunk size. *)
Definition arbitrary_heap (h : heap) : Prop := forall r, m_rows (h r) = [] /\ 1 <= m_csize (h r).

(** ** Requests to one property combination (C07) *)
(** Reading order: by dataset, then by file, then by row. *)
Definition row_lt (a b : row) : Prop :=
  let '(d, f, i) := a in let '(d', f', i') := b in d < d' \/ (d = d' /\ (f < f' \/ (f = f' /\ i < i'))).

(** What requests of the given sizes get from a list of rows. *)
Fixpoint served {A} (rows : list A) (ns : list Z) : list (list A) :=
  match ns with
  | [] => []
  | n :: ns' => firstn (Z.to_nat n) rows :: served (skipn (Z.to_nat n) rows) ns'
  end.

(** Sending the given numbers to one component coroutine; [None] = StopIteration (then and for ever after). *)
Fixpoint comp_requests (st : list frange) (ns : list Z) : list (option part) :=
  match ns with
  | [] => []
  | n :: ns' => match comp_send st n with
                | Some (p, st') => Some p :: comp_requests st' ns'
                | None => None :: map (fun _ => None) ns'
                end
  end.

(** The rows of an answer, in the order the answer lists them. *)
Definition answer_rows (o : option part) : list row := match o with Some p => rows_of p | None => [] end.
