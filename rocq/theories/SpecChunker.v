(** What the index over a query's intervals should be (C32). *)
From Verif Require Import Base MixtureKeyModel ChunkerModel.
Open Scope Z_scope.

(** The property combination of a row: every non-NULL column with its values. *)
Definition cell_vals (c : vcell) : option (list str) :=
  match c with VNull => None | VStr s => Some [s] | VList l => Some (non_null l) | VBad => None end.
Fixpoint combo (cols : list str) (cells : list vcell) : mkey :=
  match cols, cells with
  | col :: cols', c :: cells' =>
      match cell_vals c with None => combo cols' cells' | Some vs => (col, vs) :: combo cols' cells' end
  | _, _ => []
  end.
(** The table's intervals of one combination, dataset and file, in the table's order. *)
Definition table_intervals (cols : list str) (rows : list trow) (k : mkey) (d f : Z) : list interval :=
  map (fun r => (tr_s r, tr_e r))
    (filter (fun r => mkey_eqb (combo cols (tr_cells r)) k && (tr_d r =? d) && (tr_f r =? f)) rows).
(** What index[k][d][f] holds; [] if any of the three is missing. *)
Definition index_at (p : pindex) (k : mkey) (d f : Z) : list interval :=
  getd Z.eqb f (getd Z.eqb d (getd mkey_eqb k p)).

(** A row the code can store: only strings and lists of strings, and an interval that does not run backwards. *)
Definition row_ok (r : trow) : Prop := ~ In VBad (tr_cells r) /\ tr_s r <= tr_e r.
(** A table has a cell for each column in each row. *)
Definition rectangular (cols : list str) (rows : list trow) : Prop :=
  Forall (fun r => length (tr_cells r) = length cols) rows.
(** Text without separators: column names without ';' and ':', values without ';' and ',' and no empty last value. *)
Definition clean_name (n : str) : Prop := ~ In semicolon n /\ ~ In colon n.
Definition clean_vals (vs : list str) : Prop :=
  (forall v, In v vs -> ~ In semicolon v /\ ~ In comma v) /\ last vs [0] <> [].
Definition clean (cols : list str) (rows : list trow) : Prop :=
  NoDup cols /\ Forall clean_name cols /\
  Forall (fun r => Forall (fun kv => clean_vals (snd kv)) (combo cols (tr_cells r))) rows.
(** No two rows list the same values of a property in different orders. *)
Definition one_order (cols : list str) (rows : list trow) : Prop :=
  forall r r', In r rows -> In r' rows -> canon (combo cols (tr_cells r)) = canon (combo cols (tr_cells r')) ->
    combo cols (tr_cells r) = combo cols (tr_cells r').
Definition iv_le (a b : interval) : Prop := fst a < fst b \/ (fst a = fst b /\ snd a <= snd b).
(** All levels of the index have unique keys and no empty values. *)
Definition wf_f (fs : list (Z * list interval)) : Prop := NoDup (akeys fs) /\ (forall f iv, In (f, iv) fs -> iv <> []).
Definition wf_d (ds : list (Z * list (Z * list interval))) : Prop :=
  NoDup (akeys ds) /\ (forall d fs, In (d, fs) ds -> fs <> [] /\ wf_f fs).
Definition wf_i {K} (idx : list (K * list (Z * list (Z * list interval)))) : Prop :=
  NoDup (akeys idx) /\ (forall k ds, In (k, ds) idx -> ds <> [] /\ wf_d ds).
