(** Model of the names of the shared memory segments of MixteraTorchDataset (torch/mixtera_torch_dataset.py 126-167, 201-237,
    22-41) and of the segments on one machine.

    Simplifications.  A machine's segments are a map from names to the dataset that created them (what a mapping that is
    already open sees is StatusModel.v).  [random.randint(0, 99)] is an argument.  SharedMemory.unlink removes whatever segment has the
    name.  A segment is not removed by Python's resource tracker. *)
From Coq Require Import String.
From Verif Require Import Base MixtureKeyModel ChunkerModel IntervalModel SerialModel ParserModel.
Open Scope Z_scope.

(** mixtera_torch_dataset.py 140, 152: which of the two segments of a dataset. *)
Inductive kind := KStatus | KComp.
(** mixtera_torch_dataset.py 126-167: what names the segments of a dataset, and the process that creates them. *)
Record ds := mkDs { d_rand : Z; d_group : Z; d_node : Z; d_job : str; d_pid : Z }.
(** mixtera_torch_dataset.py 142-143 and 152-153; [darwin]: sys.platform == "darwin". *)
Definition seg_name (darwin : bool) (k : kind) (d : ds) : str :=
  let s := (match k with KStatus => lit "mts_" | KComp => lit "mtc_" end) ++ int_str (d_rand d) ++ [underscore] ++ int_str (d_group d) ++ [underscore]
             ++ int_str (d_node d) ++ [underscore] ++ d_job d in
  if darwin then firstn 30 s else s.

(** The segments of a machine, each with the dataset that created it (144, 154), and for each process the names it will unlink when it exits (22, 164-165). *)
Record machine := mkMachine { m_segs : list (str * nat); m_names : list (Z * str) }.
(** mixtera_torch_dataset.py 144, 154: is there a segment of this name? *)
Definition seg (m : machine) (x : str) : option nat := aget str_eqb x (m_segs m).
(** mixtera_torch_dataset.py 33, 209, 224: SharedMemory.unlink; FileNotFoundError is caught (35-36, 211-215, 226-230). *)
Definition unlink (x : str) (m : machine) : machine := mkMachine (filter (fun e => negb (str_eqb (fst e) x)) (m_segs m)) (m_names m).

Section Machine.
  Variable darwin : bool.
  Variable sets : nat -> ds.
  (** mixtera_torch_dataset.py 126-167 _init_status_shm for dataset [d].  The second component: it succeeded; otherwise FileExistsError. *)
  Definition create (d : nat) (m : machine) : machine * bool :=
    let s := seg_name darwin KStatus (sets d) in
    let c := seg_name darwin KComp (sets d) in
    match seg m s with
    | Some _ => (m, false)                                                                    (* 144 *)
    | None =>
        let m1 := mkMachine ((s, d) :: m_segs m) (m_names m) in
        match seg m1 c with
        | Some _ => (m1, false)                                                               (* 154: the first segment stays *)
        | None => (mkMachine ((c, d) :: m_segs m1) ((d_pid (sets d), s) :: (d_pid (sets d), c) :: m_names m1), true)      (* 164-165 *)
        end
    end.
  (** What happens on the machine: a dataset is constructed (126-167), one of its processes cleans up with unlink (201-237, 274, 282), a process exits (25-41). *)
  Inductive mev := MCreate (d : nat) | MUnlink (d : nat) | MExit (pid : Z).
  (** mixtera_torch_dataset.py 126-167, 201-237, 25-41. *)
  Definition mstep (m : machine) (e : mev) : machine :=
    match e with
    | MCreate d => fst (create d m)
    | MUnlink d => unlink (seg_name darwin KComp (sets d)) (unlink (seg_name darwin KStatus (sets d)) m)
    | MExit pid =>
        let mine := filter (fun e => fst e =? pid) (m_names m) in
        let m' := fold_left (fun m e => unlink (snd e) m) mine m in
        mkMachine (m_segs m') (filter (fun e => negb (fst e =? pid)) (m_names m))
    end.
  (** A history of the machine (mixtera_torch_dataset.py 126-167, 201-237, 25-41). *)
  Definition mrun (evs : list mev) (m : machine) : machine := fold_left mstep evs m.
End Machine.
(** A machine without segments (mixtera_torch_dataset.py 22). *)
Definition no_segs : machine := mkMachine [] [].
