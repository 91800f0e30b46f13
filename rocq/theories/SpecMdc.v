(** What the catalogue should contain. *)
From Verif Require Import Base MixtureKeyModel ChunkGenModel ParserModel MdcModel.
Open Scope Z_scope.

(** A consistent catalogue: names and ids are unique, every file belongs to a dataset, every sample to a file of its
    dataset, and the ids to be handed out next are unused. *)
Definition consistent (s : db) : Prop :=
  NoDup (map fst (datasets s)) /\ NoDup (list_datasets s) /\
  NoDup (map fst (files s)) /\ NoDup (map fst (samples s)) /\
  (forall f d l, In (f, (d, l)) (files s) -> In d (map fst (datasets s)) /\ f < next_file s) /\
  (forall d f i r, In ((d, f, i), r) (samples s) -> exists l, In (f, (d, l)) (files s)) /\
  (forall d, In d (map fst (datasets s)) -> d < next_dataset s).

(** Everything that belongs to one dataset: its entry, its files and its samples. *)
Definition of_dataset (s : db) (did : Z) : list (str * dinfo) * list (Z * str) * list (Z * Z * record) :=
  (map snd (filter (fun d => fst d =? did) (datasets s)),
   map (fun f => (fst f, snd (snd f))) (filter (fun f => fst (snd f) =? did) (files s)),
   map (fun r => (snd (fst (fst r)), snd (fst r), snd r)) (filter (fun r => fst (fst (fst r)) =? did) (samples s))).

(** The files a new dataset gets: consecutive fresh ids, in order. *)
Definition new_files (s : db) (locs : list str) : list (Z * str) :=
  combine (map (fun k => next_file s + Z.of_nat k) (seq 0 (length locs))) locs.
