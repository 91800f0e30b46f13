(** C33: saving where something may already be.  Model: SerialModel.v (utils.py 318-420). *)
From Verif Require Import Base MixtureKeyModel MixtureKeyProofs ChunkerModel SpecChunker SerialModel SpecSerial PropertiesSerial.
Open Scope Z_scope.

(** Whatever is at the path before ([before]: None = nothing): if the save succeeds, loading gives the index that was saved; if a directory
    is there, the save fails (mkdir raises FileExistsError before anything is written, 323) and never passes for a save of the new index. *)
Theorem C33_whatever_is_there idx before : is_index idx -> no_empty idx ->
  (forall fs res, saved idx before (Some fs) -> loaded fs res -> exists p, res = Some p /\ akeys p = akeys idx /\ same_index p idx) /\
  (forall fs r, before = Some fs -> saved idx before r -> r = None).
Proof.
  intros W E. split.
  - intros fs res S L. assert (before = None) as -> by (inversion S; reflexivity). exact (C33_roundtrip idx fs res W E S L).
  - intros fs r -> S. inversion S. reflexivity.
Qed.
Print Assumptions C33_whatever_is_there.

(** Saving a second index at the path of the first one fails; [ex_idx] has two keys and two datasets. *)
Example C33_whatever_example : is_index ex_idx /\ no_empty ex_idx /\
  exists fs, saved ex_idx None (Some fs) /\ saved [] (Some fs) None /\ forall r, saved [] (Some fs) r -> r = None.
Proof.
  destruct C33_hypotheses_hold as (A & B & fs & res & S & _). split; [exact A|]. split; [exact B|]. exists fs. split; [exact S|].
  split; [constructor|]. intros r H. inversion H. reflexivity.
Qed.
