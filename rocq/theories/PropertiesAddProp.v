(** C76: add_property either adds the calculated property to every sample or changes nothing. *)
From Coq Require Import String.
From Verif Require Import Base MixtureKeyModel ChunkGenModel ParserModel MdcModel ReaderModel ExecutorModel FilesModel AddPropModel.
Open Scope Z_scope.

(** The arguments the method documents as wrong, or as not implemented yet: an empty name, fewer than two buckets, an
    empty batch, a numerical property. *)
Definition rejected (a : args) : Prop := a_name a = [] \/ a_buckets a < 2 \/ a_batch a < 1 \/ a_type a = Numerical.
(** The arguments that should work: local execution on one process of a categorical property. *)
Definition accepted (a : args) : Prop :=
  a_name a <> [] /\ 2 <= a_buckets a /\ 1 <= a_batch a /\ a_type a = Categorical /\ a_mode a = LocalMode /\ a_dop a = 1.
(** What a successful call promises: the version changes, so that cached queries are recomputed, the registered data stays, and every
    sample of the catalogue has a value for the property. *)
Definition property_added (s s' : db) (name : str) : Prop :=
  version s' <> version s /\ datasets s' = datasets s /\ files s' = files s /\ map fst (samples s') = map fst (samples s) /\
  forall k r, In (k, r) (samples s') -> exists v, In (name, v) r.

Section C76.
  Context {P : Type} (ok : P -> bool) (rstrip : str -> str) (content : str -> option str).
  Notation add := (add_property ok rstrip content).

  Lemma add_unchanged s a setup calc : fst (add s a setup calc) = [] /\ snd (add s a setup calc) <> Done true.
  Proof.
    unfold add_property. destruct (Nat.leb _ _); [split; [reflexivity|discriminate]|].
    destruct (match a_type a with Numerical => _ | _ => _ end); [split; [reflexivity|discriminate]|].
    destruct (_ <? 2); [split; [reflexivity|discriminate]|]. destruct (_ <? 1); [split; [reflexivity|discriminate]|].
    destruct (a_type a); [|split; [reflexivity|discriminate]].
    destruct (typed_files _ _); [|split; [reflexivity|discriminate]].
    destruct (negb _); [split; [reflexivity|discriminate]|].
    destruct (load_data _ _ _ _) as [bs [e|]]; [split; [reflexivity|discriminate]|].
    destruct (run _ _ _); [|split; [reflexivity|discriminate]]. cbn. split; [reflexivity|discriminate].
  Qed.

  (** Whatever the arguments, the functions and the files: no statement is executed on the catalogue, so a call changes nothing,
      wherever it stops; it answers False exactly for the rejected arguments, and raises otherwise. *)
  Theorem C76_unchanged_partial (s : db) (a : args) (setup_ok : bool) (calc : batch -> res (list P)) :
    last_db s (fst (add s a setup_ok calc)) = s /\ fst (add s a setup_ok calc) = [] /\
    (rejected a -> snd (add s a setup_ok calc) = Done false) /\
    (~ rejected a -> snd (add s a setup_ok calc) = Raised).
  Proof.
    destruct (add_unchanged s a setup_ok calc) as [E N].
    split; [now rewrite E|]. split; [exact E|]. split.
    - intros R. unfold add_property. destruct (Nat.leb_spec (length (a_name a)) 0) as [_|L]; [reflexivity|].
      destruct (match a_type a with Numerical => _ | _ => _ end); [reflexivity|].
      destruct (Z.ltb_spec (a_buckets a) 2); [reflexivity|]. destruct (Z.ltb_spec (a_batch a) 1); [reflexivity|].
      destruct R as [R|[R|[R|R]]]; [rewrite R in L; cbn in L; lia|lia|lia|]. now rewrite R.
    - intros R. unfold add_property in *. destruct (Nat.leb_spec (length (a_name a)) 0) as [L|_].
      { exfalso. apply R. left. destruct (a_name a); [reflexivity|cbn in L; lia]. }
      destruct (a_type a) eqn:T; [|exfalso; apply R; now right; right; right].
      destruct (Z.ltb_spec (a_buckets a) 2); [exfalso; apply R; right; now left|].
      destruct (Z.ltb_spec (a_batch a) 1); [exfalso; apply R; right; right; now left|].
      destruct (typed_files _ _); [|reflexivity]. destruct (negb _); [reflexivity|].
      destruct (load_data _ _ _ _) as [bs [e|]]; [reflexivity|]. destruct (run _ _ _); reflexivity.
  Qed.
  (** So the method never adds a property, not even to an empty catalogue and with every argument as documented. *)
  Theorem C76_adds_refuted : exists a, accepted a /\
    forall s setup_ok calc, snd (add s a setup_ok calc) = Raised /\ ~ property_added s (last_db s (fst (add s a setup_ok calc))) (a_name a).
  Proof.
    exists (Args (lit "quality") LocalMode Categorical false 10 1 1). split.
    { repeat split; cbn; try lia; discriminate. }
    intros s st calc. destruct (C76_unchanged_partial s (Args (lit "quality") LocalMode Categorical false 10 1 1) st calc) as (L & _ & _ & H).
    split.
    - apply H. intros [R|[R|[R|R]]]; cbn in R; try lia; discriminate.
    - rewrite L. intros [V _]. now apply V.
  Qed.
End C76.

(** A call with rejected arguments and one with accepted ones, on a catalogue with a file of two lines: the calculation runs on both
    lines, and the call still fails afterwards. *)
Definition c76_db : db :=
  Db [(1, (lit "d", DInfo (lit "/data") 1 (lit "f")))] [(1, (1, lit "/data/a.jsonl"))] [((1, 1, 0), []); ((1, 1, 1), [])] [] 3 2 2.
Definition c76_content (p : str) : option str := if str_eqb p (lit "/data/a.jsonl") then Some (lit "x" ++ [10] ++ lit "y" ++ [10]) else None.
Example c76_calculates :
  exists fs bs, typed_files c76_content (all_files c76_db) = Ok fs /\ load_data (fun x => x) 1 fs [] = (bs, None) /\
    run (fun _ => true) (fun b => Ok (map (fun r => List.length (fst r)) b)) bs = Ok [(2%nat, (1, (1, 0))); (2%nat, (1, (1, 1)))].
Proof. vm_compute. eexists _, _. repeat split. Qed.
Example c76_raises :
  snd (add_property (fun _ : nat => true) (fun x => x) c76_content c76_db (Args (lit "quality") LocalMode Categorical false 10 1 1) true
         (fun b => Ok (map (fun r => List.length (fst r)) b))) = Raised.
Proof. vm_compute. reflexivity. Qed.
Example c76_rejects :
  snd (add_property (fun _ : nat => true) (fun x => x) c76_content c76_db (Args (lit "quality") LocalMode Categorical false 1 1 1) true
         (fun b => Ok (map (fun r => List.length (fst r)) b))) = Done false.
Proof. vm_compute. reflexivity. Qed.
Print Assumptions C76_unchanged_partial.
Print Assumptions C76_adds_refuted.
