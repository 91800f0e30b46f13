(** C67: the Mixtera dataset is found in what the training framework passes. *)
From Verif Require Import Base MixtureKeyModel UtilsModel ChunkGenModel RecoverModel SpecRecover RecoverProofs.
Open Scope nat_scope.

(** A data loader (or dataset, or generator over a data loader) of a Mixtera dataset: it is found, in any setting. *)
Theorem C67_direct limit fuel lib g x : torch_dataset g (dataset_of x) -> recover limit fuel lib g x = Found (dataset_of x).
Proof. intros H. unfold recover. apply is_torch_spec in H. cbv zeta. rewrite H. reflexivity. Qed.

(** A data loader of any other object that is not a Hugging Face dataset: if the datasets library is installed and the
    number of objects that can be reached is below the recursion limit, then the search finds a Mixtera dataset that can
    be reached, if there is one, and nothing otherwise.  Cycles do no harm.  Partial: see the refutations. *)
Theorem C67_search_partial limit fuel g x u : within (leads g) u -> In (dataset_of x) u -> (length u < limit)%nat ->
  is_iterable_dataset (o_kind (g (dataset_of x))) = false ->
  (exists o, recover limit fuel true g x = Found o /\ torch_dataset g o /\ reaches (leads g) (dataset_of x) o)
  \/ (recover limit fuel true g x = Nothing /\ forall o, reaches (leads g) (dataset_of x) o -> ~ torch_dataset g o).
Proof.
  intros W Iu L K. unfold recover. cbv zeta. cbn [negb]. rewrite K. cbn [negb].
  destruct (is_torch (o_kind (g (dataset_of x)))) eqn:T; [left; exists (dataset_of x); split; [reflexivity|]; split; [apply is_torch_spec, T|constructor]|].
  destruct (find_ok limit g u W [] (dataset_of x) (NoDup_nil _)) as (vis & r & E & _); [intros y []|exact Iu|cbn; lia|].
  rewrite E. destruct r as [r|].
  - left. exists r. split; [reflexivity|]. apply (find_some _ _ _ _ _ _ E).
  - right. split; [reflexivity|]. intros o R. destruct (find_none _ _ _ _ _ E) as (_ & Iv & C).
    apply (C o); [|intros []]. eapply closed_reach; [exact C|exact Iv|exact R].
Qed.
(** Whatever the recursion limit: an answer is never wrong. *)
Theorem C67_search_sound limit fuel g x : is_iterable_dataset (o_kind (g (dataset_of x))) = false ->
  match recover limit fuel true g x with
  | Found o => torch_dataset g o /\ reaches (leads g) (dataset_of x) o
  | Nothing => forall o, reaches (leads g) (dataset_of x) o -> ~ torch_dataset g o
  | Raised => True
  | OutOfFuel => False
  end.
Proof.
  intros K. unfold recover. cbv zeta. cbn [negb]. rewrite K. cbn [negb].
  destruct (is_torch (o_kind (g (dataset_of x)))) eqn:T; [split; [apply is_torch_spec, T|constructor]|].
  destruct (find_in limit g [] (dataset_of x)) as [[vis [r|]]|] eqn:E; [apply (find_some _ _ _ _ _ _ E)| |exact I].
  intros o R. destruct (find_none _ _ _ _ _ E) as (_ & Iv & C). apply (C o); [|intros []]. eapply closed_reach; [exact C|exact Iv|exact R].
Qed.

(** A Hugging Face dataset, transformed in any way that wraps one dataset: the search ends, and finds the Mixtera dataset
    inside if there is one (a MixteraHFDataset holds a _MixteraHFIterable).  Partial: see the refutations. *)
Theorem C67_hf_partial limit fuel g x u : within (wraps g) u -> In (dataset_of x) u -> (2 * length u + 1 < fuel)%nat ->
  is_iterable_dataset (o_kind (g (dataset_of x))) = true ->
  (forall d, reaches (wraps g) (dataset_of x) d -> o_kind (g d) = KHfDataset -> exists o, o_ex1 (g d) = Some o /\ o_kind (g o) = KHfIterable) ->
  (exists o, recover limit fuel true g x = Found o /\ o_kind (g o) = KHfIterable /\ reaches (wraps g) (dataset_of x) o)
  \/ (recover limit fuel true g x = Nothing /\ forall o, reaches (wraps g) (dataset_of x) o -> ~ hf_dataset g o).
Proof.
  intros W Iu L K Wf. unfold recover. cbv zeta. cbn [negb]. rewrite K. cbn [negb].
  destruct (is_torch (o_kind (g (dataset_of x)))) eqn:T; [exfalso; destruct (o_kind (g (dataset_of x))); discriminate|].
  destruct (hf_find fuel g [] [dataset_of x]) as [[r|]|] eqn:E.
  - assert (H : hf_dataset g r /\ reaches (wraps g) (dataset_of x) r).
    { apply (hf_some _ _ _ _ _ _) with (2 := E). intros y [<-|[]]. constructor. }
    destruct H as [[H|H] R]; rewrite H.
    + destruct (Wf r R H) as (o & Eo & Ko). rewrite Eo, Ko. left. exists o. split; [reflexivity|]. split; [exact Ko|].
      clear -R Eo. induction R; [eapply reaches_step; [left; exact Eo|constructor]|eapply reaches_step; eauto].
    + rewrite H. left. exists r. auto.
  - right. split; [reflexivity|]. intros o R. destruct (hf_none fuel g [] [dataset_of x] (fun y F => False_ind _ F) E) as (v & _ & Is & C).
    apply (C o). eapply wclosed_reach; [exact C|apply Is; left; reflexivity|exact R].
  - exfalso. apply (hf_ok fuel g u W [] [dataset_of x]) in E; [exact E|constructor|intros y []|intros y [<-|[]]; exact Iu|cbn [length]; lia].
Qed.

(** ** What is false of the code *)
(** Without the datasets library a wrapped Mixtera dataset is never found, although the search needs nothing of it: no
    checkpoint is made and no feedback is sent, silently. *)
Theorem C67_no_library_refuted limit fuel g x : ~ torch_dataset g (dataset_of x) -> recover limit fuel false g x = Nothing.
Proof.
  intros H. unfold recover. cbv zeta. destruct (is_torch _) eqn:T; [apply is_torch_spec in T; contradiction|reflexivity].
Qed.
Definition plain (attrs : list attr) : obj := Obj KInstance attrs None None.
Definition field (v : nat) : attr := Attr false (Some v).
(** An object whose attribute is a list of lists of datasets. *)
Definition nested : graph := fun n => match n with
  | 0 => plain [field 1] | 1 => Obj (KSeq [2]) [] None None | 2 => Obj (KSeq [3]) [] None None | 3 => Obj KTorch [] None None | _ => Obj KAtom [] None None end%nat.
Theorem C67_nested_refuted : recover 1000 1000 true nested (GLoader 0) = Nothing
  /\ attribute nested 0 1 /\ item nested 1 2 /\ item nested 2 3 /\ torch_dataset nested 3.
Proof.
  split; [vm_compute; reflexivity|]. split; [exists (field 1); cbn; auto|]. split; [cbn; auto|]. split; [cbn; auto|]. left. reflexivity.
Qed.
(** Hugging Face datasets that combine several (interleaved, concatenated) keep them in a list, which is not searched. *)
Definition combined : graph := fun n => match n with
  | 0 => Obj KHfOther [field 1] (Some 1) None | 1 => plain [field 2] | 2 => Obj (KSeq [3; 4]) [] None None | 3 => plain [] | 4 => Obj KHfIterable [] None None | _ => Obj KAtom [] None None end%nat.
Theorem C67_combined_refuted : recover 1000 1000 true combined (GLoader 0) = Nothing
  /\ reaches (leads combined) 0 4 /\ torch_dataset combined 4.
Proof.
  split; [vm_compute; reflexivity|]. split; [|right; reflexivity].
  eapply reaches_step; [left; split; [exists (field 1); cbn; auto|split; cbn; [tauto|discriminate]]|].
  eapply reaches_step; [right; exists 2; split; [exists (field 2); cbn; auto|cbn; auto]|]. constructor.
Qed.
(** A dataset wrapped more often than Python allows calls to be nested: the search raises a RecursionError. *)
Definition chain (n : nat) : graph := fun i => if Nat.ltb i n then plain [field (S i)] else Obj KTorch [] None None.
Lemma chain_at n i : (i < n)%nat -> chain n i = plain [field (S i)].
Proof. intros H. unfold chain. destruct (Nat.ltb_spec i n); [reflexivity|lia]. Qed.
Theorem C67_deep_refuted limit fuel : recover limit fuel true (chain (S limit)) (GLoader 0) = Raised
  /\ reaches (leads (chain (S limit))) 0 (S limit) /\ torch_dataset (chain (S limit)) (S limit).
Proof.
  assert (Kt : o_kind (chain (S limit) (S limit)) = KTorch) by (unfold chain; rewrite Nat.ltb_irrefl; reflexivity).
  split; [|split; [|left; exact Kt]].
  - unfold recover. cbv zeta. cbn [dataset_of negb]. rewrite (chain_at (S limit) 0) by lia. cbn [o_kind plain is_torch is_iterable_dataset negb].
    assert (H : forall k i vis, (i + k <= limit)%nat -> (forall j, In j vis -> (j < i)%nat) -> find_in k (chain (S limit)) vis i = None).
    { induction k as [|k IH]; intros i vis Hi Hv; [reflexivity|]. rewrite find_in_S.
      destruct (visited_mem i vis) eqn:M; [apply mem_in, Hv in M; lia|].
      rewrite chain_at by lia. cbn [o_kind plain is_torch]. unfold actions. rewrite chain_at by lia. cbn [plain o_attrs flat_map attr_actions field a_special a_value].
      rewrite app_nil_r. rewrite (chain_at (S limit) (S i)) by lia. cbn [o_kind plain is_torch loop].
      rewrite IH; [reflexivity|lia|]. intros j [<-|Ij]; [lia|]. apply Hv in Ij. lia. }
    rewrite H; [reflexivity|lia|intros j []].
  - assert (H : forall k i, (i + k = S limit)%nat -> reaches (leads (chain (S limit))) i (S limit)).
    { induction k as [|k IH]; intros i Hi; [replace i with (S limit) by lia; constructor|].
      eapply reaches_step; [|apply (IH (S i)); lia]. left. split.
      - exists (field (S i)). rewrite chain_at by lia. cbn. auto.
      - destruct (Nat.eq_dec (S i) (S limit)) as [->|N]; unfold container, atom; [rewrite Kt|rewrite chain_at by lia]; cbn; split; [tauto|discriminate|tauto|discriminate]. }
    apply (H (S limit)). lia.
Qed.

(** ** Non-trivial cases *)
(** A wrapper with a cycle: 0 has a back reference and a dict with the dataset's wrapper 3; 4 is the dataset. *)
Definition cyclic : graph := fun n => match n with
  | 0 => plain [Attr true (Some 4); field 1; Attr false None; field 2] | 1 => plain [field 0] | 2 => Obj (KDict [1; 3]) [] None None
  | 3 => plain [field 0; field 4] | 4 => Obj KTorch [] None None | _ => Obj KAtom [] None None end%nat.
Example C67_cyclic_example : within (leads cyclic) [0; 1; 2; 3; 4] /\ recover 1000 0 true cyclic (GDataset 0) = Found 4.
Proof.
  split; [|vm_compute; reflexivity]. intros x y Ix L. apply actions_leads in L as (a & Ia & <-).
  repeat (destruct Ix as [<-|Ix]; [cbn in Ia; repeat (destruct Ia as [<-|Ia]; [cbn; auto 10|]); contradiction|]). contradiction.
Qed.
(** map() over a MixteraHFDataset: an IterableDataset (0) over a mapped iterable (1) over a _MixteraHFIterable (2). *)
Definition mapped : graph := fun n => match n with
  | 0 => Obj KHfOther [] (Some 1) None | 1 => Obj KInstance [] None (Some 2) | 2 => Obj KHfIterable [] None None | _ => Obj KAtom [] None None end%nat.
Example C67_mapped_example : within (wraps mapped) [0; 1; 2] /\ recover 1000 8 true mapped (GLoader 0) = Found 2.
Proof.
  split; [|vm_compute; reflexivity]. intros x y Ix L. apply wraps_in in L.
  repeat (destruct Ix as [<-|Ix]; [cbn in L; repeat (destruct L as [<-|L]; [cbn; auto 10|]); contradiction|]). contradiction.
Qed.

Print Assumptions C67_direct.
Print Assumptions C67_search_partial.
Print Assumptions C67_search_sound.
Print Assumptions C67_hf_partial.
Print Assumptions C67_no_library_refuted.
Print Assumptions C67_nested_refuted.
Print Assumptions C67_combined_refuted.
Print Assumptions C67_deep_refuted.
