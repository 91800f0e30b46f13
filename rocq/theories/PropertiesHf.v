(** C64: the processes of a training job over the Hugging Face dataset each stream as a slot of their own. *)
From Coq Require Import String.
From Verif Require Import Base MixtureKeyModel UtilsModel ChunkGenModel DistributorModel SpecDistributor ChunkerModel SerialModel
  ParserModel HfModel SpecHf HfProofs.
From Coq Require Import ZifyBool.
Open Scope Z_scope.

(** Whatever way the job is set up (split over nodes or not, any number of data loader workers): a process that gets as far
    as streaming streams as its own group, node and data loader worker, and that is a slot the distributor knows. *)
Theorem C64_own_slot q g n w0 p t : 0 <= g -> 0 <= n -> 0 <= qa_nw q -> place_ok p -> hf_process q g n w0 p = Ok (Some t) ->
  t = (g, n, own_worker p) /\ valid_slot (qa_dp q) (qa_nodes q) (eff_workers (qa_nw q)) g n (own_worker p).
Proof. apply hf_slot. Qed.

(** So two processes streaming as the same slot are the same: same group, same node, same data loader worker. *)
Theorem C64_no_slot_twice q g n w0 p g' n' w0' p' t : 0 <= g -> 0 <= n -> 0 <= g' -> 0 <= n' -> 0 <= qa_nw q -> place_ok p -> place_ok p' ->
  hf_process q g n w0 p = Ok (Some t) -> hf_process q g' n' w0' p' = Ok (Some t) -> g = g' /\ n = n' /\ own_worker p = own_worker p'.
Proof.
  intros H1 H2 H3 H4 H5 H6 H7 H8 H9. apply hf_slot in H8 as [-> _]; try assumption. apply hf_slot in H9 as [E _]; try assumption.
  injection E. auto.
Qed.

(** A job set up as it was registered: every slot of the distributor is streamed by its process. *)
Theorem C64_every_slot_served q g n w w0 : 0 <= qa_nw q -> valid_slot (qa_dp q) (qa_nodes q) (eff_workers (qa_nw q)) g n w ->
  hf_process q g n w0 (as_registered q g w) = Ok (Some (g, n, w)).
Proof. apply hf_starts. Qed.
(** The same for a single group whose dataset was not split, if it has data loader workers. *)
Theorem C64_unsplit_partial own q n w w0 : qa_dp q = 1 -> 0 < qa_nw q -> valid_slot 1 (qa_nodes q) (qa_nw q) 0 n w ->
  hf_process q 0 n w0 (unsplit own q w) = Ok (Some (0, n, w)).
Proof. apply hf_unsplit. Qed.
(** Without data loader workers it is not: a job with one group, one node and no workers cannot iterate over its dataset
    unless it was split (over one node). *)
Theorem C64_unsplit_refuted : exists q, qa_dp q = 1 /\ qa_nodes q = 1 /\ 0 <= qa_nw q
  /\ (forall own, hf_process q 0 0 0 (unsplit own q 0) = Err AssertionError) /\ hf_process q 0 0 0 (as_registered q 0 0) = Ok (Some (0, 0, 0)).
Proof.
  exists (QArgs 1 1 0). split; [reflexivity|]. split; [reflexivity|]. split; [cbn [qa_nw]; lia|].
  split; [intros own; destruct own|]; vm_compute; reflexivity.
Qed.
(** And iterating over the MixteraHFDataset object itself ends with an AssertionError when the data ends; over a split or
    mapped one it does not. *)
Theorem C64_end_refuted g n w0 p :
  (pl_own p = true -> hf_after_end g n w0 p = Err AssertionError) /\ (pl_own p = false -> hf_after_end g n w0 p = Ok tt).
Proof. unfold hf_after_end. split; intros ->; reflexivity. Qed.
(** If the dataset is split over the registered number of groups, no process drops examples of its slot; over another
    number of ranks, it may: three ranks of a job with one group and one worker (each started as group 0) all stream the same
    slot, and each keeps one example in three. *)
Theorem C64_nothing_dropped q rank own w : 0 < qa_dp q -> hf_step q (Place own (Some (rank, qa_dp q)) w) = None.
Proof.
  intros H. unfold hf_step. cbn [pl_dist]. replace (hf_num_shards q mod qa_dp q) with 0; [reflexivity|]. symmetry.
  unfold hf_num_shards. replace (Z.max (qa_dp q) 1) with (qa_dp q) by lia.
  replace (Z.max (qa_nw q) 1 * qa_dp q * 8) with (Z.max (qa_nw q) 1 * 8 * qa_dp q) by ring. apply Z.mod_mul. lia.
Qed.
Theorem C64_dropped_refuted : exists q, forall rank, 0 <= rank < 3 -> let p := Place false (Some (rank, 3)) (Some (0, 1)) in
  hf_process q 0 0 0 p = Ok (Some (0, 0, 0)) /\ hf_step q p = Some (rank, 3).
Proof. exists (QArgs 1 1 1). intros rank H. assert (rank = 0 \/ rank = 1 \/ rank = 2) as [->|[->| ->]] by lia; split; vm_compute; reflexivity. Qed.
(** A job that does not load its data with the registered number of workers is not refused as a whole: here (two groups,
    two workers registered, data loaded in the main process) group 0 starts to train and group 1 fails. *)
Theorem C64_misconfigured_refuted : exists q, valid_slot (qa_dp q) (qa_nodes q) (eff_workers (qa_nw q)) 1 0 1
  /\ hf_process q 0 0 0 (Place false (Some (0, 2)) None) = Ok (Some (0, 0, 0))
  /\ hf_process q 1 0 0 (Place false (Some (1, 2)) None) = Err AssertionError.
Proof. exists (QArgs 2 1 2). split; [unfold valid_slot, eff_workers; cbn [qa_dp qa_nodes qa_nw]; change (0 <? 2) with true; lia|]. split; vm_compute; reflexivity. Qed.

(** A process that iterates over the MixteraHFDataset object itself streams only if the split agrees with its group: the
    world is the registered number of groups and its rank is its group; without a split there is one group. *)
Theorem C64_split_agrees q g n w0 p r : pl_own p = true -> hf_process q g n w0 p = Ok r ->
  match pl_dist p with Some (rank, world) => world = qa_dp q /\ rank = g | None => qa_dp q = 1 /\ g = 0 end.
Proof.
  intros Ho H. unfold hf_process in H. unfold hf_new in H. destruct (_ && _); [|discriminate].
  unfold hf_iterate in H. destruct (hf_checks q p (HfIt g n w0 0)) eqn:E; [|discriminate]. unfold hf_checks in E. rewrite Ho in E. cbn [negb hf_g] in E.
  destruct (pl_dist p) as [[rank world]|]; apply andb_prop in E as [E1 E2]; apply Z.eqb_eq in E1, E2; auto.
Qed.
Example C64_example_split : hf_process (QArgs 2 1 1) 1 0 0 (Place true (Some (1, 2)) (Some (0, 1))) = Ok (Some (1, 0, 0))
  /\ hf_process (QArgs 2 1 1) 1 0 0 (Place true (Some (0, 2)) (Some (0, 1))) = Err AssertionError.
Proof. split; vm_compute; reflexivity. Qed.

(** Different samples of a job have different keys: the key determines the process and the number of the sample in it. *)
Theorem C64_sample_keys g n w i g' n' w' i' : 0 <= g -> 0 <= n -> 0 <= w -> 0 <= g' -> 0 <= n' -> 0 <= w' ->
  sample_key (g, n, w) i = sample_key (g', n', w') i' -> g = g' /\ n = n' /\ w = w' /\ i = i'.
Proof. intros H1 H2 H3 H4 H5 H6 E. apply sample_key_inj in E as [E ->]; try assumption. injection E. auto. Qed.

Example C64_example_key : sample_key (1, 0, 12) 305 = lit "1-0-12-305".
Proof. reflexivity. Qed.
Example C64_example_served : map (fun t => match t with (g, n, w) => hf_process (QArgs 2 1 3) g n 0 (as_registered (QArgs 2 1 3) g w) end)
    [(0, 0, 0); (0, 0, 2); (1, 0, 0); (1, 0, 2)] = [Ok (Some (0, 0, 0)); Ok (Some (0, 0, 2)); Ok (Some (1, 0, 0)); Ok (Some (1, 0, 2))].
Proof. vm_compute. reflexivity. Qed.
(** A third worker on a node registered with two is refused, also when the number of workers equals the number of groups. *)
Example C64_example_refused : hf_process (QArgs 3 1 2) 0 0 0 (Place false (Some (0, 3)) (Some (2, 3))) = Err IndexError.
Proof. vm_compute. reflexivity. Qed.

Print Assumptions C64_own_slot.
Print Assumptions C64_no_slot_twice.
Print Assumptions C64_every_slot_served.
Print Assumptions C64_unsplit_partial.
Print Assumptions C64_unsplit_refuted.
Print Assumptions C64_end_refuted.
Print Assumptions C64_nothing_dropped.
Print Assumptions C64_dropped_refuted.
Print Assumptions C64_misconfigured_refuted.
Print Assumptions C64_sample_keys.
Print Assumptions C64_split_agrees.
