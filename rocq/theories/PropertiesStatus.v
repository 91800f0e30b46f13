(** C65: the worker status that checkpoints are built from. *)
From Verif Require Import Base MixtureKeyModel UtilsModel ChunkGenModel StatusModel SpecStatus.
Open Scope Z_scope.

Lemma set_slot_length i x l : length (set_slot i x l) = length l.
Proof. revert i. induction l as [|y l IH]; intros [|i]; cbn; auto. Qed.
Lemma set_slot_nth i j x l : (i < length l)%nat -> nth j (set_slot i x l) 0 = if Nat.eqb i j then x else nth j l 0.
Proof. revert i j. induction l as [|y l IH]; intros [|i] [|j] H; cbn in *; try lia; auto. apply IH. lia. Qed.

Lemma run_array m n evs s : length (sh_array s) = Z.to_nat n -> Forall (fun e => 0 <= worker_of e < n) evs ->
  (m = Workers \/ Forall (fun e => ~ ends e) evs) -> sh_handle s = Open ->
  sh_handle (shm_run m s evs) = Open /\ length (sh_array (shm_run m s evs)) = Z.to_nat n
  /\ forall w, 0 <= w < n -> nth (Z.to_nat w) (sh_array (shm_run m s evs)) 0 = position_from (nth (Z.to_nat w) (sh_array s) 0) w evs.
Proof.
  revert s. induction evs as [|e evs IH]; intros s Hl Hw He Ho; [cbn; auto|].
  inversion Hw as [|? ? H1 H2]; subst.
  assert (He' : m = Workers \/ Forall (fun e => ~ ends e) evs) by (destruct He as [->|He]; [auto|inversion He; auto]).
  assert (Hs : sees m s = true) by (unfold sees; rewrite Ho; destruct m; reflexivity).
  assert (S1 : forall w x, 0 <= w < n -> forall w', 0 <= w' < n ->
    nth (Z.to_nat w') (set_slot (Z.to_nat w) x (sh_array s)) 0 = if w =? w' then x else nth (Z.to_nat w') (sh_array s) 0).
  { intros w x Hw1 w' Hw2. rewrite set_slot_nth by lia. destruct (Z.eqb_spec w w') as [->|Ne]; [rewrite Nat.eqb_refl; reflexivity|].
    destruct (Nat.eqb_spec (Z.to_nat w) (Z.to_nat w')); [lia|reflexivity]. }
  cbn [shm_run fold_left]. fold (shm_run m).
  destruct e as [w|w i|w]; cbn [shm_step worker_of] in *.
  - unfold write. rewrite Hs. destruct (IH (Shm (set_slot (Z.to_nat w) 0 (sh_array s)) (sh_handle s))) as (A & B & D); cbn [sh_array sh_handle];
      rewrite ?set_slot_length; try assumption. split; [exact A|]. split; [exact B|]. intros w' Hw'. unfold shm_run in *. rewrite D by exact Hw'.
    cbn [position_from sh_array]. rewrite S1 by assumption. reflexivity.
  - unfold write. rewrite Hs. destruct (IH (Shm (set_slot (Z.to_nat w) i (sh_array s)) (sh_handle s))) as (A & B & D); cbn [sh_array sh_handle];
      rewrite ?set_slot_length; try assumption. split; [exact A|]. split; [exact B|]. intros w' Hw'. unfold shm_run in *. rewrite D by exact Hw'.
    cbn [position_from sh_array]. rewrite S1 by assumption. reflexivity.
  - assert (m = Workers). { destruct He as [->|He]; [reflexivity|]. inversion He as [|? ? Hn _]. exfalso. apply Hn. exact I. }
    subst m. cbn [position_from]. apply IH; assumption.
Qed.

(** As long as the data is loaded by data loader workers, or the main process has not stopped iterating: whatever the
    workers do, in any order, including starting over, the status is the list of their positions. *)
Theorem C65_status_partial m n evs : 0 < n -> Forall (fun e => 0 <= worker_of e < n) evs ->
  (m = Workers \/ Forall (fun e => ~ ends e) evs) ->
  worker_status (shm_run m (shm_init n) evs) = Status (map (fun w => position w evs) (zrange 0 n)).
Proof.
  intros Hn Hw He.
  destruct (run_array m n evs (shm_init n)) as (A & B & D); [cbn; rewrite repeat_length; reflexivity|exact Hw|exact He|reflexivity|].
  unfold worker_status. rewrite A. f_equal.
  assert (Hz : length (zrange 0 n) = Z.to_nat n) by (pose proof (zrange_length 0 n); lia).
  apply (nth_ext _ _ 0 0); [rewrite map_length; lia|]. intros i Hi. rewrite B in Hi.
  rewrite (nth_indep (map (fun w => position w evs) (zrange 0 n)) 0 (position 0 evs)) by (rewrite map_length; lia). rewrite (map_nth (fun w => position w evs)).
  assert (Ez : nth i (zrange 0 n) 0 = Z.of_nat i).
  { unfold zrange. rewrite (nth_indep _ 0 (0 + Z.of_nat 0)) by (rewrite map_length, seq_length; lia).
    rewrite (map_nth (fun k => 0 + Z.of_nat k)). rewrite seq_nth by lia. lia. }
  rewrite Ez. rewrite <- (Nat2Z.id i) at 1. rewrite D by lia. unfold position. f_equal. cbn [shm_init sh_array].
  rewrite nth_repeat. reflexivity.
Qed.

Lemma run_closed m evs s : m <> Workers -> sh_handle s <> Open -> sh_handle (shm_run m s evs) <> Open.
Proof.
  intros Hm. revert s. induction evs as [|e evs IH]; intros s Hs; [exact Hs|].
  cbn [shm_run fold_left]. apply IH.
  destruct e; cbn [shm_step]; unfold write; try (destruct (sees m s); exact Hs).
  destruct m; cbn; [discriminate| |congruence]. destruct (sh_handle s); congruence.
Qed.

(** Once the main process has stopped iterating (the data ended, or the training loop left its loop), the status is gone
    for good: with the torch dataset every checkpoint call raises a TypeError and no iteration can start again; with the
    Hugging Face dataset arbitrary numbers are reported. *)
Lemma ended m evs w more : m <> Workers -> sh_handle (shm_run m (shm_init 1) (evs ++ SEnd w :: more)) <> Open.
Proof.
  intros Hm. unfold shm_run. rewrite fold_left_app. cbn [fold_left]. fold (shm_run m).
  apply (run_closed m more); [exact Hm|]. destruct m; [discriminate| |exfalso; apply Hm; reflexivity]. cbn. destruct (sh_handle _); discriminate.
Qed.
Lemma torch_not_closed evs s : sh_handle s <> Closed -> sh_handle (shm_run TorchMain s evs) <> Closed.
Proof.
  revert s. induction evs as [|e evs IH]; intros s H; [exact H|]. cbn [shm_run fold_left]. apply IH.
  destruct e; cbn [shm_step]; unfold write; try (destruct (sees _ s)); cbn; try exact H. discriminate.
Qed.
Lemma hf_not_gone evs s : sh_handle s <> Gone -> sh_handle (shm_run HfMain s evs) <> Gone.
Proof.
  revert s. induction evs as [|e evs IH]; intros s H; [exact H|]. cbn [shm_run fold_left]. apply IH.
  destruct e; cbn [shm_step]; unfold write; try (destruct (sees _ s); cbn; exact H). cbn. destruct (sh_handle s); congruence.
Qed.
Theorem C65_after_end_refuted evs w more :
  (let s := shm_run TorchMain (shm_init 1) (evs ++ SEnd w :: more) in
   reported (worker_status s) = Err TypeError /\ can_start TorchMain s = Err AssertionError)
  /\ worker_status (shm_run HfMain (shm_init 1) (evs ++ SEnd w :: more)) = Junk.
Proof.
  split.
  - cbv zeta. pose proof (ended TorchMain evs w more ltac:(discriminate)) as H.
    pose proof (torch_not_closed (evs ++ SEnd w :: more) (shm_init 1) ltac:(discriminate)) as H2.
    unfold worker_status, can_start. destruct (sh_handle _); try congruence. split; reflexivity.
  - pose proof (ended HfMain evs w more ltac:(discriminate)) as H.
    pose proof (hf_not_gone (evs ++ SEnd w :: more) (shm_init 1) ltac:(discriminate)) as H2.
    unfold worker_status. destruct (sh_handle _); congruence.
Qed.

(** Two workers, the second one a chunk further and started over. *)
Example C65_example : worker_status (shm_run Workers (shm_init 2) [SStart 0; SStart 1; SYield 0 0; SYield 1 0; SYield 0 1; SYield 1 1; SYield 1 0; SEnd 0; SYield 1 7])
  = Status [1; 7].
Proof. reflexivity. Qed.
Example C65_example_restart : worker_status (shm_run Workers (shm_init 2) [SStart 0; SYield 0 5; SEnd 0; SStart 0]) = Status [0; 0].
Proof. reflexivity. Qed.
Example C65_example_main : worker_status (shm_run TorchMain (shm_init 1) [SStart 0; SYield 0 0; SYield 0 1]) = Status [1].
Proof. reflexivity. Qed.

Print Assumptions C65_status_partial.
Print Assumptions C65_after_end_refuted.
