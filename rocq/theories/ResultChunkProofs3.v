(** Proofs about the distribution of work over reader processes and the iterator over their queues. *)
From Verif Require Import Base MixtureKeyModel UtilsModel ChunkGenModel MixtureModel SpecRoundRobin RoundRobin TokenModel
  ResultChunkModel ResultChunkProofs2.
From Coq Require Import ZifyBool ZifyNat Sorted.
Local Open Scope nat_scope.

(** ** Partitions *)
Lemma slice_glue {B} (l : list B) a b c : a <= b -> b <= c -> slice l a b ++ slice l b c = slice l a c.
Proof.
  intros H1 H2. unfold slice. replace (c - a) with ((b - a) + (c - b)) by lia.
  rewrite <- (firstn_skipn (b - a) (firstn (b - a + (c - b)) (skipn a l))). f_equal.
  - rewrite firstn_firstn. f_equal. lia.
  - rewrite <- firstn_skipn_comm, skipn_skipn. do 2 f_equal; lia.
Qed.

Lemma slices_concat {B} (l : list B) (r : nat -> nat) m :
  (forall i, i < m -> r i <= r (S i)) ->
  concat (map (fun i => slice l (r (i - 1)) (r i)) (seq 1 m)) = slice l (r 0) (r m).
Proof.
  intros Hr. assert (Hmono : forall i, i <= m -> r 0 <= r i).
  { induction i as [|i IH]; intros Hi; [lia|]. etransitivity; [apply IH; lia|apply Hr; lia]. }
  revert Hmono. induction m as [|m IH]; intros Hmono.
  - cbn. unfold slice. rewrite Nat.sub_diag. reflexivity.
  - rewrite seq_S, map_app, concat_app, IH by (intros; (apply Hr || apply Hmono); lia).
    cbn [map concat Nat.add]. rewrite app_nil_r. replace (S m - 1) with m by lia.
    apply slice_glue; [apply Hmono; lia|apply Hr; lia].
Qed.

Lemma py_range_nth stop step i : i < (stop + step - 1) / step -> nth i (py_range stop step ++ [stop]) 0 = i * step.
Proof.
  intros H. unfold py_range. rewrite app_nth1 by (rewrite map_length, seq_length; exact H).
  rewrite (nth_indep _ 0 (0 * step)) by (rewrite map_length, seq_length; exact H).
  rewrite (map_nth (fun i => i * step)), seq_nth by exact H. reflexivity.
Qed.
Lemma py_range_last stop step : nth ((stop + step - 1) / step) (py_range stop step ++ [stop]) 0 = stop.
Proof.
  unfold py_range. rewrite app_nth2 by (rewrite map_length, seq_length; lia).
  rewrite map_length, seq_length, Nat.sub_diag. reflexivity.
Qed.

Lemma ceil_bound n step : 1 <= step -> ((n + step - 1) / step - 1) * step <= n /\ n <= (n + step - 1) / step * step /\ (n = 0 -> (n + step - 1) / step = 0).
Proof.
  intros H. pose proof (Nat.div_mod (n + step - 1) step ltac:(lia)) as E.
  pose proof (Nat.mod_upper_bound (n + step - 1) step ltac:(lia)) as U.
  set (q := (n + step - 1) / step) in *. set (m := (n + step - 1) mod step) in *.
  split; [|split].
  - destruct q; [cbn; lia|]. replace (S q - 1) with q by lia. nia.
  - nia.
  - intros ->. destruct q; [reflexivity|nia].
Qed.

Lemma partitions_concat ws pc : concat (partitions ws pc) = ws.
Proof.
  unfold partitions. set (size := Nat.max 1 _). assert (Hs : 1 <= size) by (unfold size; lia). clearbody size.
  set (rs := py_range (length ws) size ++ [length ws]).
  assert (Hl : length rs - 1 = (length ws + size - 1) / size).
  { unfold rs, py_range. rewrite app_length, map_length, seq_length. cbn. lia. }
  rewrite Hl. destruct (ceil_bound (length ws) size Hs) as (B1 & B2 & B3). set (m := (length ws + size - 1) / size) in *.
  pose proof (py_range_nth (length ws) size) as Hn. pose proof (py_range_last (length ws) size) as Hlast. fold rs m in Hn, Hlast.
  rewrite (slices_concat ws (fun i => nth i rs 0) m).
  - rewrite Hlast. destruct (Nat.eq_dec m 0) as [E|E].
    + rewrite E in *. assert (length ws = 0) by lia. destruct ws; [|discriminate]. unfold slice. rewrite skipn_nil. apply firstn_nil.
    + rewrite Hn by lia. unfold slice. cbn [Nat.mul skipn]. rewrite Nat.sub_0_r. apply firstn_all.
  - intros i Hi. destruct (Nat.eq_dec (S i) m) as [E|E].
    + rewrite E, Hlast, Hn by lia. replace i with (m - 1) by lia. exact B1.
    + rewrite !Hn by lia. nia.
Qed.

(** The number of processes: never more than the workloads, and at least one if there is a workload. *)
Lemma partitions_length ws pc : length (partitions ws pc) <= length ws /\ (ws <> [] -> 1 <= length (partitions ws pc)).
Proof.
  unfold partitions. set (size := Nat.max 1 _). assert (Hs : 1 <= size) by (unfold size; lia). clearbody size.
  rewrite map_length, seq_length, app_length. unfold py_range. rewrite map_length, seq_length. cbn [length].
  destruct (ceil_bound (length ws) size Hs) as (B1 & B2 & B3). set (m := (length ws + size - 1) / size) in *. split; [nia|].
  intros Hne. destruct ws as [|w ws]; [congruence|]. cbn in B2. destruct m; [|lia]. cbn in *. lia.
Qed.

(** ** The iterator over the queues *)
Section Mt.
  Context {A : Type}.
  Variable read : Z -> Z -> list range -> stream A.
  Variable is_end : A -> bool.
  Variable parts : list (list workload).
  Notation ids := (seq 0 (length parts)).

  Definition pitems (i : nat) : list A := fst (st_iter read (nth i parts [])).
  Definition pfails (i : nat) : bool := match snd (st_iter read (nth i parts [])) with Some _ => true | None => false end.

  Definition somes (q : list (option A)) : list A := flat_map opt_to_list q.
  Lemma somes_app a b : somes (a ++ b) = somes a ++ somes b.
  Proof. apply flat_map_app. Qed.

  (** A process: what it has delivered ([got]), queued and not read yet. *)
  Record PI (killed : bool) (i : nat) (got : list A) (p : proc A) : Prop := {
    pi_items : got ++ somes (pr_queue p) ++ pr_todo p = pitems i;
    pi_fail : pr_fail p = pfails i;
    pi_got : Forall (fun a => is_end a = false) got;
    pi_alive : pr_alive p = true -> ~ In None (pr_queue p);
    pi_dead : pr_alive p = false -> (killed = true \/ pr_todo p = []) }.
  (** A process the iterator has dropped. *)
  Definition PD (killed : bool) (i : nat) (got : list A) : Prop :=
    (exists l, got ++ l = until_end is_end (pitems i)) /\ (killed = false -> got = until_end is_end (pitems i)).

  (** END_OF_STREAM is the last thing in a queue. *)
  Definition none_last (q : list (option A)) : Prop := forall q1 q2, q = q1 ++ None :: q2 -> q2 = [].

  Record MI (killed : nat -> bool) (j : nat) (t : nat -> list A) (s : mtst A) : Prop := {
    mi_out : mt_out s = round_robin (map t ids);
    mi_keys : map fst (mt_procs s) = ids;
    mi_sort : StronglySorted lt (mt_active s);
    mi_act : forall i, In i (mt_active s) -> i < length parts;
    mi_split : exists dn, mt_active s = dn ++ mt_round s;
    mi_proc : forall i, i < length parts -> exists p, aget Nat.eqb i (mt_procs s) = Some p
                /\ (In i (mt_active s) -> ~ In i (mt_removed s) -> PI (killed i) i (t i) p /\ none_last (pr_queue p)
                                         /\ (In None (pr_queue p) -> pr_todo p = []));
    mi_gone : forall i, i < length parts -> (~ In i (mt_active s) \/ In i (mt_removed s)) -> PD (killed i) i (t i);
    mi_l1 : forall i, i < length parts -> ~ In i (mt_active s) -> length (t i) <= j;
    mi_l2 : forall i, In i (mt_active s) -> ~ In i (mt_round s) -> length (t i) <= S j /\ (~ In i (mt_removed s) -> length (t i) = S j);
    mi_l3 : forall i, In i (mt_round s) -> length (t i) = j /\ ~ In i (mt_removed s);
    mi_rem : forall i, In i (mt_removed s) -> In i (mt_active s);
    mi_done : mt_state s = MDone -> mt_active s = [] }.

  Lemma nat_mem_In i l : nat_mem i l = true <-> In i l.
  Proof.
    unfold nat_mem. rewrite existsb_exists. split.
    - intros (x & Hx & E). apply Nat.eqb_eq in E. subst. exact Hx.
    - intros H. exists i. split; [exact H|apply Nat.eqb_refl].
  Qed.

  Lemma eqb_nat_spec (a b : nat) : Nat.eqb a b = true <-> a = b.
  Proof. apply Nat.eqb_eq. Qed.

  Lemma mi_init : MI (fun _ => false) 0 (fun _ => []) (mt_init read parts).
  Proof.
    assert (Hkeys : map fst (combine ids (map (proc_init read) parts)) = ids).
    { assert (Hl : length ids = length (map (proc_init read) parts)) by (rewrite seq_length, map_length; reflexivity).
      revert Hl. generalize ids. generalize (map (proc_init read) parts). clear.
      induction l as [|x l IH]; intros [|y m] H; cbn in *; try discriminate; [reflexivity|]. f_equal. apply IH. lia. }
    split; cbn [mt_init mt_out mt_procs mt_active mt_round mt_removed mt_state].
    - symmetry. apply rr_nil. reflexivity.
    - exact Hkeys.
    - generalize 0. generalize (length parts). clear. induction n as [|n IH]; intros a; cbn; constructor; [apply IH|].
      apply Forall_forall. intros x Hx. apply in_seq in Hx. lia.
    - intros i Hi. apply in_seq in Hi. lia.
    - exists []. reflexivity.
    - intros i Hi. exists (proc_init read (nth i parts [])). split.
      + apply (in_aget _ eqb_nat_spec); [change (@akeys nat (proc A)) with (@map (nat * proc A) nat fst) || idtac; rewrite ?Hkeys; try apply seq_NoDup|].
        * assert (E : nth_error (combine ids (map (proc_init read) parts)) i = Some (i, proc_init read (nth i parts []))).
          { clear Hkeys. assert (G : forall a, nth_error (combine (seq a (length parts)) (map (proc_init read) parts)) i = Some (a + i, proc_init read (nth i parts []))).
            { revert i Hi. induction parts as [|x l IH]; intros i Hi a; [cbn in Hi; lia|]. destruct i as [|i]; cbn.
              - f_equal. f_equal. lia.
              - rewrite (IH i ltac:(cbn in Hi; lia) (S a)). f_equal. f_equal. lia. }
            apply (G 0). }
          eapply nth_error_In; exact E.
      + intros _ _. unfold proc_init. destruct (st_iter read (nth i parts [])) as [l f] eqn:E. split; [split|split]; cbn [pr_queue pr_todo pr_fail pr_alive].
        * unfold pitems. rewrite E. reflexivity.
        * unfold pfails. rewrite E. reflexivity.
        * constructor.
        * intros _ [].
        * discriminate.
        * intros [|q q1] q2 H; cbn in H; discriminate.
        * intros [].
    - intros i Hi [H|[]]. destruct H. apply in_seq. lia.
    - intros i Hi H. cbn. lia.
    - intros i H1 H2. contradiction.
    - intros i _. split; [reflexivity|intros []].
    - intros i [].
    - destruct parts; [reflexivity|discriminate].
  Qed.

  Lemma until_end_app got l : Forall (fun a => is_end a = false) got -> until_end is_end (got ++ l) = got ++ until_end is_end l.
  Proof. induction 1 as [|a got Ha _ IH]; [reflexivity|]. cbn. rewrite Ha, IH. reflexivity. Qed.

  Definition kill (t : mt_turn) (killed : nat -> bool) (i : nat) : bool :=
    match t with TKill k => Nat.eqb i k || killed i | _ => killed i end.
  Lemma kill_mono t killed i : kill t killed i = false -> killed i = false.
  Proof. destruct t; cbn; try tauto. rewrite orb_false_iff. tauto. Qed.
  Lemma PD_kill t killed i got : PD (killed i) i got -> PD (kill t killed i) i got.
  Proof. intros [H1 H2]. split; [exact H1|]. intros H. apply H2. eapply kill_mono; exact H. Qed.
  Lemma PI_kill t killed i got p : PI (killed i) i got p -> PI (kill t killed i) i got p.
  Proof.
    intros [H1 H2 H3 H4 H5]. split; auto. intros H. destruct (H5 H) as [E|E]; [|auto]. left.
    destruct (kill t killed i) eqn:K; [reflexivity|]. apply kill_mono in K. congruence.
  Qed.

  Lemma procs_keys s i (p : proc A) : map fst (mt_procs s) = ids -> i < length parts ->
    map fst (aset Nat.eqb i p (mt_procs s)) = ids.
  Proof.
    intros H Hi. change (akeys (aset Nat.eqb i p (mt_procs s)) = ids). rewrite akeys_aset.
    assert (E : amem Nat.eqb i (mt_procs s) = true).
    { unfold amem. destruct (aget_some_in Nat.eqb eqb_nat_spec i (mt_procs s)) as (q & ->); [|reflexivity].
      change (In i (map fst (mt_procs s))). rewrite H. apply in_seq. lia. }
    rewrite E. exact H.
  Qed.
  Lemma procs_in s i (p : proc A) : map fst (mt_procs s) = ids -> aget Nat.eqb i (mt_procs s) = Some p -> i < length parts.
  Proof.
    intros H Hg. assert (In i ids); [|apply in_seq in H0; lia]. rewrite <- H. apply (aget_in Nat.eqb eqb_nat_spec) in Hg.
    apply in_map_iff. exists (i, p). auto.
  Qed.

  (** A process changes by itself. *)
  Lemma mi_proc_step turn killed j t s i p p' :
    MI killed j t s -> aget Nat.eqb i (mt_procs s) = Some p ->
    (PI (killed i) i (t i) p -> none_last (pr_queue p) -> (In None (pr_queue p) -> pr_todo p = []) ->
       PI (kill turn killed i) i (t i) p' /\ none_last (pr_queue p') /\ (In None (pr_queue p') -> pr_todo p' = [])) ->
    MI (kill turn killed) j t (mkMt (aset Nat.eqb i p' (mt_procs s)) (mt_active s) (mt_round s) (mt_removed s) (mt_out s) (mt_state s)).
  Proof.
    intros [M1 M2 M3 M4 M5 M6 M7 M8 M9 M10 M11 M12] Hg Hp. pose proof (procs_in _ _ _ M2 Hg) as Hi.
    split; cbn [mt_out mt_procs mt_active mt_round mt_removed mt_state]; auto.
    - apply procs_keys; assumption.
    - intros i' Hi'. rewrite (aget_aset _ eqb_nat_spec). destruct (Nat.eqb i i') eqn:E.
      + apply Nat.eqb_eq in E. subst i'. exists p'. split; [reflexivity|]. intros Ha Hr.
        destruct (M6 i Hi') as (p0 & Hg0 & H0). rewrite Hg in Hg0. injection Hg0 as <-.
        destruct (H0 Ha Hr) as (P1 & P2 & P3). auto.
      + destruct (M6 i' Hi') as (p0 & Hg0 & H0). exists p0. split; [exact Hg0|]. intros Ha Hr.
        destruct (H0 Ha Hr) as (P1 & P2 & P3). split; [apply PI_kill, P1|auto].
    - intros i' Hi' H. apply PD_kill. auto.
  Qed.

  Lemma ids_split i : i < length parts -> ids = seq 0 i ++ i :: seq (S i) (length parts - S i).
  Proof.
    intros H. replace (length parts) with (i + (1 + (length parts - S i))) at 1 by lia.
    rewrite seq_app. cbn [Nat.add]. reflexivity.
  Qed.
  Lemma sorted_app_lt (a b : list nat) : StronglySorted lt (a ++ b) -> forall x y, In x a -> In y b -> x < y.
  Proof.
    induction a as [|z a IH]; intros H x y Hx Hy; [contradiction|]. inversion H as [|? ? H1 H2]; subst.
    destruct Hx as [<-|Hx]; [|eapply IH; eassumption]. rewrite Forall_forall in H2. apply H2. apply in_or_app. auto.
  Qed.
  Lemma sorted_nodup (a : list nat) : StronglySorted lt a -> NoDup a.
  Proof.
    induction 1 as [|x a H1 IH H2]; constructor; [|exact IH]. intros H. rewrite Forall_forall in H2. specialize (H2 x H). lia.
  Qed.
  Lemma sorted_filter (P : nat -> bool) (a : list nat) : StronglySorted lt a -> StronglySorted lt (filter P a).
  Proof.
    induction 1 as [|x a H1 IH H2]; cbn; [constructor|]. destruct (P x); [|exact IH]. constructor; [exact IH|].
    rewrite Forall_forall in *. intros y Hy. apply filter_In in Hy as [Hy _]. apply H2, Hy.
  Qed.

  Lemma mi_mono killed turn j t s : MI killed j t s -> MI (kill turn killed) j t s.
  Proof.
    intros [M1 M2 M3 M4 M5 M6 M7 M8 M9 M10 M11 M12]. split; auto.
    - intros i Hi. destruct (M6 i Hi) as (p & Hg & H). exists p. split; [exact Hg|]. intros Ha Hr.
      destruct (H Ha Hr) as (P1 & P2 & P3). split; [apply PI_kill, P1|auto].
    - intros i Hi H. apply PD_kill; auto.
  Qed.

  Lemma mi_visit timeout killed j t s s' :
    MI killed j t s -> mt_visit is_end timeout s = Some s' ->
    exists j' t', MI killed j' t' s' /\ (mt_state s' = MError -> timeout = true).
  Proof.
    intros HM Hv. pose proof HM as [M1 M2 M3 M4 M5 M6 M7 M8 M9 M10 M11 M12]. unfold mt_visit in Hv.
    destruct (mt_state s) eqn:Es; try discriminate. destruct (mt_round s) as [|i round'] eqn:Er.
    - injection Hv as <-. exists (S j), t. unfold mt_pass_end. set (act := filter _ _).
      assert (Hact : forall i, In i act <-> In i (mt_active s) /\ ~ In i (mt_removed s)).
      { intros i. unfold act. rewrite filter_In, <- (nat_mem_In i (mt_removed s)). destruct (nat_mem i (mt_removed s)); cbn; intuition congruence. }
      split; [|cbn; destruct act; discriminate].
      split; cbn [mt_out mt_procs mt_active mt_round mt_removed mt_state]; auto.
      + apply sorted_filter, M3.
      + intros i Hi. apply Hact in Hi. apply M4, Hi.
      + exists []. reflexivity.
      + intros i Hi. destruct (M6 i Hi) as (p & Hg & H). exists p. split; [exact Hg|]. intros Ha _. apply Hact in Ha. apply H; apply Ha.
      + intros i Hi [H|[]]. apply M7; [exact Hi|]. destruct (in_dec Nat.eq_dec i (mt_active s)) as [Ha|Ha]; [right|left; exact Ha].
        destruct (in_dec Nat.eq_dec i (mt_removed s)) as [Hr|Hr]; [exact Hr|]. destruct H. apply Hact. auto.
      + intros i Hi H. destruct (in_dec Nat.eq_dec i (mt_active s)) as [Ha|Ha].
        * apply M9; [exact Ha|intros []].
        * specialize (M8 i Hi Ha). lia.
      + intros i H1 H2. contradiction.
      + intros i Hi. apply Hact in Hi as [Ha Hr]. split; [|intros []]. apply M9; [exact Ha|intros []|exact Hr].
      + intros i [].
      + destruct act; [reflexivity|discriminate].
    - destruct M5 as (dn & Hdn).
      assert (Hia : In i (mt_active s)) by (rewrite Hdn; apply in_or_app; right; left; reflexivity).
      pose proof (M4 i Hia) as Hi. destruct (M10 i (or_introl eq_refl)) as [Hlen Hnr].
      destruct (M6 i Hi) as (p & Hg & Hp). rewrite Hg in Hv. destruct (Hp Hia Hnr) as (HPI & Hnl & Htd). clear Hp.
      pose proof HPI as [P1 P2 P3 P4 P5].
      assert (Hnd : NoDup (mt_active s)) by (apply sorted_nodup, M3).
      assert (Hnot : ~ In i round') by (rewrite Hdn in Hnd; apply NoDup_remove_2 in Hnd; rewrite in_app_iff in Hnd; tauto).
      assert (Hni : ~ In i dn) by (rewrite Hdn in Hnd; apply NoDup_remove_2 in Hnd; rewrite in_app_iff in Hnd; tauto).
      assert (Hsplit : exists dn', mt_active s = dn' ++ round') by (exists (dn ++ [i]); rewrite Hdn, <- app_assoc; reflexivity).
      (* dropping i *)
      assert (Hdrop : forall p', PD (killed i) i (t i) ->
        MI killed j t (mkMt (aset Nat.eqb i p' (mt_procs s)) (mt_active s) round' (mt_removed s ++ [i]) (mt_out s) MRun)).
      { intros p' HD. split; cbn [mt_out mt_procs mt_active mt_round mt_removed mt_state]; auto; try discriminate.
        - apply procs_keys; assumption.
        - intros i' Hi'. rewrite (aget_aset _ eqb_nat_spec). destruct (Nat.eqb i i') eqn:E.
          + apply Nat.eqb_eq in E. subst i'. exists p'. split; [reflexivity|]. intros _ Hr. destruct Hr. apply in_or_app. right. left. reflexivity.
          + destruct (M6 i' Hi') as (p0 & Hg0 & H0). exists p0. split; [exact Hg0|]. intros Ha Hr. apply H0; [exact Ha|].
            intros Hx. apply Hr. apply in_or_app. auto.
        - intros i' Hi' H. destruct (Nat.eq_dec i' i) as [->|Hne]; [exact HD|]. apply M7; [exact Hi'|].
          destruct H as [H|H]; [auto|]. apply in_app_or in H as [H|[H|[]]]; [auto|congruence].
        - intros i' Ha Hr. destruct (Nat.eq_dec i' i) as [->|Hne].
          + split; [lia|]. intros H. destruct H. apply in_or_app. right. left. reflexivity.
          + destruct (M9 i' Ha) as [L1 L2]; [intros [H|H]; [congruence|contradiction]|]. split; [exact L1|]. intros H. apply L2.
            intros Hx. apply H. apply in_or_app. auto.
        - intros i' Hr. destruct (M10 i' (or_intror Hr)) as [L1 L2]. split; [exact L1|]. intros H.
          apply in_app_or in H as [H|[H|[]]]; [contradiction|]. subst. contradiction.
        - intros i' H. apply in_app_or in H as [H|[<-|[]]]; [auto|exact Hia]. }
      (* delivering a *)
      assert (Hput : forall a q, is_end a = false -> pr_queue p = Some a :: q ->
        exists t', MI killed j t' (mkMt (aset Nat.eqb i (mkProc (pr_todo p) (pr_fail p) q (pr_alive p)) (mt_procs s)) (mt_active s) round' (mt_removed s) (mt_out s ++ [a]) MRun)).
      { intros a q Ha Hq. exists (fupd Nat.eqb i a t).
        assert (Hsame : fupd Nat.eqb i a t i = t i ++ [a]) by (apply fupd_same, eqb_nat_spec).
        assert (Hoth : forall i', i' <> i -> fupd Nat.eqb i a t i' = t i') by (intros i' Hne; apply fupd_other; [apply eqb_nat_spec|congruence]).
        split; cbn [mt_out mt_procs mt_active mt_round mt_removed mt_state]; auto; try discriminate.
        - rewrite M1, (ids_split i Hi). symmetry. apply rr_fupd with (j := j).
          + apply eqb_nat_spec.
          + rewrite <- ids_split by exact Hi. apply seq_NoDup.
          + intros i' Hi'. apply in_seq in Hi'. destruct (in_dec Nat.eq_dec i' (mt_active s)) as [Hac|Hac].
            * destruct (in_dec Nat.eq_dec i' (i :: round')) as [Hro|Hro]; [destruct (M10 i' Hro); lia|apply M9; assumption].
            * specialize (M8 i' ltac:(lia) Hac). lia.
          + exact Hlen.
          + intros i' Hi'. apply in_seq in Hi'. destruct (in_dec Nat.eq_dec i' (mt_active s)) as [Hac|Hac].
            * destruct (in_dec Nat.eq_dec i' (i :: round')) as [Hro|Hro]; [destruct (M10 i' Hro); lia|].
              exfalso. rewrite Hdn in Hac, M3. apply in_app_or in Hac as [Hac|Hac]; [|contradiction].
              pose proof (sorted_app_lt _ _ M3 i' i Hac (or_introl eq_refl)). lia.
            * apply M8; [lia|exact Hac].
        - apply procs_keys; assumption.
        - intros i' Hi'. rewrite (aget_aset _ eqb_nat_spec). destruct (Nat.eqb i i') eqn:E.
          + apply Nat.eqb_eq in E. subst i'. eexists. split; [reflexivity|]. intros _ _. rewrite Hsame. split; [|split].
            * split; cbn [pr_todo pr_fail pr_queue pr_alive]; auto.
              -- rewrite <- P1, Hq. cbn [somes flat_map opt_to_list]. rewrite <- !app_assoc. reflexivity.
              -- apply Forall_app. auto.
              -- intros H Hx. apply (P4 H). rewrite Hq. right. exact Hx.
            * cbn [pr_queue]. intros q1 q2 E. apply (Hnl (Some a :: q1) q2). rewrite Hq, E. reflexivity.
            * cbn [pr_queue pr_todo]. intros H. apply Htd. rewrite Hq. right. exact H.
          + assert (Hne : i' <> i) by (intros ->; rewrite Nat.eqb_refl in E; discriminate).
            destruct (M6 i' Hi') as (p0 & Hg0 & H0). exists p0. split; [exact Hg0|]. intros Hac Hr. rewrite Hoth by exact Hne. auto.
        - intros i' Hi' H. assert (Hne : i' <> i) by (intros ->; destruct H; contradiction). rewrite Hoth by exact Hne. auto.
        - intros i' Hi' H. assert (Hne : i' <> i) by (intros ->; contradiction). rewrite Hoth by exact Hne. auto.
        - intros i' Hac Hr. destruct (Nat.eq_dec i' i) as [->|Hne].
          + rewrite Hsame, app_length. cbn. lia.
          + rewrite Hoth by exact Hne. apply M9; [exact Hac|]. intros [H|H]; [congruence|contradiction].
        - intros i' Hr. rewrite Hoth by (intros ->; contradiction). apply M10. right. exact Hr. }
      destruct (pr_queue p) as [|[a|] q] eqn:Eq.
      + destruct timeout; [|discriminate]. destruct (pr_alive p) eqn:Eal.
        * injection Hv as <-. exists j, t. split; [|reflexivity].
          split; cbn [mt_out mt_procs mt_active mt_round mt_removed mt_state]; auto; try discriminate. exists dn. exact Hdn.
        * injection Hv as <-. exists j, t. split; [|discriminate]. apply Hdrop.
          cbn [somes flat_map app] in P1. split.
          -- exists (until_end is_end (pr_todo p)). rewrite <- P1. symmetry. apply until_end_app, P3.
          -- intros Hk. destruct (P5 eq_refl) as [H|H]; [congruence|]. rewrite <- P1, H, until_end_app by exact P3. cbn. symmetry. apply app_nil_r.
      + destruct (is_end a) eqn:Ea.
        * injection Hv as <-. exists j, t. split; [|discriminate]. apply Hdrop. cbn [somes flat_map opt_to_list app] in P1.
          assert (E : until_end is_end (t i ++ a :: flat_map opt_to_list q ++ pr_todo p) = t i).
          { rewrite until_end_app by exact P3. cbn. rewrite Ea. apply app_nil_r. }
          unfold PD. rewrite <- P1, E. split; [exists []; apply app_nil_r|reflexivity].
        * injection Hv as <-. destruct (Hput a q Ea eq_refl) as (t' & HM'). exists j, t'. split; [exact HM'|discriminate].
      + injection Hv as <-. exists j, t. split; [|discriminate]. apply Hdrop.
        assert (q = []) by (apply (Hnl [] q); reflexivity). subst q. rewrite (Htd (or_introl eq_refl)) in P1. cbn in P1. rewrite app_nil_r in P1.
        assert (E : until_end is_end (pitems i) = t i).
        { rewrite <- P1, <- (app_nil_r (t i)), until_end_app by (rewrite ?app_nil_r; exact P3). cbn. reflexivity. }
        unfold PD. rewrite E. split; [exists []; apply app_nil_r|reflexivity].
  Qed.
End Mt.

Section MtRun.
  Context {A : Type}.
  Variable read : Z -> Z -> list range -> stream A.
  Variable is_end : A -> bool.
  Variable parts : list (list workload).
  Notation ids := (seq 0 (length parts)).
  Notation MI := (MI read is_end parts).

  Lemma mi_le killed K j t s : (forall i, killed i = true -> K i = true) -> MI killed j t s -> MI K j t s.
  Proof.
    intros HK [M1 M2 M3 M4 M5 M6 M7 M8 M9 M10 M11 M12]. split; auto.
    - intros i Hi. destruct (M6 i Hi) as (p & Hg & H). exists p. split; [exact Hg|]. intros Ha Hr.
      destruct (H Ha Hr) as ([Q1 Q2 Q3 Q4 Q5] & P2 & P3). split; [|auto]. split; auto.
      intros E. destruct (Q5 E); auto.
    - intros i Hi H. destruct (M7 i Hi H) as [D1 D2]. split; [exact D1|]. intros E. apply D2.
      destruct (killed i) eqn:Ek; [|reflexivity]. apply HK in Ek. congruence.
  Qed.

  Lemma mi_step turn K j t s s' :
    MI K j t s -> (forall i, turn = TKill i -> K i = true) -> mt_step is_end turn s = Some s' ->
    exists j' t', MI K j' t' s' /\ (mt_state s' = MError -> mt_state s = MError \/ turn = TTimeout).
  Proof.
    intros HM HK Hs.
    assert (Hle : forall i, kill turn K i = true -> K i = true).
    { intros i H. destruct turn as [k|k| |]; cbn in H; auto. apply orb_true_iff in H as [H|H]; [|exact H].
      apply Nat.eqb_eq in H. subst k. apply HK. reflexivity. }
    destruct turn as [i|i| |]; cbn [mt_step] in Hs.
    - destruct (aget Nat.eqb i (mt_procs s)) as [p|] eqn:Eg; [|discriminate].
      unfold proc_turn in Hs. destruct (pr_alive p) eqn:Eal; [|discriminate]. injection Hs as <-. exists j, t.
      split; [|cbn; auto]. eapply mi_le; [exact Hle|]. eapply mi_proc_step; [exact HM|exact Eg|].
      intros [P1 P2 P3 P4 P5] Hnl Htd. specialize (P4 Eal). destruct (pr_todo p) as [|a l] eqn:Et.
      + split; [split; cbn [pr_todo pr_fail pr_queue pr_alive]|split; cbn [pr_todo pr_queue]]; auto; try discriminate.
        * rewrite <- P1. destruct (pr_fail p); [reflexivity|]. rewrite somes_app. cbn. rewrite app_nil_r. reflexivity.
        * destruct (pr_fail p); [exact Hnl|]. intros q1 q2 E.
          destruct q2 as [|x q2] using rev_ind; [reflexivity|]. clear IHq2.
          rewrite app_comm_cons, app_assoc in E. apply app_inj_tail in E as [E <-]. destruct P4. rewrite E. apply in_or_app. right. left. reflexivity.
      + split; [split; cbn [pr_todo pr_fail pr_queue pr_alive]|split; cbn [pr_todo pr_queue]]; auto; try discriminate.
        * rewrite <- P1, somes_app. cbn. rewrite <- app_assoc. reflexivity.
        * intros _ H. apply in_app_or in H as [H|[H|[]]]; [contradiction|discriminate].
        * intros q1 q2 E. destruct q2 as [|x q2] using rev_ind; [reflexivity|]. clear IHq2.
          rewrite app_comm_cons, app_assoc in E. apply app_inj_tail in E as [E _]. destruct P4. rewrite E. apply in_or_app. right. left. reflexivity.
        * intros H. apply in_app_or in H as [H|[H|[]]]; [contradiction|discriminate].
    - destruct (aget Nat.eqb i (mt_procs s)) as [p|] eqn:Eg; [|discriminate].
      destruct (pr_alive p) eqn:Eal; [|discriminate]. injection Hs as <-. exists j, t.
      split; [|cbn; auto]. eapply mi_le; [exact Hle|]. eapply mi_proc_step; [exact HM|exact Eg|].
      intros [P1 P2 P3 P4 P5] Hnl Htd. split; [split; cbn [pr_todo pr_fail pr_queue pr_alive]|split; cbn [pr_todo pr_queue]]; auto; try discriminate.
      intros _. left. cbn. rewrite Nat.eqb_refl. reflexivity.
    - destruct (mi_visit read is_end parts false K j t s s' HM Hs) as (j' & t' & HM' & He). exists j', t'. split; [exact HM'|].
      intros E. discriminate (He E).
    - destruct (mi_visit read is_end parts true K j t s s' HM Hs) as (j' & t' & HM' & He). exists j', t'. split; [exact HM'|]. auto.
  Qed.

  Lemma mi_run K sched : forall j t s,
    MI K j t s -> (forall i, In (TKill i) sched -> K i = true) ->
    exists j' t', MI K j' t' (mt_run is_end sched s) /\ (mt_state (mt_run is_end sched s) = MError -> mt_state s = MError \/ In TTimeout sched).
  Proof.
    induction sched as [|turn sched IH]; intros j t s HM HK; cbn [mt_run].
    - exists j, t. auto.
    - destruct (mt_step is_end turn s) as [s'|] eqn:Es.
      + destruct (mi_step turn K j t s s' HM) as (j1 & t1 & HM1 & He1); [intros i ->; apply HK; left; reflexivity|exact Es|].
        destruct (IH j1 t1 s' HM1) as (j2 & t2 & HM2 & He2); [intros i H; apply HK; right; exact H|].
        exists j2, t2. split; [exact HM2|]. intros E. destruct (He2 E) as [H|H]; [|right; right; exact H].
        destruct (He1 H) as [H'|H']; [left; exact H'|right; left; exact H'].
      + destruct (IH j t s HM) as (j2 & t2 & HM2 & He2); [intros i H; apply HK; right; exact H|].
        exists j2, t2. split; [exact HM2|]. intros E. destruct (He2 E) as [H|H]; [auto|right; right; exact H].
  Qed.

  Lemma PI_prefix K i got p : PI read is_end parts K i got p -> exists l, got ++ l = until_end is_end (pitems read parts i).
  Proof.
    intros [P1 _ P3 _ _]. exists (until_end is_end (somes (pr_queue p) ++ pr_todo p)). rewrite <- P1. symmetry. apply until_end_app, P3.
  Qed.

  Lemma mt_run_spec sched :
    let s := mt_run is_end sched (mt_init read parts) in
    exists got : nat -> list A,
      mt_out s = round_robin (map got ids)
      /\ (forall i, i < length parts -> exists l, got i ++ l = until_end is_end (pitems read parts i))
      /\ (mt_state s = MDone -> forall i, i < length parts -> ~ In (TKill i) sched -> got i = until_end is_end (pitems read parts i))
      /\ (mt_state s = MError -> In TTimeout sched).
  Proof.
    set (K := fun i => existsb (fun t => match t with TKill k => Nat.eqb i k | _ => false end) sched).
    assert (HK : forall i, In (TKill i) sched <-> K i = true).
    { intros i. unfold K. rewrite existsb_exists. split.
      - intros H. exists (TKill i). rewrite Nat.eqb_refl. auto.
      - intros ([k|k| |] & H & E); try discriminate. apply Nat.eqb_eq in E. subst. exact H. }
    destruct (mi_run K sched 0 (fun _ => []) (mt_init read parts)) as (j & t & [M1 M2 M3 M4 M5 M6 M7 M8 M9 M10 M11 M12] & He).
    - eapply mi_le; [|apply mi_init]. discriminate.
    - intros i Hi. apply HK, Hi.
    - exists t. split; [exact M1|]. split; [|split].
      + intros i Hi. destruct (in_dec Nat.eq_dec i (mt_active (mt_run is_end sched (mt_init read parts)))) as [Ha|Ha].
        * destruct (in_dec Nat.eq_dec i (mt_removed (mt_run is_end sched (mt_init read parts)))) as [Hr|Hr].
          -- apply (M7 i Hi). auto.
          -- destruct (M6 i Hi) as (p & _ & Hp). destruct (Hp Ha Hr) as (HP & _). eapply PI_prefix, HP.
        * apply (M7 i Hi). auto.
      + intros Hd i Hi Hk. apply (M7 i Hi).
        * left. rewrite (M12 Hd). intros [].
        * destruct (K i) eqn:E; [|reflexivity]. apply HK in E. contradiction.
      + intros E. destruct (He E) as [H|H]; [|exact H]. exfalso. unfold mt_init in H. cbn in H. destruct parts; discriminate.
  Qed.

  (** ** Progress and termination *)
  Definition pweight (s : mtst A) (i : nat) : Z :=
    (match aget Nat.eqb i (mt_procs s) with
     | Some p => 3 * Z.of_nat (length (pr_todo p)) + 2 * Z.of_nat (length (pr_queue p)) + (if pr_alive p then 3 else 0)
     | None => 0 end
     + (if nat_mem i (mt_active s) && negb (nat_mem i (mt_removed s)) then 2 else 0))%Z.
  Definition mweight (s : mtst A) : Z :=
    (zsum (map (pweight s) ids) + match mt_round s with [] => 1 | _ => 0 end + match mt_state s with MRun => 1 | _ => 0 end)%Z.

  Lemma pweight_pos s i : (0 <= pweight s i)%Z.
  Proof.
    unfold pweight. destruct (aget _ _ _) as [p|]; [destruct (pr_alive p)|]; destruct (_ && _); lia.
  Qed.
  Lemma mweight_pos s : (0 <= mweight s)%Z.
  Proof.
    unfold mweight. assert (0 <= zsum (map (pweight s) ids))%Z.
    { generalize ids. induction l as [|x l IH]; [cbn; lia|]. cbn [map]. rewrite zsum_cons. pose proof (pweight_pos s x). lia. }
    destruct (mt_round s), (mt_state s); lia.
  Qed.

  Lemma mweight_upd s s' i d :
    i < length parts -> pweight s i = (pweight s' i + d)%Z -> (forall i', i' <> i -> pweight s' i' = pweight s i') ->
    zsum (map (pweight s) ids) = (zsum (map (pweight s') ids) + d)%Z.
  Proof.
    intros Hi Hd Ho. apply (zsum_map_upd Nat.eqb) with (k := i); [apply seq_NoDup|apply in_seq; lia|exact Hd|].
    intros i' _ Hne. symmetry. apply Ho, Hne.
  Qed.
  Lemma pweight_other s procs act round rem rem' out st i p' i' :
    i' <> i -> mt_procs s = procs -> mt_active s = act -> mt_removed s = rem -> (rem' = rem \/ rem' = rem ++ [i]) ->
    pweight (mkMt (aset Nat.eqb i p' procs) act round rem' out st) i' = pweight s i'.
  Proof.
    intros Hne <- <- <- Hr. unfold pweight. cbn [mt_procs mt_active mt_removed].
    rewrite (aget_aset_other _ eqb_nat_spec) by (congruence). f_equal.
    destruct Hr as [->| ->]; [reflexivity|]. unfold nat_mem at 2. rewrite existsb_app. cbn [existsb].
    apply Nat.eqb_neq in Hne. rewrite Hne. rewrite !orb_false_r. reflexivity.
  Qed.

  Lemma mweight_step turn K j t s s' : MI K j t s -> mt_step is_end turn s = Some s' -> (mweight s' < mweight s)%Z.
  Proof.
    intros [M1 M2 M3 M4 M5 M6 M7 M8 M9 M10 M11 M12] Hs.
    assert (Hproc : forall i p p', aget Nat.eqb i (mt_procs s) = Some p ->
      (3 * Z.of_nat (length (pr_todo p')) + 2 * Z.of_nat (length (pr_queue p')) + (if pr_alive p' then 3 else 0)
       < 3 * Z.of_nat (length (pr_todo p)) + 2 * Z.of_nat (length (pr_queue p)) + (if pr_alive p then 3 else 0))%Z ->
      (mweight (mkMt (aset Nat.eqb i p' (mt_procs s)) (mt_active s) (mt_round s) (mt_removed s) (mt_out s) (mt_state s)) < mweight s)%Z).
    { intros i p p' Hg Hlt. unfold mweight. cbn [mt_round mt_state].
      set (s1 := mkMt _ _ _ _ _ _).
      rewrite (mweight_upd s s1 i (pweight s i - pweight s1 i)); [|eapply procs_in; eassumption|lia|].
      - unfold pweight, s1. cbn [mt_procs mt_active mt_removed]. rewrite (aget_aset_same _ eqb_nat_spec), Hg. lia.
      - intros i' Hne. eapply pweight_other; eauto. }
    assert (Hvis : forall timeout, mt_visit is_end timeout s = Some s' -> (mweight s' < mweight s)%Z).
    { intros timeout Hv. unfold mt_visit in Hv. destruct (mt_state s) eqn:Es; try discriminate. destruct (mt_round s) as [|i round'] eqn:Er.
      - injection Hv as <-. unfold mt_pass_end. set (act := filter _ _).
        assert (Hw : map (pweight (mkMt (mt_procs s) act act [] (mt_out s) (match act with [] => MDone | _ => MRun end))) ids = map (pweight s) ids).
        { apply map_ext. intros i. unfold pweight. cbn [mt_procs mt_active mt_removed]. f_equal.
          replace (nat_mem i act && negb (nat_mem i [])) with (nat_mem i (mt_active s) && negb (nat_mem i (mt_removed s))); [reflexivity|].
          cbn [nat_mem existsb negb]. rewrite andb_true_r. apply eq_true_iff_eq. rewrite andb_true_iff, negb_true_iff, !nat_mem_In.
          unfold act. rewrite filter_In, negb_true_iff. tauto. }
        unfold mweight. rewrite Hw. cbn [mt_round mt_state]. rewrite Er, Es. destruct act; lia.
      - destruct M5 as (dn & Hdn).
        assert (Hia : In i (mt_active s)) by (rewrite Hdn; apply in_or_app; right; left; reflexivity).
        pose proof (M4 i Hia) as Hi. destruct (M10 i (or_introl eq_refl)) as [Hlen Hnr].
        destruct (M6 i Hi) as (p & Hg & _). rewrite Hg in Hv.
        assert (Hact : nat_mem i (mt_active s) = true) by (apply nat_mem_In, Hia).
        assert (Hrem : nat_mem i (mt_removed s) = false) by (destruct (nat_mem i (mt_removed s)) eqn:E; [apply nat_mem_In in E; contradiction|reflexivity]).
        assert (Hgo : forall p' rem' out, (rem' = mt_removed s \/ rem' = mt_removed s ++ [i]) ->
          (2 + 3 * Z.of_nat (length (pr_todo p')) + 2 * Z.of_nat (length (pr_queue p')) + (if pr_alive p' then 3 else 0) + (if nat_mem i rem' then 0 else 2)
          <= 3 * Z.of_nat (length (pr_todo p)) + 2 * Z.of_nat (length (pr_queue p)) + (if pr_alive p then 3 else 0) + 2)%Z ->
          (mweight (mkMt (aset Nat.eqb i p' (mt_procs s)) (mt_active s) round' rem' out MRun) < mweight s)%Z).
        { intros p' rem' out Hr Hlt. unfold mweight. cbn [mt_round mt_state]. rewrite Er, Es. set (s1 := mkMt _ _ _ _ _ _).
          rewrite (mweight_upd s s1 i (pweight s i - pweight s1 i)); [|exact Hi|lia|].
          - unfold pweight, s1. cbn [mt_procs mt_active mt_removed]. rewrite (aget_aset_same _ eqb_nat_spec), Hg, Hact, Hrem.
            cbn [negb andb]. destruct (nat_mem i rem'); cbn [negb]; destruct round'; lia.
          - intros i' Hne. eapply pweight_other; eauto. }
        assert (Hmem : nat_mem i (mt_removed s ++ [i]) = true) by (apply nat_mem_In, in_or_app; right; left; reflexivity).
        destruct (pr_queue p) as [|[a|] q] eqn:Eq.
        + destruct timeout; [|discriminate]. destruct (pr_alive p) eqn:Eal.
          * injection Hv as <-. unfold mweight. cbn [mt_round mt_state]. rewrite Er, Es.
            replace (map (pweight (mkMt (mt_procs s) (mt_active s) (i :: round') (mt_removed s) (mt_out s) MError)) ids) with (map (pweight s) ids) by reflexivity. lia.
          * injection Hv as <-. apply Hgo; [auto|]. rewrite Eq, Eal, Hmem. cbn [length]. lia.
        + destruct (is_end a).
          * injection Hv as <-. apply Hgo; [auto|]. rewrite Hmem. cbn [pr_todo pr_queue pr_alive length]. lia.
          * injection Hv as <-. apply Hgo; [auto|]. rewrite Hrem. cbn [pr_todo pr_queue pr_alive length]. lia.
        + injection Hv as <-. apply Hgo; [auto|]. rewrite Hmem. cbn [pr_todo pr_queue pr_alive length]. lia. }
    destruct turn as [i|i| |]; cbn [mt_step] in Hs; [| |eapply Hvis; exact Hs|eapply Hvis; exact Hs].
    - destruct (aget Nat.eqb i (mt_procs s)) as [p|] eqn:Eg; [|discriminate].
      unfold proc_turn in Hs. destruct (pr_alive p) eqn:Eal; [|discriminate]. injection Hs as <-. apply Hproc with (p := p); [exact Eg|].
      rewrite Eal. destruct (pr_todo p) as [|a l]; cbn [pr_todo pr_queue pr_alive].
      + destruct (pr_fail p); rewrite ?app_length; cbn [length]; lia.
      + rewrite app_length. cbn [length]. lia.
    - destruct (aget Nat.eqb i (mt_procs s)) as [p|] eqn:Eg; [|discriminate].
      destruct (pr_alive p) eqn:Eal; [|discriminate]. injection Hs as <-. apply Hproc with (p := p); [exact Eg|].
      rewrite Eal. cbn [pr_todo pr_queue pr_alive]. lia.
  Qed.

  (** The turns of a schedule that do something. *)
  Fixpoint turns_taken (sched : list mt_turn) (s : mtst A) : nat :=
    match sched with
    | [] => 0
    | t :: sched' => match mt_step is_end t s with Some s' => S (turns_taken sched' s') | None => turns_taken sched' s end
    end.

  Lemma turns_bounded sched : forall K j t s, MI K j t s -> (forall i, In (TKill i) sched -> K i = true) ->
    (Z.of_nat (turns_taken sched s) <= mweight s)%Z.
  Proof.
    induction sched as [|turn sched IH]; intros K j t s HM HK; cbn [turns_taken].
    - apply mweight_pos.
    - destruct (mt_step is_end turn s) as [s'|] eqn:Es.
      + pose proof (mweight_step _ _ _ _ _ _ HM Es) as Hw.
        destruct (mi_step turn K j t s s' HM) as (j1 & t1 & HM1 & _); [intros i ->; apply HK; left; reflexivity|exact Es|].
        specialize (IH K j1 t1 s' HM1 ltac:(intros i H; apply HK; right; exact H)). lia.
      + apply (IH K j t s HM). intros i H. apply HK. right. exact H.
  Qed.

  (** While the iteration is not over, something can happen: a process or the consumer can run, or the consumer waits
      for a process that has ended, and its timeout removes that process. *)
  Lemma mi_progress K j t s : MI K j t s -> mt_state s = MRun ->
    (exists i, mt_step is_end (TProc i) s <> None) \/ mt_step is_end TCons s <> None
    \/ exists s', mt_step is_end TTimeout s = Some s' /\ mt_state s' = MRun.
  Proof.
    intros [M1 M2 M3 M4 M5 M6 M7 M8 M9 M10 M11 M12] Es. cbn [mt_step]. unfold mt_visit. rewrite Es.
    destruct (mt_round s) as [|i round'] eqn:Er; [right; left; discriminate|].
    destruct M5 as (dn & Hdn).
    assert (Hia : In i (mt_active s)) by (rewrite Hdn; apply in_or_app; right; left; reflexivity).
    destruct (M6 i (M4 i Hia)) as (p & Hg & _). rewrite Hg. destruct (pr_queue p) as [|[a|] q] eqn:Eq.
    - destruct (pr_alive p) eqn:Eal.
      + left. exists i. rewrite Hg. unfold proc_turn. rewrite Eal. discriminate.
      + right. right. eexists. split; [reflexivity|]. reflexivity.
    - right. left. destruct (is_end a); discriminate.
    - right. left. discriminate.
  Qed.
End MtRun.
