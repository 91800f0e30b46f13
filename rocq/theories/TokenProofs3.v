From Verif Require Import Base ChunkGenModel TokenModel SpecToken TokenProofs TokenProofs2.
From Coq Require Import ZifyBool ZifyNat.
Local Open Scope nat_scope.

Lemma nth_error_firstn_ {B} (l : list B) n j : j < n -> nth_error (firstn n l) j = nth_error l j.
Proof.
  revert l j. induction n as [|n IH]; intros l j H; [lia|].
  destruct l as [|x l]; [reflexivity|]. destruct j as [|j]; [reflexivity|]. cbn. apply IH. lia.
Qed.
Lemma nth_error_skipn_ {B} (l : list B) s j : nth_error (skipn s l) j = nth_error l (s + j).
Proof.
  revert l. induction s as [|s IH]; intros l; [reflexivity|]. destruct l as [|x l]; cbn; [destruct j; reflexivity|]. apply IH.
Qed.
Lemma firstn_plus {B} (l : list B) a b : firstn (a + b) l = firstn a l ++ firstn b (skipn a l).
Proof.
  revert l. induction a as [|a IH]; intros l; [reflexivity|]. destruct l as [|x l]; [cbn; destruct b; reflexivity|].
  cbn. rewrite IH. reflexivity.
Qed.

Lemma window_count_iff n step T i : 1 <= step -> i < window_count n step T <-> i * step + n <= length T.
Proof.
  intros Hs. unfold window_count. destruct (Nat.ltb_spec (length T) n) as [H|H]; cbv iota.
  - pose proof (Nat.le_0_l (i * step)). lia.
  - assert (E : i <= (length T - n) / step <-> i * step + n <= length T); [|lia].
    split; intros Hi.
    + pose proof (Nat.mul_div_le (length T - n) step). nia.
    + apply Nat.div_le_lower_bound; lia.
Qed.

Lemma all_windows_nth n step T i w :
  1 <= step ->
  nth_error (all_windows n step T) i = Some w <->
  i * step + n <= length T /\ length w = n /\ forall j, j < n -> nth_error w j = nth_error T (i * step + j).
Proof.
  intros Hs. unfold all_windows.
  assert (Hw : forall i, i * step + n <= length T -> length (window_at n step i T) = n /\ forall j, j < n ->
                 nth_error (window_at n step i T) j = nth_error T (i * step + j)).
  { intros i' H. unfold window_at. rewrite firstn_length, skipn_length. split; [lia|].
    intros j Hj. rewrite nth_error_firstn_ by exact Hj. apply nth_error_skipn_. }
  rewrite nth_error_map. split.
  - intros H. destruct (nth_error (seq 0 _) i) as [x|] eqn:E; cbn in H; [|discriminate]. injection H as <-.
    assert (Hi : i < window_count n step T).
    { assert (Hn : nth_error (seq 0 (window_count n step T)) i <> None) by congruence.
        apply nth_error_Some in Hn; rewrite seq_length in Hn; exact Hn. }
    assert (x = i) as ->.
    { pose proof (nth_error_nth _ _ 0 E) as Hx. rewrite seq_nth in Hx by exact Hi. lia. }
    apply window_count_iff in Hi; [|exact Hs]. split; [exact Hi|]. apply Hw, Hi.
  - intros (Hi & Hl & Hj). pose proof Hi as Hi'. apply window_count_iff in Hi'; [|exact Hs].
    rewrite (nth_error_nth' _ 0) by (rewrite seq_length; exact Hi'). rewrite seq_nth by exact Hi'. cbn. f_equal.
    destruct (Hw _ Hi) as [Hl' Hj'].
    apply (nth_ext _ _ 0%Z 0%Z); [lia|]. intros j Hjn. rewrite Hl' in Hjn.
    apply nth_error_nth with (d := 0%Z) (n := j) (l := window_at n step i T) (x := nth j w 0%Z).
    rewrite Hj' by exact Hjn. rewrite <- Hj by exact Hjn. apply nth_error_nth'. lia.
Qed.

Lemma all_windows_disjoint n T :
  1 <= n -> concat (all_windows n n T) = firstn (window_count n n T * n) T /\ length T < window_count n n T * n + n.
Proof.
  intros Hn. split.
  - unfold all_windows. assert (Hk : forall k, concat (map (fun i => window_at n n i T) (seq 0 k)) = firstn (k * n) T).
    { induction k as [|k IH]; [reflexivity|]. rewrite seq_S, map_app, concat_app, IH. cbn [map concat Nat.add].
      rewrite app_nil_r. replace (S k * n) with (k * n + n) by lia. rewrite firstn_plus. reflexivity. }
    apply Hk.
  - pose proof (window_count_iff n n T (window_count n n T) Hn). lia.
Qed.

(** A failing source: the threaded iterator never ends and never reports the error. *)
Section Fail.
  Context {A : Type}.
  Variable c : tkcfg A.
  Hypothesis Hlen : 1 <= tk_len c.
  Hypothesis Hbatch : 1 <= tk_batch c.

  (** A source that fails at once. *)
  Lemma threaded_fail_stuck e sched s :
    (th_p s = PRun -> ts_src (th s) = ([], Some e)) -> ts_eos (th s) = false -> tk_window c (th s) = None -> th_c s <> CDone -> th_out s = [] ->
    th_c (th_run c sched s) <> CDone /\ th_out (th_run c sched s) = [].
  Proof.
    revert s. induction sched as [|w sched IH]; intros s Hsrc He Hw Hc Ho; cbn [th_run]; [auto|].
    destruct (th_turn c w s) as [s'|] eqn:Et; [|auto]. destruct w; cbn [th_turn] in Et.
    - unfold th_prod in Et. destruct (th_p s) eqn:Ep; [|discriminate]. rewrite He in Et.
      rewrite (Hsrc eq_refl) in Et. rewrite th_collect_spec in Et. cbn [length] in Et.
      destruct (Nat.leb_spec (tk_batch c) 0) as [|_]; [lia|]. injection Et as <-.
      apply IH; cbn [th th_p th_c th_out ts_eos]; auto; try discriminate.
      unfold tk_window in *. cbn [ts_buf ts_idx]. destruct (_ <=? _); [discriminate|reflexivity].
    - unfold th_cons in Et. destruct (th_c s) eqn:Ec; try discriminate. rewrite Hw, He in Et. injection Et as <-.
      apply IH; cbn [th th_p th_c th_out]; auto; try discriminate.
  Qed.
End Fail.
