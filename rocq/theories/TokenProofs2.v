From Verif Require Import Base ChunkGenModel TokenModel SpecToken TokenProofs.
From Coq Require Import ZifyBool ZifyNat.
Local Open Scope nat_scope.

Section ThProgress.
  Context {A : Type}.
  Variable c : tkcfg A.
  Hypothesis Hlen : 1 <= tk_len c.
  Hypothesis Hbatch : 1 <= tk_batch c.
  Variable X : list A.
  Notation T := (token_stream (tk_ids c) X).
  Notation spec := (token_spec (tk_len c) (tk_overlap c) (tk_one c) T).
  Notation n1 := (tk_len c + 1).
  Notation step := (tk_step c).

  Lemma inv_prefix f out st rest : Inv c X f out st rest -> out = firstn (length out) spec.
  Proof.
    intros H. pose proof (inv_buf _ _ _ _ _ _ H) as HT. pose proof (f_equal (@length Z) HT) as HL. rewrite app_length in HL.
    unfold token_spec. fold step.
    destruct (inv_out _ _ _ _ _ _ H) as [(-> & _ & Hy)|(-> & -> & _ & Ht & _)].
    - pose proof (window_count_ge n1 step T (ts_yielded st) (step_pos c Hlen Hbatch)) as Hge.
      assert (Hle : ts_yielded st <= window_count n1 step T) by lia.
      rewrite map_length, seq_length.
      destruct ((length T <? n1) && (0 <? length T) && tk_one c) eqn:E.
      + apply andb_true_iff in E as [E _]. apply andb_true_iff in E as [E _].
        unfold window_count in Hle. rewrite E in Hle.
        replace (ts_yielded st) with 0 by lia. reflexivity.
      + unfold all_windows. rewrite firstn_map. f_equal.
        replace (window_count n1 step T) with (ts_yielded st + (window_count n1 step T - ts_yielded st)) by lia.
        rewrite seq_app, firstn_app, seq_length, Nat.sub_diag. cbn [firstn]. rewrite app_nil_r, firstn_all2; [reflexivity|].
        rewrite seq_length. lia.
    - rewrite (proj2 (Nat.ltb_lt _ _) (proj1 Ht)), (proj2 (Nat.ltb_lt _ _) (proj2 Ht)). reflexivity.
  Qed.

  Lemma sync_spec : exists n0 fuel0, forall n fuel, n0 <= n -> fuel0 <= fuel ->
    tk_drain n fuel c (tk_init (X, None)) = (spec, StopIter).
  Proof.
    exists (window_count n1 step T + 2), (length X + 2). intros n fuel Hn Hf.
    pose proof (tk_drain_spec c Hlen Hbatch X None n fuel [] (tk_init (X, None)) X (Inv_init c X None)) as H.
    cbn [app length] in H. destruct H as (ws & -> & ->); [lia|lia|reflexivity].
  Qed.

  Lemma sync_spec_fail e : exists n0 fuel0, forall n fuel, n0 <= n -> fuel0 <= fuel ->
    exists k, tk_drain n fuel c (tk_init (X, Some e)) = (firstn k (all_windows n1 step T), Raise e).
  Proof.
    exists (window_count n1 step T + 2), (length X + 2). intros n fuel Hn Hf.
    pose proof (tk_drain_spec c Hlen Hbatch X (Some e) n fuel [] (tk_init (X, Some e)) X (Inv_init c X (Some e))) as H.
    cbn [app length] in H. destruct H as (ws & -> & k & ->); [lia|lia|]. exists k. reflexivity.
  Qed.

  Definition mu (s : thst A) (rest : list A) : nat :=
    2 * (length rest + (if ts_eos (th s) then 0 else 1) + match th_p s with PRun => 1 | PDead => 0 end)
    + (window_count n1 step T + 1 - length (th_out s)) + match th_c s with CReady => 1 | _ => 0 end.

  Lemma turn_decreases w s rest s' :
    ThInv c X None s rest -> th_turn c w s = Some s' -> exists rest', ThInv c X None s' rest' /\ mu s' rest' < mu s rest.
  Proof.
    intros H Ht. destruct w; cbn [th_turn] in Ht.
    - pose proof (th_prod_inv c Hlen Hbatch X None s rest s' eq_refl H Ht) as (rest' & H' & Hm).
      exists rest'. split; [exact H'|].
      assert (Ho : th_out s' = th_out s).
      { unfold th_prod in Ht. destruct (th_p s); [|discriminate]. destruct (ts_eos (th s)); [injection Ht as <-; reflexivity|].
        destruct (th_collect _ _ _ _) as [[[src texts] eos] [e|]]; [injection Ht as <-; reflexivity|].
        destruct texts; injection Ht as <-; reflexivity. }
      assert (Hdead : th_p s = PRun) by (unfold th_prod in Ht; destruct (th_p s); [reflexivity|discriminate]).
      assert (Hmono : ts_eos (th s) = true -> ts_eos (th s') = true).
      { intros E. unfold th_prod in Ht. rewrite Hdead, E in Ht. injection Ht as <-. exact E. }
      unfold mu. rewrite Ho, Hdead.
      assert (Hb : match th_c s' with CReady => 1 | _ => 0 end <= 1) by (destruct (th_c s'); lia).
      destruct Hm as [Hm|[(E1 & E2 & ->)|(E1 & E2 & _ & -> & E3 & E4)]].
      + destruct (ts_eos (th s)) eqn:E1.
        * rewrite (Hmono eq_refl). destruct (th_p s'); lia.
        * destruct (ts_eos (th s')), (th_p s'); lia.
      + rewrite E1, E2. cbn [length]. destruct (th_p s'); lia.
      + rewrite E1, E2, E3, E4. lia.
    - pose proof (th_cons_inv c Hlen Hbatch X None s rest s' H Ht) as H'. exists rest. split; [exact H'|].
      pose proof (inv_len c Hlen Hbatch X None _ _ _ (ti_inv _ _ _ _ _ H')) as Hl.
      unfold th_cons in Ht. destruct (th_c s) eqn:Ec; try discriminate. unfold mu. rewrite Ec.
      destruct (tk_window c (th s)) as [[st1 w]|] eqn:Ew.
      + injection Ht as <-. cbn [th th_c th_p th_out] in *.
        destruct (inv_window c Hlen Hbatch X None _ _ _ _ _ (ti_inv _ _ _ _ _ H) Ew) as [_ He]. rewrite He.
        rewrite app_length in *. cbn [length] in *. lia.
      + destruct (ts_eos (th s)) eqn:Ee.
        * destruct (tk_final c (th s)) as [st1 r] eqn:Ef.
          pose proof (inv_final c Hlen Hbatch X None _ _ _ r st1 (ti_inv _ _ _ _ _ H) Ew Ee Ef) as Hfin. destruct r as [w| |e].
          -- injection Ht as <-. cbn [th th_c th_p th_out] in *. destruct Hfin as [_ ->].
             rewrite app_length in *. cbn [length] in *. lia.
          -- injection Ht as <-. cbn [th th_c th_p th_out] in *.
             assert (st1 = th s) as ->. { unfold tk_final in Ef. destruct (_ && _); [discriminate|]. congruence. }
             rewrite Ee. lia.
          -- contradiction.
        * injection Ht as <-. cbn [th th_c th_p th_out] in *. rewrite Ee. lia.
  Qed.

  Lemma effective_bound sched s rest : ThInv c X None s rest -> effective c sched s <= mu s rest.
  Proof.
    revert s rest. induction sched as [|w sched IH]; intros s rest H; cbn [effective]; [lia|].
    destruct (th_turn c w s) as [s'|] eqn:E; [|auto].
    destruct (turn_decreases _ _ _ _ H E) as (rest' & H' & Hlt). specialize (IH _ _ H'). lia.
  Qed.

  Lemma threaded_spec :
    exists N, forall sched, let s := th_run c sched (th_init (X, None)) in
      th_out s = firstn (length (th_out s)) spec
      /\ (th_c s = CDone -> th_out s = spec)
      /\ (th_c s <> CDone -> can_run c s)
      /\ effective c sched (th_init (X, None)) <= N.
  Proof.
    exists (mu (th_init (X, None)) X). intros sched s.
    destruct (th_run_inv c Hlen Hbatch X None sched _ X eq_refl (ThInv_init c X None)) as (rest & H). fold s in H.
    split; [eapply inv_prefix, ti_inv, H|]. split; [apply (ti_done _ _ _ _ _ H)|]. split.
    - intros Hnd. unfold can_run. destruct (th_c s) eqn:Ec; [| |congruence].
      + exists Consumer. cbn [th_turn]. unfold th_cons. rewrite Ec.
        destruct (tk_window c (th s)) as [[st1 w]|]; [eauto|].
        destruct (ts_eos (th s)); [|eauto]. destruct (tk_final c (th s)) as [st1 [w| |e]]; eauto.
      + exists Producer. cbn [th_turn]. unfold th_prod.
        destruct (ti_wait _ _ _ _ _ H Ec) as [He _]. destruct (th_p s) eqn:Ep.
        * rewrite He. destruct (th_collect _ _ _ _) as [[[src texts] eos] [e|]]; [eauto|]. destruct texts; eauto.
        * pose proof (ti_dead _ _ _ _ _ H Ep). congruence.
    - apply effective_bound, ThInv_init.
  Qed.
End ThProgress.

(** ** Prefetching *)
Section Pf.
  Context {A : Type}.
  Variable is_none : A -> bool.
  Variable X : list A.
  Variable f : option exn.
  Hypothesis Hok : match X with a :: _ => is_none a = false | [] => f = None end.

  Record PfInv (s : pfst A) (out : list A) : Prop := {
    pi_consumed : pf_consumed s = true -> pf_event s = true /\ exists rest, pf_src s = (rest, f) /\ X = out ++ rest;
    pi_event : pf_consumed s = false -> pf_event s = true ->
               out = [] /\ match pf_first s with
                           | Some a => is_none a = false /\ exists rest, pf_src s = (rest, f) /\ X = a :: rest
                           | None => X = [] /\ f = None end;
    pi_start : pf_event s = false -> out = [] /\ pf_src s = (X, f) }.

  Lemma PfInv_init : PfInv (pf_init (X, f)) [].
  Proof. split; cbn; try discriminate; auto. Qed.

  Definition consumers (sched : list who) : nat := length (filter is_consumer sched).

  Lemma pf_thread_inv s out s' : PfInv s out -> pf_thread s = Some s' -> PfInv s' out /\ pf_event s' = true.
  Proof.
    intros [Hc He Hs] Ht. unfold pf_thread in Ht. destruct (pf_event s) eqn:Ee; [discriminate|].
    destruct (Hs eq_refl) as [-> Hsrc]. rewrite Hsrc in Ht.
    assert (Hnc : pf_consumed s = false) by (destruct (pf_consumed s); [destruct (Hc eq_refl); congruence|reflexivity]).
    destruct X as [|a l] eqn:EX; cbn [snext] in Ht.
    - rewrite Hok in Ht. injection Ht as <-. split; [|reflexivity].
      split; cbn [pf_consumed pf_event pf_src pf_first]; try congruence. rewrite EX. auto.
    - injection Ht as <-. split; [|reflexivity]. split; cbn [pf_consumed pf_event pf_src pf_first]; try congruence.
      intros _ _. split; [reflexivity|]. split; [exact Hok|]. exists l. auto.
  Qed.

  (** The result of a run under any schedule. *)
  Lemma pf_run_spec sched s out out' r :
    PfInv s out -> pf_run is_none sched s out = (out', r) ->
    match r with
    | Yield _ => (exists k, out' = firstn k X) /\ (pf_event s = true -> length out + consumers sched <= length X)
    | StopIter => out' = X /\ f = None
    | Raise e => out' = X /\ f = Some e
    end.
  Proof.
    revert s out. induction sched as [|w sched IH]; intros s out H Hr; cbn [pf_run] in Hr.
    - injection Hr as <- <-. destruct H as [Hc He Hs].
      destruct (pf_consumed s) eqn:Ec.
      + destruct (Hc eq_refl) as (_ & rest & _ & HX). split.
        * exists (length out). rewrite HX, firstn_app, Nat.sub_diag, firstn_all. cbn. rewrite app_nil_r. reflexivity.
        * intros _. rewrite HX, app_length. cbn. lia.
      + destruct (pf_event s) eqn:Ee.
        * destruct (He eq_refl eq_refl) as [-> _]. split; [exists 0; reflexivity|]. cbn. lia.
        * destruct (Hs eq_refl) as [-> _]. split; [exists 0; reflexivity|]. discriminate.
    - destruct w.
      + destruct (pf_thread s) as [s'|] eqn:Et.
        * destruct (pf_thread_inv _ _ _ H Et) as [H' He']. specialize (IH _ _ H' Hr). destruct r as [u| |e]; auto.
          destruct IH as [IH1 IH2]. split; [exact IH1|]. intros _. apply IH2, He'.
        * exact (IH _ _ H Hr).
      + unfold pf_next in Hr. destruct H as [Hc He Hs]. destruct (pf_consumed s) eqn:Ec; cbn [negb] in Hr.
        * destruct (Hc eq_refl) as (Hev & rest & Hsrc & HX). rewrite Hsrc in Hr.
          destruct rest as [|a rest]; cbn [snext] in Hr.
          -- rewrite app_nil_r in HX. destruct f as [e|] eqn:Ef; injection Hr as <- <-; auto.
          -- assert (H' : PfInv (mkPf (rest, f) (pf_event s) true (pf_first s) (pf_lost s)) (out ++ [a])).
             { split; cbn [pf_consumed pf_event pf_src pf_first]; try congruence.
               intros _. split; [exact Hev|]. exists rest. split; [reflexivity|]. rewrite <- app_assoc. exact HX. }
             specialize (IH _ _ H' Hr). destruct r as [u| |e]; auto.
             destruct IH as [IH1 IH2]. split; [exact IH1|]. intros _. cbn [pf_event] in IH2. specialize (IH2 Hev).
             unfold consumers in *. cbn. rewrite app_length in IH2. cbn in IH2. lia.
        * destruct (pf_event s) eqn:Ee.
          -- destruct (He eq_refl eq_refl) as [-> Hfirst]. destruct (pf_first s) as [a|].
             ++ destruct Hfirst as (Hn & rest & Hsrc & HX). rewrite Hn in Hr.
                assert (H' : PfInv (mkPf (pf_src s) true true (Some a) (pf_lost s)) ([] ++ [a])).
                { split; cbn [pf_consumed pf_event pf_src pf_first]; try congruence. intros _. split; [reflexivity|]. exists rest. auto. }
                specialize (IH _ _ H' Hr). destruct r as [u| |e]; [|exact IH|exact IH].
                destruct IH as [IH1 IH2]. split; [exact IH1|]. intros _. specialize (IH2 eq_refl).
                unfold consumers in *. cbn in *. lia.
             ++ injection Hr as <- <-. destruct Hfirst as [-> ->]. auto.
          -- assert (H : PfInv s out) by (split; auto; congruence).
             specialize (IH _ _ H Hr). destruct r as [u| |e]; auto.
             destruct IH as [IH1 _]. split; [exact IH1|]. congruence.
  Qed.

  (** Turns before the prefetch thread ran do nothing. *)
  Lemma pf_run_app s1 s2 s out :
    PfInv s out -> pf_event s = false -> forallb is_consumer s1 = true ->
    pf_run is_none (s1 ++ s2) s out = pf_run is_none s2 s out.
  Proof.
    intros H He. induction s1 as [|w s1 IH]; [reflexivity|]. cbn [forallb app]. intros Hw.
    apply andb_true_iff in Hw as [Hw Hw']. destruct w; [discriminate|]. cbn [pf_run]. unfold pf_next.
    assert (Hnc : pf_consumed s = false).
    { destruct (pf_consumed s) eqn:Ec; [|reflexivity]. destruct (pi_consumed _ _ H Ec). congruence. }
    rewrite Hnc, He. cbn [negb]. auto.
  Qed.

  Lemma pf_finishes s1 s2 :
    length X < consumers s2 -> exists out r, pf_run is_none (s1 ++ Producer :: s2) (pf_init (X, f)) [] = (out, r) /\ r <> Yield tt.
  Proof.
    intros Hlen.
    assert (Hsplit : exists a b, s1 ++ Producer :: s2 = a ++ Producer :: b /\ forallb is_consumer a = true /\ length X < consumers b).
    { induction s1 as [|w s1 IH]; [exists [], s2; auto|]. destruct w.
      - exists [], (s1 ++ Producer :: s2). cbn. repeat split. unfold consumers in *. rewrite filter_app, app_length. cbn. lia.
      - destruct IH as (a & b & E & Ha & Hb). exists (Consumer :: a), b. cbn. rewrite E. auto. }
    destruct Hsplit as (a & b & -> & Ha & Hb).
    rewrite pf_run_app by (auto using PfInv_init).
    destruct (pf_run is_none (Producer :: b) (pf_init (X, f)) []) as [out r] eqn:E. exists out, r. split; [reflexivity|].
    intros ->. cbn [pf_run] in E.
    destruct (pf_thread (pf_init (X, f))) as [s'|] eqn:Et.
    - destruct (pf_thread_inv _ _ _ PfInv_init Et) as [H' He']. pose proof (pf_run_spec _ _ _ _ _ H' E) as [_ Hs].
      specialize (Hs He'). cbn in Hs. lia.
    - unfold pf_thread in Et. cbn [pf_event pf_init pf_src] in Et. destruct (snext (X, f)) as [? [| |]]; discriminate.
  Qed.
End Pf.
