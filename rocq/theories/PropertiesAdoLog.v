(** C91: the log of ADO is complete, and logging changes nothing. *)
From Verif Require Import Base MixtureKeyModel UtilsModel UtilsProofs ChunkGenModel MixtureModel MixtureProofs DynModel SpecDyn DynProofs DynProofs2 DynProofs3
  SpecAdoFit AdoFitProofs PropertiesDyn PropertiesDyn2 AdoLogModel SpecAdoLog AdoLogProofs PropertiesAdoAvg.
From Coq Require Import QArith.
Open Scope Z_scope.

Lemma filter_snoc {A} (p : A -> bool) l x : filter p (l ++ [x]) = filter p l ++ (if p x then [x] else []).
Proof. rewrite filter_app. cbn. destruct (p x); reflexivity. Qed.
Lemma Forall2_weaken {A B} (R R' : A -> B -> Prop) l l' : Forall2 R l l' -> (forall x y, In x l -> R x y -> R' x y) -> Forall2 R' l l'.
Proof. induction 1 as [|x y l l' Hxy H IH]; intros HR; constructor; [apply HR; [left; reflexivity|exact Hxy]|]. apply IH. intros a b Ha. apply HR. right. exact Ha. Qed.
Lemma messages_app es es' : messages (es ++ es') = messages es ++ messages es'.
Proof. apply flat_map_app. Qed.
Lemma firstn_app_le {A} (l r : list A) n : (n <= length l)%nat -> firstn n (l ++ r) = firstn n l.
Proof. intros H. rewrite firstn_app. replace (n - length l)%nat with 0%nat by lia. cbn. apply app_nil_r. Qed.
Lemma map_ext_seq {A} (f g : nat -> A) n : (forall k, (k < n)%nat -> f k = g k) -> map f (seq 0 n) = map g (seq 0 n).
Proof. intros H. apply map_ext_in. intros k Hk. apply in_seq in Hk. apply H. lia. Qed.

Section C91.
  Variables (fl : Q -> Q) (nsum : list Q -> Q) (cfg : config) (P : Type) (p_zero : P).
  Variable fit1 : list (list Z) -> list (list Q) -> Z -> nat -> res P.
  Variable deriv : P -> Q -> Q.
  Variable pow_s : Q -> Q.
  Variable initial : list Q.
  Notation process := (ado_process fl nsum cfg P p_zero fit1 deriv pow_s).
  Notation step := (log_step fl nsum cfg P p_zero fit1 deriv pow_s).
  (** The object with its log and the file after a history; the object without log after [T] messages and its answer to message [T]. *)
  Definition state (es : list levent) : lstate P := log_run fl nsum cfg P p_zero fit1 deriv pow_s es (lstate0 P initial).
  Definition plain (l : list fb) (T : nat) : ado P := run process (firstn T l) (ado0 P initial).
  Definition reply (l : list fb) (T : nat) : option (list Q) + exn :=
    let f := msg l (T - 1) in snd (process (fb_losses f) (fb_counts f) (fb_mixture f) (plain l (T - 1))).
  (** The object without log accepts every message, with these answers. *)
  Definition accepted (l : list fb) (answer : nat -> option (list Q)) : Prop := forall T, (1 <= T <= length l)%nat -> reply l T = inl (answer T).

  Lemma state_snoc es e : state (es ++ [e]) = fst (step e (state es)).
  Proof. unfold state. generalize (lstate0 P initial). induction es as [|x es IH]; intros s; cbn [app log_run]; [reflexivity|apply IH]. Qed.
  Lemma plain_all l : plain l (length l) = run process l (ado0 P initial).
  Proof. unfold plain. rewrite firstn_all. reflexivity. Qed.
  Lemma plain_app l r T : (T <= length l)%nat -> plain (l ++ r) T = plain l T.
  Proof. intros H. unfold plain. rewrite firstn_app_le by exact H. reflexivity. Qed.
  Lemma reply_app l f T : (1 <= T <= length l)%nat -> reply (l ++ [f]) T = reply l T.
  Proof. intros H. unfold reply. rewrite msg_app by lia. rewrite plain_app by lia. reflexivity. Qed.
  Lemma accepted_app l f answer : accepted (l ++ [f]) answer -> accepted l answer /\ snd (process (fb_losses f) (fb_counts f) (fb_mixture f) (run process l (ado0 P initial))) = inl (answer (S (length l))).
  Proof.
    intros H. split.
    - intros T HT. rewrite <- (reply_app l f) by exact HT. apply H. rewrite app_length. cbn. lia.
    - specialize (H (S (length l))). rewrite app_length in H. specialize (H ltac:(cbn; lia)). unfold reply in H. replace (S (length l) - 1)%nat with (length l) in H by lia.
      rewrite msg_last, plain_app, plain_all in H by lia. exact H.
  Qed.

  Lemma finish_answer d w m (s : lstate P) : snd (finish P d w m s) = inl m \/ (w <> Written /\ d = true /\ snd (finish P d w m s) = inr OSError).
  Proof. unfold finish. destruct d; [|left; reflexivity]. destruct w; cbn; [left; reflexivity|right..]; repeat split; discriminate. Qed.

  (** For every history, whatever becomes of the writes: the algorithm is in the state it would be in without a log, and its
      answer to a message is the one it would give without a log, unless a write fails. *)
  Theorem C91_unaffected_partial es :
    l_ado P (state es) = run process (messages es) (ado0 P initial)
    /\ forall f w, let plain_answer := snd (process (fb_losses f) (fb_counts f) (fb_mixture f) (run process (messages es) (ado0 P initial))) in
       let logged_answer := snd (step (Reports f w) (state es)) in
       match plain_answer with
       | inr x => logged_answer = inr (Raised x)
       | inl m => logged_answer = inl m \/ (w <> Written /\ logged_answer = inr OSError)
       end.
  Proof.
    assert (H1 : l_ado P (state es) = run process (messages es) (ado0 P initial)).
    { induction es as [|e es IH] using rev_ind; [reflexivity|]. rewrite state_snoc, messages_app, run_app, <- IH. set (s := state es). clearbody s. clear IH. destruct e as [f w|w].
      - change (messages [Reports f w]) with [f]. cbn [run log_step]. pose proof (log_process_ok fl nsum cfg P p_zero fit1 deriv pow_s f w s) as H.
        destruct (process _ _ _ (l_ado P s)) as [o' [m|e]]; cbn [fst].
        + destruct H as [(dl & ->) _]. apply finish_ado.
        + destruct H as (s' & -> & <- & _). reflexivity.
      - cbn. destruct w; reflexivity. }
    split; [exact H1|]. intros f w. cbv zeta. rewrite <- H1. cbn [log_step]. pose proof (log_process_ok fl nsum cfg P p_zero fit1 deriv pow_s f w (state es)) as H.
    destruct (process _ _ _ (l_ado P (state es))) as [o' [m|e]]; cbn [snd].
    - destruct H as [(dl & ->) _]. destruct (finish_answer (wants cfg P (l_ado P (state es)) o' m) w m (mkL P o' (log_of cfg P (with_counts P (fb_counts f) (l_log P (state es))) o' m dl) (l_file P (state es)))) as [->|(A & _ & ->)]; auto.
    - destruct H as (s' & -> & _). reflexivity.
  Qed.

  (** ** What the log holds *)
  Lemma tells_app l f answer T e : (T <= length l)%nat -> tells fl cfg P l answer (plain l) T e -> tells fl cfg P (l ++ [f]) answer (plain (l ++ [f])) T e.
  Proof. intros H. unfold tells. rewrite firstn_app_le, plain_app by exact H. exact (fun x => x). Qed.
  Lemma lines_app l f T : (T <= length l)%nat -> fit_lines P (l ++ [f]) (plain (l ++ [f])) T = fit_lines P l (plain l) T.
  Proof. intros H. unfold fit_lines. rewrite firstn_app_le, plain_app by exact H. reflexivity. Qed.

  Definition Good (es : list levent) (answer : nat -> option (list Q)) : Prop :=
    let l := messages es in let o := l_ado P (state es) in
    accumulated fl l (o_acc P o) /\ o_steps P o = Z.of_nat (length l) /\ o_handed P o = existsb (mixes answer) (seq 1 (length l))
    /\ complete fl cfg P l answer (plain l) (l_log P (state es)).
  Lemma saves_log w s : l_log P (fst (step (Saves w) s)) = l_log P s /\ l_ado P (fst (step (Saves w) s)) = l_ado P s.
  Proof. destruct w; split; reflexivity. Qed.

  Lemma good_run es answer : Forall well_formed (messages es) -> accepted (messages es) answer -> Good es answer.
  Proof.
    induction es as [|e es IH] using rev_ind; intros Hw Ha.
    - split; [apply accumulated_nil|]. split; [reflexivity|]. split; [reflexivity|]. split; [constructor|]. split; reflexivity.
    - rewrite messages_app in Hw, Ha. destruct e as [f w|w].
      2:{ change (messages [Saves w]) with (@nil fb) in *. rewrite app_nil_r in Hw, Ha. specialize (IH Hw Ha). unfold Good in *. rewrite messages_app, app_nil_r, state_snoc.
          destruct (saves_log w (state es)) as [-> ->]. exact IH. }
      change (messages [Reports f w]) with [f] in *. pose proof Hw as Hw'. apply Forall_app in Hw' as [Hwl Hwf]. inversion Hwf as [|? ? W _]; subst. destruct (accepted_app _ _ _ Ha) as [Hal Hans].
      destruct (IH Hwl Hal) as (A & S & H & (C1 & C2 & C3)). clear IH. unfold Good. rewrite messages_app. change (messages [Reports f w]) with [f]. rewrite state_snoc. cbn [log_step].
      set (l := messages es) in *. destruct (C91_unaffected_partial es) as [Est _]. fold l in Est. set (s := state es) in *.
      pose proof (log_process_ok fl nsum cfg P p_zero fit1 deriv pow_s f w s) as X.
      assert (Eo' : fst (process (fb_losses f) (fb_counts f) (fb_mixture f) (l_ado P s)) = plain (l ++ [f]) (length (l ++ [f]))) by (rewrite plain_all, run_app, <- Est; reflexivity).
      rewrite <- Est in Hans. assert (Aacc : accumulated fl (l ++ [f]) (o_acc P (plain (l ++ [f]) (length (l ++ [f]))))).
      { rewrite plain_all. apply ado_acc_run. exact Hw. }
      destruct (process (fb_losses f) (fb_counts f) (fb_mixture f) (l_ado P s)) as [o' r]. cbn [fst snd] in *. subst r.
      destruct X as ((dl & ->) & X1 & X2 & X3 & X4 & X5 & X6). destruct (finish_ado P (wants cfg P (l_ado P s) o' (answer (Datatypes.S (length l)))) w (answer (Datatypes.S (length l))) (mkL P o' (log_of cfg P (with_counts P (fb_counts f) (l_log P s)) o' (answer (Datatypes.S (length l))) dl) (l_file P s))) as [-> ->]. cbn [l_ado l_log].
      assert (Elen : length (l ++ [f]) = Datatypes.S (length l)) by (rewrite app_length; cbn; lia). rewrite Elen in *. set (T := Datatypes.S (length l)) in *.
      rewrite S in X1. assert (ET : o_steps P o' = Z.of_nat T) by (unfold T; lia).
      assert (Eseq : seq 1 T = seq 1 (length l) ++ [T]) by (unfold T; rewrite seq_S; reflexivity).
      assert (EfT : firstn T (l ++ [f]) = l ++ [f]) by (rewrite <- Elen; apply firstn_all).
      rewrite <- Eo' in Aacc. split; [exact Aacc|]. split; [exact ET|]. split.
      { rewrite X6, H, Eseq, existsb_app. cbn. unfold mixes at 3. rewrite orb_false_r. reflexivity. }
      split; [|split].
      + rewrite Elen, Eseq, filter_snoc. cbn [g_entries log_of with_counts]. apply Forall2_app.
        * eapply Forall2_weaken; [exact C1|]. intros t e Ht. apply filter_In in Ht as [Ht _]. apply in_seq in Ht. apply tells_app. lia.
        * unfold has_entry, entry_of. rewrite ET. destruct Aacc as (L1 & L2 & L3 & L4).
          assert (Hb : forall x, (if Z.of_nat T <? c_start cfg then x = None else exists m, x = Some m /\ x_pi P m = answer T /\ x_h P m = o_h P o' /\ x_pibar P m = o_pibar P o' /\ x_laws P m = o_params P o') ->
                      tells fl cfg P (l ++ [f]) answer (plain (l ++ [f])) T (mkEntry P (Z.of_nat T) (a_counts (o_acc P o')) (a_losses (o_acc P o')) x)).
          { intros x Hx. unfold tells. cbn [e_step e_counts e_losses e_mixed]. rewrite EfT, <- Eo'. split; [reflexivity|]. split.
            - rewrite <- (map_nth_seq 0 (a_counts (o_acc P o'))), L2. apply map_ext. exact L4.
            - split; [exact L1|]. split; [intros k; rewrite L3; apply fsum_depth|exact Hx]. }
          unfold mixes. destruct (Z.of_nat T <? c_start cfg) eqn:Elt; cbn [orb].
          -- constructor; [|constructor]. apply Hb. reflexivity.
          -- destruct (answer T) as [pi|] eqn:Eans; [|constructor]. constructor; [|constructor]. apply Hb. eexists. split; [reflexivity|]. cbn. split; [apply X3; discriminate|auto].
      + rewrite Elen, Eseq, filter_snoc, flat_map_app. cbn [g_laws log_of with_counts]. rewrite map_app. f_equal.
        * rewrite C2. rewrite !flat_map_concat_map. f_equal. apply map_ext_in. intros t Ht. apply filter_In in Ht as [Ht _]. apply in_seq in Ht. symmetry. apply lines_app. lia.
        * unfold lines_of. rewrite ET. change (fits_at cfg T) with (fit_due cfg (Z.of_nat T)). destruct (fit_due cfg (Z.of_nat T)) eqn:Ef; [|reflexivity].
          rewrite ET, Ef in X5. destruct (X5 eq_refl) as (ps & Eps & Lp). cbn [flat_map]. rewrite app_nil_r. unfold fit_lines. rewrite EfT, <- Eo', Eps.
          destruct Aacc as (_ & L2 & _). rewrite L2 in Lp. rewrite <- Lp.
          rewrite map_map. cbn [w_step w_domain w_law]. clear.
          enough (G : forall a, map (fun x => (Z.of_nat T, fst x, Some (snd x))) (combine (seq a (length ps)) ps) = map (fun k => (Z.of_nat T, k, nth_error ps (k - a))) (seq a (length ps))).
          { rewrite G. apply map_ext. intros k. rewrite Nat.sub_0_r. reflexivity. }
          induction ps as [|p ps IH]; intros a; [reflexivity|]. cbn [length seq combine map fst snd]. rewrite Nat.sub_diag. cbn [nth_error]. f_equal. rewrite IH. apply map_ext_in. intros k Hk. apply in_seq in Hk.
          replace (k - a)%nat with (Datatypes.S (k - Datatypes.S a)) by lia. reflexivity.
      + cbn [g_counts log_of with_counts]. rewrite map_app, C3. reflexivity.
  Qed.

  (** For every history of accepted messages, whatever becomes of the writes: every step before the first mixture and every step that
      computes a mixture has exactly one entry, in order, with the totals of all messages so far and, for the latter, the mixture handed
      out and the credits, averages and laws after the step; every fit has one line per domain; all counts are there. *)
  Theorem C91_complete_partial es answer : Forall well_formed (messages es) -> accepted (messages es) answer ->
    complete fl cfg P (messages es) answer (plain (messages es)) (l_log P (state es)).
  Proof. intros Hw Ha. apply (good_run es answer Hw Ha). Qed.

  Lemma ado_steps l answer : accepted l answer -> forall n, (n <= length l)%nat -> o_steps P (plain l n) = Z.of_nat n.
  Proof.
    intros Ha. induction n as [|n IH]; intros Hn; [reflexivity|]. specialize (IH ltac:(lia)). specialize (Ha (S n) ltac:(lia)). unfold reply in Ha. replace (S n - 1)%nat with n in Ha by lia.
    assert (En : plain l (S n) = fst (process (fb_losses (msg l n)) (fb_counts (msg l n)) (fb_mixture (msg l n)) (plain l n))).
    { unfold plain. assert (Ef : firstn (S n) l = firstn n l ++ [msg l n]). { clear - Hn. unfold msg. revert l Hn. induction n as [|n IH]; intros [|f l] Hn; cbn in Hn; try lia; [reflexivity|]. cbn [firstn nth app]. rewrite <- IH by lia. reflexivity. }
      rewrite Ef, run_app. reflexivity. }
    rewrite En. pose proof (log_process_ok fl nsum cfg P p_zero fit1 deriv pow_s (msg l n) Written (mkL P (plain l n) (alog0 P) (Absent P))) as X. cbn [l_ado] in X.
    destruct (process _ _ _ (plain l n)) as [o' r]. cbn [snd fst] in *. subst r. destruct X as (_ & -> & _). rewrite IH. lia.
  Qed.

  (** Every step has an entry, unless the third adjusted variant is used. *)
  Theorem C91_every_step_partial l answer : c_variant cfg <> AdjustedV3 -> accepted l answer -> filter (has_entry cfg answer) (seq 1 (length l)) = seq 1 (length l).
  Proof.
    intros Hv Ha. assert (H : forall T, In T (seq 1 (length l)) -> has_entry cfg answer T = true).
    { intros T HT. apply in_seq in HT. pose proof (ado_steps l answer Ha (T - 1)%nat ltac:(lia)) as Hsteps. specialize (Ha T ltac:(lia)). unfold reply in Ha. set (f := msg l (T - 1)) in Ha. set (o := plain l (T - 1)) in Ha.
      unfold has_entry. destruct (Z.of_nat T <? c_start cfg) eqn:Elt; [reflexivity|]. cbn [orb]. apply Z.ltb_ge in Elt.
      pose proof (log_process_ok fl nsum cfg P p_zero fit1 deriv pow_s f Written (mkL P o (alog0 P) (Absent P))) as X. cbn [l_ado] in X.
      destruct (process _ _ _ o) as [o' r]. cbn [snd] in Ha. subst r. destruct X as (_ & X1 & _ & _ & X4 & _). unfold mixes.
      destruct (answer T) as [pi|] eqn:E; [reflexivity|]. exfalso. apply X4; [|exact Hv|reflexivity]. rewrite X1. unfold o. rewrite Hsteps. lia. }
    revert H. generalize (seq 1 (length l)). intros s. induction s as [|T s IH]; intros H; [reflexivity|]. cbn [filter]. rewrite (H T (or_introl eq_refl)). f_equal. apply IH. intros t Ht. apply H. right. exact Ht.
  Qed.

  (** ** What the file holds *)
  Lemma handed_iff answer n : existsb (mixes answer) (seq 1 n) = true <-> exists T', (1 <= T' < S n)%nat /\ mixes answer T' = true.
  Proof. rewrite existsb_exists. split; intros (T' & H1 & H2); exists T'; rewrite ?in_seq in *; (split; [lia|exact H2]). Qed.
  Lemma file_step es x answer : Forall well_formed (messages (es ++ [x])) -> accepted (messages (es ++ [x])) answer ->
    (asks cfg answer es x /\ snd (step x (state es)) = match outcome_of x with Written => inl (match x with Reports _ _ => answer (S (length (messages es))) | Saves _ => None end) | _ => inr OSError end
       /\ match outcome_of x with Written => holds state (es ++ [x]) (l_file P (state (es ++ [x]))) | Refused => l_file P (state (es ++ [x])) = l_file P (state es) | Cut => l_file P (state (es ++ [x])) = Torn P end)
    \/ (~ asks cfg answer es x /\ l_file P (state (es ++ [x])) = l_file P (state es)).
  Proof.
    intros Hw Ha. unfold holds. rewrite state_snoc. destruct x as [f w|w].
    2:{ left. split; [exact I|]. split; destruct w; reflexivity. }
    rewrite messages_app in Hw, Ha. change (messages [Reports f w]) with [f] in *. apply Forall_app in Hw as [Hwl Hwf]. destruct (accepted_app _ _ _ Ha) as [Hal Hans].
    destruct (good_run es answer Hwl Hal) as (_ & S & H & _). destruct (C91_unaffected_partial es) as [Est _]. rewrite <- Est in Hans. cbn [log_step].
    pose proof (log_process_ok fl nsum cfg P p_zero fit1 deriv pow_s f w (state es)) as X. destruct (process _ _ _ (l_ado P (state es))) as [o' r]. cbn [snd] in Hans. subst r.
    destruct X as ((dl & ->) & X1 & X2 & _). set (T := Datatypes.S (length (messages es))) in *. rewrite S in X1. assert (ET : o_steps P o' = Z.of_nat T) by (unfold T; lia).
    assert (Hiff : wants cfg P (l_ado P (state es)) o' (answer T) = true <-> asks cfg answer es (Reports f w)).
    { unfold wants, asks. fold T. rewrite ET, H. change (match answer T with Some _ => true | None => false end) with (mixes answer T). rewrite orb_true_iff, andb_true_iff, Z.eqb_eq. fold (has_entry cfg answer T).
      split; (intros [Hl|Hr]; [left; exact Hl|right]).
      - destruct (c_variant cfg); try discriminate. split; [reflexivity|]. apply andb_prop in Hr as [Hr _]. apply andb_prop in Hr as [H1 H2]. split; [exact H2|]. apply handed_iff. exact H1.
      - destruct Hr as (-> & H1 & H2). apply handed_iff in H2. rewrite H1, H2. cbn [andb]. destruct (Z.of_nat T <? c_start cfg) eqn:E; [|reflexivity]. exfalso. apply Z.ltb_lt in E. rewrite ET in X2. specialize (X2 E). unfold mixes in H1. rewrite X2 in H1. discriminate. }
    destruct (wants cfg P (l_ado P (state es)) o' (answer T)) eqn:Ew.
    - left. split; [apply Hiff; reflexivity|]. cbn [outcome_of]. unfold finish. split; destruct w; reflexivity.
    - right. split; [intros A; apply Hiff in A; congruence|reflexivity].
  Qed.

  (** For every history of accepted messages in which no write is cut: the file holds the log as it was after the last write that was
      asked for and done; there is no file if there was none. *)
  Theorem C91_file_partial es answer : Forall well_formed (messages es) -> accepted (messages es) answer -> Forall (fun e => outcome_of e <> Cut) es ->
    (exists es1 e, last_write cfg answer es es1 e /\ holds state (es1 ++ [e]) (l_file P (state es))) \/ (no_write cfg answer es /\ l_file P (state es) = Absent P).
  Proof.
    induction es as [|x es IH] using rev_ind; intros Hw Ha Hc.
    - right. split; [|reflexivity]. intros [|? ?] e' es4 E; discriminate.
    - assert (Hl : Forall well_formed (messages es) /\ accepted (messages es) answer).
      { rewrite messages_app in Hw, Ha. split; [apply Forall_app in Hw; tauto|]. destruct x as [f w|w]; cbn [messages flat_map app] in Ha; [apply accepted_app in Ha; tauto|rewrite app_nil_r in Ha; exact Ha]. }
      pose proof Hc as Hc'. apply Forall_app in Hc' as [Hcl Hcx]. apply Forall_inv in Hcx. specialize (IH (proj1 Hl) (proj2 Hl) Hcl). pose proof (file_step es x answer Hw Ha) as Hx.
      assert (Hkeep : (asks cfg answer es x -> outcome_of x <> Written) -> l_file P (state (es ++ [x])) = l_file P (state es) ->
        (exists es1 e, last_write cfg answer (es ++ [x]) es1 e /\ holds state (es1 ++ [e]) (l_file P (state (es ++ [x])))) \/ (no_write cfg answer (es ++ [x]) /\ l_file P (state (es ++ [x])) = Absent P)).
      { intros Hn ->. destruct IH as [(es1 & e & (es2 & -> & L2 & L3 & L4) & Hh)|[Hno Hf]].
        - left. exists es1, e. split; [|exact Hh]. exists (es2 ++ [x]). split; [rewrite <- app_assoc; reflexivity|]. split; [exact L2|]. split; [exact L3|].
          intros es3 e' es4 E A. destruct es4 as [|y es4] using rev_ind.
          + apply app_inj_tail in E as [<- <-]. apply Hn. exact A.
          + clear IHes4. rewrite app_comm_cons, app_assoc in E. apply app_inj_tail in E as [-> _]. eapply L4; [reflexivity|exact A].
        - right. split; [|exact Hf]. intros es3 e' es4 E A. destruct es4 as [|y es4] using rev_ind.
          + apply app_inj_tail in E as [<- <-]. apply Hn. exact A.
          + clear IHes4. rewrite app_comm_cons, app_assoc in E. apply app_inj_tail in E as [-> _]. eapply Hno; [reflexivity|exact A]. }
      destruct Hx as [(A & _ & Hf)|[A Hf]]; [|apply Hkeep; [intros A'; contradiction|exact Hf]].
      destruct (outcome_of x) eqn:Eo; [|apply Hkeep; [discriminate|exact Hf]|congruence].
      left. exists es, x. split; [|exact Hf]. exists []. split; [reflexivity|]. split; [exact A|]. split; [exact Eo|]. intros [|? ?] e' es4 E; discriminate.
  Qed.

  (** If all writes are done: the file holds a log at least as new as the last save and, unless the third adjusted variant is used, as
      the last step whose number is a multiple of 5000. *)
  Theorem C91_recent_partial es answer : Forall well_formed (messages es) -> accepted (messages es) answer -> Forall (fun e => outcome_of e = Written) es ->
    forall es1 e es2, es = es1 ++ e :: es2 ->
      (match e with Saves _ => True | Reports _ _ => c_variant cfg <> AdjustedV3 /\ Z.of_nat (S (length (messages es1))) mod 5000 = 0 end) ->
      exists es3 es4, es = es1 ++ e :: es3 ++ es4 /\ holds state (es1 ++ e :: es3) (l_file P (state es)).
  Proof.
    intros Hw Ha Ho es1 e es2 E He. assert (A : asks cfg answer es1 e).
    { destruct e as [f w|w]; [|exact I]. destruct He as [Hv Hm]. cbn [asks]. left. split; [exact Hm|].
      pose proof (C91_every_step_partial (messages es) answer Hv Ha) as Hall.
      assert (Hin : In (S (length (messages es1))) (seq 1 (length (messages es)))). { apply in_seq. rewrite E, messages_app. cbn [messages flat_map app]. rewrite app_length. cbn. lia. }
      rewrite <- Hall in Hin. apply filter_In in Hin. tauto. }
    destruct (C91_file_partial es answer Hw Ha) as [(f1 & x & (f2 & E' & _ & _ & L4) & Hh)|[Hno _]].
    - eapply Forall_impl; [|exact Ho]. intros y Hy. rewrite Hy. discriminate.
    - rewrite E in E'. (* which of the two is later *)
      assert (Hcmp : (exists g, f1 ++ [x] = es1 ++ e :: g) \/ exists g, es1 = f1 ++ x :: g /\ f2 = g ++ e :: es2).
      { clear - E'. revert f1 E'. induction es1 as [|y es1 IH]; intros f1 E'.
        - destruct f1 as [|z f1]; cbn in E'; injection E' as -> E'; left; [exists []; reflexivity|exists (f1 ++ [x]); reflexivity].
        - destruct f1 as [|z f1]; cbn in E'; injection E' as -> E'.
          + right. exists es1. split; [reflexivity|auto].
          + destruct (IH _ E') as [[g Eg]|(g & -> & ->)]; [left; exists g; cbn; rewrite Eg; reflexivity|right; exists g; split; reflexivity]. }
      destruct Hcmp as [[g Eg]|(g & -> & ->)].
      + exists g, f2. split; [|rewrite <- Eg; exact Hh]. rewrite E, E'. change (f1 ++ x :: f2) with (f1 ++ [x] ++ f2). rewrite app_assoc, Eg, <- app_assoc. reflexivity.
      + exfalso. apply (L4 g e es2 eq_refl); [exact A|]. rewrite Forall_forall in Ho. apply Ho. rewrite E. apply in_or_app. right. left. reflexivity.
    - exfalso. apply (Hno es1 e es2 E A). rewrite Forall_forall in Ho. apply Ho. rewrite E. apply in_or_app. right. left. reflexivity.
  Qed.

  (** A write that is asked for and fails swallows the answer: the mixture has been computed, and the algorithm has moved on to the
      next step, but the caller gets an OSError. *)
  Theorem C91_unwritable_refuted es f w answer : Forall well_formed (messages es ++ [f]) -> accepted (messages es ++ [f]) answer ->
    asks cfg answer es (Reports f w) -> w <> Written ->
    snd (step (Reports f w) (state es)) = inr OSError
    /\ reply (messages es ++ [f]) (S (length (messages es))) = inl (answer (S (length (messages es))))
    /\ l_ado P (fst (step (Reports f w) (state es))) = run process (messages es ++ [f]) (ado0 P initial).
  Proof.
    intros Hw Ha A Hn. assert (Em : messages (es ++ [Reports f w]) = messages es ++ [f]) by (rewrite messages_app; reflexivity).
    split; [|split].
    - rewrite <- Em in Hw, Ha. destruct (file_step es (Reports f w) answer Hw Ha) as [(_ & -> & _)|[N _]]; [|contradiction]. cbn [outcome_of]. destruct w; [congruence|reflexivity..].
    - apply Ha. rewrite app_length. cbn. lia.
    - rewrite <- state_snoc. rewrite (proj1 (C91_unaffected_partial _)), Em. reflexivity.
  Qed.
End C91.

(** ** Where the code falls short, and instances *)
Notation log91 cfg es := (state exactly qsum cfg Q 0%Q fit90 (law90 100) (fun x => x) half es).
Notation accepted91 cfg l answer := (accepted exactly qsum cfg Q 0%Q fit90 (law90 100) (fun x => x) half l answer).
Definition report (i : Z) : levent := Reports (one90 i) Written.
Definition reports (ids : list Z) : list levent := map report ids.

(** A history of two steps with progress and a save: the hypotheses of the theorems hold. *)
Lemma two_steps v : (v = Vanilla \/ v = AdjustedV3) -> exists answer, accepted91 (cfg90 v) (messages (reports [0; 1])) answer.
Proof.
  intros Hv. assert (H : forall T, T = 1%nat \/ T = 2%nat -> exists m, reply exactly qsum (cfg90 v) Q 0%Q fit90 (law90 100) (fun x => x) half (messages (reports [0; 1])) T = inl m).
  { intros T HT. destruct Hv as [-> | ->]; destruct HT as [->| ->]; eexists; vm_compute; reflexivity. }
  destruct (H 1%nat (or_introl eq_refl)) as [m1 E1]. destruct (H 2%nat (or_intror eq_refl)) as [m2 E2]. exists (fun T => if Nat.eqb T 1 then m1 else m2).
  intros T HT. change (length (messages (reports [0; 1]))) with 2%nat in HT. assert (HT' : T = 1%nat \/ T = 2%nat) by (clear -HT; lia). destruct HT' as [->| ->]; [exact E1|exact E2].
Qed.
Example C91_complete_example :
  let s := log91 (cfg90 Vanilla) (reports [0; 1] ++ [Saves Written]) in
  map (fun e => (e_step Q e, e_counts Q e)) (g_entries Q (l_log Q s)) = [(1, [1; 1]); (2, [2; 2])]
  /\ map (fun w => (w_step Q w, w_domain Q w, w_law Q w)) (g_laws Q (l_log Q s)) = [(1, 0%nat, 1%Q); (1, 1%nat, 0%Q)]
  /\ g_counts Q (l_log Q s) = [[1; 1]; [1; 1]]
  /\ exists c, l_file Q s = Whole Q c /\ map (e_step Q) (g_entries Q (c_log Q c)) = [1; 2].
Proof. cbv zeta. split; [vm_compute; reflexivity|]. split; [vm_compute; reflexivity|]. split; [vm_compute; reflexivity|]. eexists. split; [vm_compute; reflexivity|reflexivity]. Qed.

(** The third adjusted variant: the second step computes no mixture and leaves no entry; its losses are in no entry of their own. *)
Theorem C91_every_step_refuted : exists answer, accepted91 (cfg90 AdjustedV3) (messages (reports [0; 1])) answer
  /\ map (e_step Q) (g_entries Q (l_log Q (log91 (cfg90 AdjustedV3) (reports [0; 1])))) = [1].
Proof. destruct (two_steps AdjustedV3 (or_intror eq_refl)) as [answer Ha]. exists answer. split; [exact Ha|]. vm_compute. reflexivity. Qed.

(** A file that was whole is torn by a write that does not finish: what was in it is lost. *)
Theorem C91_torn_refuted : exists c, l_file Q (log91 (cfg90 Vanilla) [report 0; Saves Written]) = Whole Q c /\ map (e_step Q) (g_entries Q (c_log Q c)) = [1]
  /\ l_file Q (log91 (cfg90 Vanilla) [report 0; Saves Written; Saves Cut]) = Torn Q.
Proof. eexists. split; [vm_compute; reflexivity|]. split; reflexivity. Qed.

(** The third adjusted variant with a fit at every step: the second mixture is lost to a path that cannot be written. *)
Definition cfg91 : config := mkConfig AdjustedV3 (1 # 2) (1 # 2) 0 1 1 false None.
Example C91_unwritable_example : exists m, snd (log_step exactly qsum cfg91 Q 0%Q fit90 (law90 100) (fun x => x) (report 0) (log91 cfg91 [report 0])) = inl (Some m)
  /\ snd (log_step exactly qsum cfg91 Q 0%Q fit90 (law90 100) (fun x => x) (Reports (one90 0) Refused) (log91 cfg91 [report 0])) = inr OSError.
Proof. eexists. split; vm_compute; reflexivity. Qed.

Print Assumptions C91_unaffected_partial.
Print Assumptions C91_complete_partial.
Print Assumptions C91_every_step_partial.
Print Assumptions C91_file_partial.
Print Assumptions C91_recent_partial.
Print Assumptions C91_unwritable_refuted.
Print Assumptions C91_every_step_refuted.
Print Assumptions C91_torn_refuted.
