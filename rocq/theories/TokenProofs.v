(** Proofs about the tokenizing iterators and the prefetching iterator. *)
From Verif Require Import Base ChunkGenModel TokenModel SpecToken.
From Coq Require Import ZifyBool ZifyNat.
Local Open Scope nat_scope.

Lemma window_count_ge n step T y :
  1 <= step -> (y = 0 \/ (y - 1) * step + n <= length T) -> y <= window_count n step T.
Proof.
  intros Hs Hy. unfold window_count. destruct (Nat.ltb_spec (length T) n) as [H|H]; cbv iota.
  { destruct Hy as [->|Hy]; [lia|]. pose proof (Nat.le_0_l ((y - 1) * step)). lia. }
  assert ((y - 1) <= (length T - n) / step); [|lia].
  destruct Hy as [->|Hy]; [cbn; apply Nat.le_0_l|]. apply Nat.div_le_lower_bound; lia.
Qed.

Lemma window_count_eq n step T y :
  1 <= step -> (y = 0 \/ (y - 1) * step + n <= length T) -> length T < y * step + n -> window_count n step T = y.
Proof.
  intros Hs Hy Hlt. unfold window_count. destruct (Nat.ltb_spec (length T) n) as [H|H]; cbv iota.
  { destruct Hy as [->|Hy]; [reflexivity|]. pose proof (Nat.le_0_l ((y - 1) * step)). lia. }
  assert (y <> 0) by nia. destruct Hy as [Hy|Hy]; [lia|].
  assert ((length T - n) / step = y - 1); [|lia].
  assert (E : length T - n = step * (y - 1) + (length T - n - step * (y - 1))) by nia.
  rewrite E. symmetry. eapply Nat.div_unique with (r := length T - n - step * (y - 1)); nia.
Qed.

Lemma window_at_app n step i T T' :
  i * step + n <= length T -> window_at n step i (T ++ T') = window_at n step i T.
Proof.
  intros H. unfold window_at. rewrite skipn_app, firstn_app, skipn_length.
  replace (n - (length T - i * step)) with 0 by lia. cbn [firstn]. apply app_nil_r.
Qed.

Lemma seq_snoc s n : seq s (n + 1) = seq s n ++ [s + n].
Proof. replace (n + 1) with (S n) by lia. apply seq_S. Qed.

(** Python's [(l * k)[:n]] repeats [l] cyclically. *)
Lemma list_mul_length (l : list Z) k : length (list_mul l k) = k * length l.
Proof. induction k as [|k IH]; cbn; [reflexivity|]. rewrite app_length, IH. lia. Qed.
Lemma list_mul_nth (l : list Z) k i : l <> [] -> i < k * length l -> nth i (list_mul l k) 0%Z = nth (i mod length l) l 0%Z.
Proof.
  intros Hl. revert i. induction k as [|k IH]; intros i Hi; [lia|]. cbn [list_mul].
  assert (length l <> 0) by (destruct l; [congruence|discriminate]).
  destruct (Nat.ltb_spec i (length l)) as [H1|H1].
  - rewrite app_nth1 by exact H1. rewrite Nat.mod_small by exact H1. reflexivity.
  - rewrite app_nth2 by exact H1. rewrite IH by (cbn in Hi; lia).
    f_equal. replace i with ((i - length l) + 1 * length l) at 2 by lia. rewrite Nat.mod_add by lia. reflexivity.
Qed.
Lemma list_mul_cyclic (l : list Z) k n : l <> [] -> n <= k * length l -> firstn n (list_mul l k) = cyclic n l.
Proof.
  intros Hl Hn. unfold cyclic. apply (nth_ext _ _ 0%Z 0%Z).
  - rewrite firstn_length, list_mul_length, map_length, seq_length. lia.
  - rewrite firstn_length, list_mul_length. intros i Hi.
    assert (Hin : i < n) by lia.
    transitivity (nth i (list_mul l k) 0%Z).
    + rewrite <- (firstn_skipn n (list_mul l k)) at 2. rewrite app_nth1; [reflexivity|].
      rewrite firstn_length, list_mul_length. lia.
    + rewrite list_mul_nth by (auto; lia).
      set (g := fun i => nth (i mod length l) l 0%Z).
      transitivity (nth i (map g (seq 0 n)) (g 0)); [|apply nth_indep; rewrite map_length, seq_length; lia].
      rewrite (map_nth g), seq_nth by lia. reflexivity.
Qed.

Section TokProofs.
  Context {A : Type}.
  Variable c : tkcfg A.
  Hypothesis Hlen : 1 <= tk_len c.
  Hypothesis Hbatch : 1 <= tk_batch c.
  Notation step := (tk_step c).
  Notation n1 := (tk_len c + 1).

  Lemma step_pos : 1 <= step.
  Proof. unfold tk_step. destruct (tk_overlap c); lia. Qed.
  Lemma step_le : step <= n1.
  Proof. unfold tk_step. destruct (tk_overlap c); lia. Qed.

  Lemma tk_collect_spec n (rest : list A) (f : option exn) (texts : list A) :
    tk_collect n (rest, f) texts =
    if n <=? length rest then ((skipn n rest, f), texts ++ firstn n rest, false, @None exn)
    else match f with
         | None => (([], None), texts ++ rest, true, None)
         | Some e => (([], None), texts ++ rest, false, Some e)
         end.
  Proof.
    revert rest texts. induction n as [|n IH]; intros rest texts.
    - cbn. rewrite app_nil_r. reflexivity.
    - destruct rest as [|a rest]; cbn [tk_collect snext length].
      + destruct f; cbn; rewrite app_nil_r; reflexivity.
      + rewrite IH. cbn [firstn skipn]. change (S n <=? S (length rest)) with (n <=? length rest).
        destruct (n <=? length rest); [rewrite <- app_assoc; reflexivity|].
        destruct f; rewrite <- app_assoc; reflexivity.
  Qed.

  Lemma th_collect_stopped n (texts : list A) b : th_collect n (@nil A, None) texts b = (([], None), texts, b || (0 <? n), @None exn).
  Proof.
    revert b. induction n as [|n IH]; intros b; cbn [th_collect snext].
    - cbn. rewrite orb_false_r. reflexivity.
    - rewrite IH. cbn. rewrite orb_true_r. reflexivity.
  Qed.

  Lemma th_collect_spec n (rest : list A) (f : option exn) (texts : list A) :
    th_collect n (rest, f) texts false =
    if n <=? length rest then ((skipn n rest, f), texts ++ firstn n rest, false, @None exn)
    else match f with
         | None => (([], None), texts ++ rest, true, None)
         | Some e => (([], None), texts ++ rest, false, Some e)
         end.
  Proof.
    revert rest texts. induction n as [|n IH]; intros rest texts.
    - cbn. rewrite app_nil_r. reflexivity.
    - destruct rest as [|a rest]; cbn [th_collect snext length].
      + destruct f; cbn; [rewrite app_nil_r; reflexivity|]. rewrite th_collect_stopped, app_nil_r. reflexivity.
      + rewrite IH. cbn [firstn skipn]. change (S n <=? S (length rest)) with (n <=? length rest).
        destruct (n <=? length rest); [rewrite <- app_assoc; reflexivity|].
        destruct f; rewrite <- app_assoc; reflexivity.
  Qed.

  Variable X : list A.
  Variable f : option exn.
  Notation T := (token_stream (tk_ids c) X).

  (** Relation between an iterator's state, the windows handed out so far, and the texts not read yet. *)
  Record Inv (out : list (list Z)) (st : tkst A) (rest : list A) : Prop := {
    inv_src : ts_src st = (rest, f);
    inv_pre : exists pre, X = pre ++ rest /\ ts_buf st = token_stream (tk_ids c) pre;
    inv_eos : ts_eos st = true -> rest = [] /\ f = None;
    inv_out :
      (out = map (fun i => window_at n1 step i T) (seq 0 (ts_yielded st)) /\ ts_idx st = ts_yielded st * step
       /\ (ts_yielded st = 0 \/ (ts_yielded st - 1) * step + n1 <= length (ts_buf st)))
      \/ (out = [cyclic n1 T] /\ tk_one c = true /\ ts_eos st = true /\ 0 < length T < n1
          /\ ts_yielded st = 1 /\ ts_idx st = 0) }.

  Lemma Inv_init : Inv [] (tk_init (X, f)) X.
  Proof. split; cbn; try reflexivity; try discriminate; [exists []; auto|]. left. auto. Qed.

  Lemma inv_buf out st rest : Inv out st rest -> T = ts_buf st ++ token_stream (tk_ids c) rest.
  Proof.
    intros [_ (pre & HX & Hb) _ _]. rewrite Hb. unfold token_stream. rewrite <- flat_map_app, <- HX. reflexivity.
  Qed.

  Lemma inv_len out st rest : Inv out st rest -> length out <= window_count n1 step T + 1.
  Proof.
    intros H. pose proof (inv_buf _ _ _ H) as HT. pose proof (f_equal (@length Z) HT) as HL. rewrite app_length in HL.
    destruct (inv_out _ _ _ H) as [(-> & _ & Hy)|(-> & _)]; [|cbn; lia].
    rewrite map_length, seq_length. pose proof (window_count_ge n1 step T (ts_yielded st) step_pos). lia.
  Qed.

  Lemma inv_window out st rest st' w :
    Inv out st rest -> tk_window c st = Some (st', w) -> Inv (out ++ [w]) st' rest /\ ts_eos st' = ts_eos st.
  Proof.
    intros H Hw. pose proof (inv_buf _ _ _ H) as HT. pose proof (f_equal (@length Z) HT) as HL. rewrite app_length in HL.
    unfold tk_window in Hw.
    destruct (Nat.leb_spec n1 (length (ts_buf st) - ts_idx st)) as [Hc|]; [|discriminate].
    injection Hw as <- <-. cbn [ts_eos]. split; [|reflexivity].
    destruct H as [Hs (pre & HX & Hb) He Ho]. split; cbn [ts_src ts_buf ts_eos ts_yielded ts_idx]; auto.
    - exists pre. auto.
    - left. destruct Ho as [(-> & Hi & Hy)|(_ & _ & _ & Ht & _ & Hi)].
      + rewrite seq_snoc, map_app. cbn [map Nat.add]. repeat split.
        * do 2 f_equal. rewrite HT, window_at_app by lia. unfold window_at. rewrite Hi. reflexivity.
        * rewrite Hi. lia.
        * right. replace (ts_yielded st + 1 - 1) with (ts_yielded st) by lia. lia.
      + lia.
  Qed.

  Lemma inv_final out st rest r st' :
    Inv out st rest -> tk_window c st = None -> ts_eos st = true -> tk_final c st = (st', r) ->
    match r with
    | Yield w => Inv (out ++ [w]) st' rest /\ ts_eos st' = true
    | StopIter => out = token_spec (tk_len c) (tk_overlap c) (tk_one c) T
    | Raise _ => False
    end.
  Proof.
    intros H Hw He Hf. pose proof (inv_buf _ _ _ H) as HT.
    destruct (inv_eos _ _ _ H He) as [-> ->]. cbn in HT. rewrite app_nil_r in HT.
    unfold tk_window in Hw. destruct (Nat.leb_spec n1 (length (ts_buf st) - ts_idx st)) as [|Hc]; [discriminate|].
    pose proof step_pos as Hp. pose proof step_le as Hle.
    unfold tk_final in Hf.
    destruct H as [Hs Hpre He' Ho].
    destruct ((ts_yielded st =? 0) && (0 <? length (ts_buf st) - ts_idx st) && tk_one c) eqn:Eb.
    - injection Hf as <- <-. cbn [ts_eos]. split; [|exact He].
      apply andb_true_iff in Eb as [Eb E1]. apply andb_true_iff in Eb as [E0 E2].
      apply Nat.eqb_eq in E0. apply Nat.ltb_lt in E2.
      split; cbn [ts_src ts_buf ts_eos ts_yielded ts_idx]; auto.
      right. destruct Ho as [(-> & Hi & _)|(-> & _ & _ & _ & Hy & _)]; [|lia].
      rewrite E0 in *. cbn in Hi. rewrite Hi in *. cbn [seq map app skipn].
      rewrite Nat.sub_0_r in *. rewrite <- HT in *.
      repeat split; auto; try lia. f_equal.
      apply (list_mul_cyclic T (1 + (n1 - length T + length T - 1) / length T)); [intros E; rewrite E in E2; cbn in E2; lia|].
      set (t := length T) in *.
      assert (Hd : (n1 - t + t - 1) / t * t + t >= n1); [|lia].
      replace (n1 - t + t - 1) with (tk_len c) by lia.
      pose proof (Nat.div_mod (tk_len c) t ltac:(lia)). pose proof (Nat.mod_upper_bound (tk_len c) t ltac:(lia)). lia.
    - injection Hf as <- <-. unfold token_spec. fold (tk_step c).
      destruct Ho as [(-> & Hi & Hy)|(-> & -> & _ & Ht & _)].
      + assert (Hwc : window_count n1 step T = ts_yielded st).
        { apply window_count_eq; [exact Hp| |]; rewrite HT; [exact Hy|]. nia. }
        destruct ((length T <? n1) && (0 <? length T) && tk_one c) eqn:E3.
        * exfalso. apply andb_true_iff in E3 as [E3 E1]. apply andb_true_iff in E3 as [E3 E2].
          apply Nat.ltb_lt in E3, E2. unfold window_count in Hwc. rewrite (proj2 (Nat.ltb_lt _ _) E3) in Hwc.
          rewrite <- Hwc in *. cbn in Hi. rewrite Hi, Nat.sub_0_r, <- HT, E1 in Eb.
          rewrite (proj2 (Nat.ltb_lt _ _) E2) in Eb. discriminate.
        * unfold all_windows. rewrite Hwc. reflexivity.
      + rewrite (proj2 (Nat.ltb_lt _ _) (proj1 Ht)), (proj2 (Nat.ltb_lt _ _) (proj2 Ht)). reflexivity.
  Qed.

  (** Windows handed out before an error are the first windows. *)
  Definition first_windows (out : list (list Z)) : Prop := exists k, out = firstn k (all_windows n1 step T).

  Lemma inv_first out st rest : Inv out st rest -> f <> None -> first_windows out.
  Proof.
    intros H Hf. pose proof (inv_buf _ _ _ H) as HT. pose proof (f_equal (@length Z) HT) as HL. rewrite app_length in HL.
    destruct (inv_out _ _ _ H) as [(-> & _ & Hy)|(_ & _ & He & _)].
    - exists (ts_yielded st). unfold all_windows. rewrite firstn_map. f_equal.
      pose proof (window_count_ge n1 step T (ts_yielded st) step_pos) as Hge.
      assert (Hle : ts_yielded st <= window_count n1 step T) by lia. clear - Hle.
      replace (window_count n1 step T) with (ts_yielded st + (window_count n1 step T - ts_yielded st)) by lia.
      rewrite seq_app, firstn_app, seq_length, Nat.sub_diag. cbn [firstn]. rewrite app_nil_r, firstn_all2; [reflexivity|].
      rewrite seq_length. lia.
    - destruct (inv_eos _ _ _ H He). contradiction.
  Qed.

  Lemma inv_fetch out st rest :
    Inv out st rest -> tk_window c st = None -> ts_eos st = false ->
    (exists st' rest', tk_fetch c st = (st', None) /\ Inv out st' rest'
       /\ (length rest' < length rest \/ (rest' = [] /\ ts_eos st' = true)))
    \/ (exists st' e, tk_fetch c st = (st', Some e) /\ f = Some e /\ first_windows out).
  Proof.
    intros H Hw He. pose proof (inv_first _ _ _ H) as Hfirst.
    destruct H as [Hs (pre & HX & Hb) _ Ho]. unfold tk_fetch.
    rewrite Hs, tk_collect_spec. destruct (Nat.leb_spec (tk_batch c) (length rest)) as [Hle|Hgt].
    - left. eexists _, (skipn (tk_batch c) rest). cbn [app].
      split; [reflexivity|]. split.
      + split; cbn [ts_src ts_buf ts_eos ts_yielded ts_idx]; auto.
        * exists (pre ++ firstn (tk_batch c) rest). split; [rewrite <- app_assoc, firstn_skipn; exact HX|].
          rewrite Hb. unfold token_stream. rewrite flat_map_app. reflexivity.
        * rewrite He. discriminate.
        * destruct Ho as [(-> & Hi & Hy)|(-> & _ & He' & _)]; [|congruence].
          left. rewrite app_length. repeat split; auto. lia.
      + left. rewrite skipn_length. lia.
    - destruct f as [e|] eqn:Ef.
      + right. eexists _, e. split; [reflexivity|]. split; [reflexivity|]. apply Hfirst. discriminate.
      + left. eexists _, []. cbn [app]. split; [reflexivity|]. split; [|right; cbn; rewrite orb_true_r; auto].
        split; cbn [ts_src ts_buf ts_eos ts_yielded ts_idx]; rewrite ?Ef; auto.
        * exists (pre ++ rest). split; [rewrite app_nil_r; exact HX|].
          rewrite Hb. unfold token_stream. rewrite flat_map_app. reflexivity.
        * destruct Ho as [(-> & Hi & Hy)|(-> & _ & He' & _)]; [|congruence].
          left. rewrite app_length. repeat split; auto. lia.
  Qed.

  (** One [next] of the synchronous iterator. *)
  Lemma tk_next_spec fuel out st rest r st' :
    Inv out st rest -> length rest + (if ts_eos st then 0 else 1) < fuel ->
    tk_next fuel c st = (st', r) ->
    match r with
    | Yield w => exists rest', Inv (out ++ [w]) st' rest' /\ length rest' <= length rest
                   /\ (ts_eos st = true -> ts_eos st' = true)
    | StopIter => f = None /\ out = token_spec (tk_len c) (tk_overlap c) (tk_one c) T
    | Raise e => f = Some e /\ first_windows out
    end.
  Proof.
    revert st rest. induction fuel as [|fuel IH]; intros st rest H Hfuel Hn; [lia|].
    cbn [tk_next] in Hn. destruct (tk_window c st) as [[st1 w]|] eqn:Ew.
    - injection Hn as <- <-. destruct (inv_window _ _ _ _ _ H Ew) as [H1 He]. exists rest. split; [exact H1|]. split; [lia|congruence].
    - destruct (ts_eos st) eqn:Ee; cbn [negb] in Hn.
      + pose proof (inv_final _ _ _ r st' H Ew Ee Hn) as Hfin.
        destruct (inv_eos _ _ _ H Ee) as [Hr Hf]. destruct r as [w| |e]; [|auto|contradiction].
        destruct Hfin as [Hfin Hee]. exists rest. split; [exact Hfin|]. split; [lia|auto].
      + destruct (inv_fetch _ _ _ H Ew Ee) as [(st1 & rest1 & Hft & H1 & Hm)|(st1 & e & Hft & Hf & Ho)]; rewrite Hft in Hn.
        * assert (Hfl : length rest1 + (if ts_eos st1 then 0 else 1) < fuel).
          { destruct Hm as [Hm|[-> ->]]; [destruct (ts_eos st1); lia|cbn; lia]. }
          specialize (IH _ _ H1 Hfl Hn). destruct r as [w| |e]; auto.
          destruct IH as (rest' & HI & Hl & _). exists rest'. split; [exact HI|]. split; [|discriminate].
          destruct Hm as [Hm|[-> _]]; [lia|cbn in Hl; lia].
        * injection Hn as _ <-. auto.
  Qed.

  Lemma tk_drain_spec n fuel out st rest :
    Inv out st rest -> length rest + 1 < fuel -> window_count n1 step T + 2 <= n + length out ->
    match f with
    | None => exists ws, tk_drain n fuel c st = (ws, StopIter) /\ out ++ ws = token_spec (tk_len c) (tk_overlap c) (tk_one c) T
    | Some e => exists ws, tk_drain n fuel c st = (ws, Raise e) /\ first_windows (out ++ ws)
    end.
  Proof.
    revert out st rest. induction n as [|n IH]; intros out st rest H Hfuel Hn.
    - pose proof (inv_len _ _ _ H). lia.
    - cbn [tk_drain]. destruct (tk_next fuel c st) as [st' r] eqn:En.
      assert (Hfl : length rest + (if ts_eos st then 0 else 1) < fuel) by (destruct (ts_eos st); lia).
      pose proof (tk_next_spec _ _ _ _ _ _ H Hfl En) as Hs. destruct r as [w| |e].
      + destruct Hs as (rest' & HI & Hl & _).
        assert (Hn' : window_count n1 step T + 2 <= n + length (out ++ [w])) by (rewrite app_length; cbn; lia).
        specialize (IH _ _ _ HI ltac:(lia) Hn').
        destruct (tk_drain n fuel c st') as [ws e] eqn:Ed.
        destruct f as [e'|]; destruct IH as (ws' & Heq & Hout); injection Heq as -> ->.
        * exists (w :: ws'). split; [reflexivity|]. rewrite <- app_assoc in Hout. exact Hout.
        * exists (w :: ws'). split; [reflexivity|]. rewrite <- app_assoc in Hout. exact Hout.
      + destruct Hs as [-> Ho]. exists []. rewrite app_nil_r. auto.
      + destruct Hs as [-> Ho]. exists []. rewrite app_nil_r. auto.
  Qed.

  (** ** Threads *)
  (** [th_inv] for a source that does not fail. *)
  Record ThInv (s : thst A) (rest : list A) : Prop := {
    ti_inv : Inv (th_out s) (th s) rest;
    ti_exn : th_exn s = None;
    ti_wait : th_c s = CWaiting -> ts_eos (th s) = false /\ tk_window c (th s) = None;
    ti_done : th_c s = CDone -> th_out s = token_spec (tk_len c) (tk_overlap c) (tk_one c) T;
    ti_dead : th_p s = PDead -> ts_eos (th s) = true }.

  Lemma ThInv_init : ThInv (th_init (X, f)) X.
  Proof. split; cbn; try reflexivity; try discriminate. apply Inv_init. Qed.

  Lemma th_cons_inv s rest s' : ThInv s rest -> th_cons c s = Some s' -> ThInv s' rest.
  Proof.
    intros [HI Hx Hw Hd Hp] Hs. unfold th_cons in Hs. destruct (th_c s) eqn:Ec; try discriminate.
    destruct (tk_window c (th s)) as [[st1 w]|] eqn:Ew.
    - injection Hs as <-. destruct (inv_window _ _ _ _ _ HI Ew) as [HI' He].
      split; cbn [th th_c th_p th_out th_exn]; auto; try discriminate. rewrite He. auto.
    - destruct (ts_eos (th s)) eqn:Ee.
      + destruct (tk_final c (th s)) as [st1 r] eqn:Ef.
        pose proof (inv_final _ _ _ r st1 HI Ew Ee Ef) as Hfin. destruct r as [w| |e].
        * injection Hs as <-. destruct Hfin as [HI' He].
          split; cbn [th th_c th_p th_out th_exn]; auto; try discriminate.
        * injection Hs as <-. assert (st1 = th s) as ->.
          { unfold tk_final in Ef. destruct (_ && _); [discriminate|]. congruence. }
          split; cbn [th th_c th_p th_out th_exn]; auto; try discriminate.
        * contradiction.
      + injection Hs as <-. split; cbn [th th_c th_p th_out th_exn]; auto; try discriminate. rewrite Ee. auto.
  Qed.

  Lemma wake_waiting x : wake x <> CWaiting.
  Proof. destruct x; discriminate. Qed.
  Lemma wake_done x : wake x = CDone -> x = CDone.
  Proof. destruct x; discriminate || auto. Qed.

  Lemma th_prod_inv s rest s' :
    f = None -> ThInv s rest -> th_prod c s = Some s' -> exists rest', ThInv s' rest'
      /\ (length rest' < length rest \/ (ts_eos (th s) = false /\ ts_eos (th s') = true /\ rest' = [])
          \/ (ts_eos (th s) = true /\ th_p s' = PDead /\ th_p s = PRun /\ rest' = rest /\ th_c s' = th_c s
              /\ ts_eos (th s') = true)).
  Proof.
    intros Hf [HI Hx Hw Hd Hp] Hs. unfold th_prod in Hs. destruct (th_p s) eqn:Ep; [|discriminate].
    destruct (ts_eos (th s)) eqn:Ee.
    - injection Hs as <-. exists rest. split; [|right; right; cbn; auto 10].
      split; cbn [th th_c th_p th_out th_exn]; auto. intros H. destruct (Hw H). congruence.
    - pose proof HI as HI0. destruct HI as [Hsrc (pre & HX & Hb) He Ho].
      rewrite Hsrc, th_collect_spec in Hs.
      assert (Hgrow : forall add rest', rest = add ++ rest' -> forall src b, src = (rest', f) -> (b = true -> rest' = []) ->
        forall b0, Inv (th_out s) (mkTkSt src (ts_buf (th s) ++ flat_map (tk_ids c) add) (ts_idx (th s)) (b0 || b) (ts_yielded (th s))) rest'
                   \/ b0 = true).
      { intros add rest' Hrest src b -> Hb1 b0. destruct b0; [auto|]. left. cbn [orb].
        split; cbn [ts_src ts_buf ts_eos ts_yielded ts_idx]; auto.
        - exists (pre ++ add). split; [rewrite <- app_assoc, <- Hrest; exact HX|].
          rewrite Hb. unfold token_stream. rewrite flat_map_app. reflexivity.
        - destruct Ho as [(-> & Hi & Hy)|(-> & _ & He' & _)]; [|congruence].
          left. rewrite app_length. repeat split; auto. lia. }
      cbn [app] in Hs. rewrite Hf in Hs.
      destruct (Nat.leb_spec (tk_batch c) (length rest)) as [Hle|Hgt].
      + destruct (firstn (tk_batch c) rest) as [|a l] eqn:Efn.
        { apply (f_equal (@length A)) in Efn. rewrite firstn_length in Efn. cbn in Efn. lia. }
        injection Hs as <-. exists (skipn (tk_batch c) rest).
        split; [|left; rewrite skipn_length; lia].
        assert (Hr : rest = (a :: l) ++ skipn (tk_batch c) rest) by (rewrite <- Efn, firstn_skipn; reflexivity).
        destruct (Hgrow _ _ Hr _ false eq_refl ltac:(discriminate) false) as [Hg|Hg]; [|discriminate].
        rewrite Hf in Hg.
        split; cbn [th th_c th_p th_out th_exn ts_eos]; auto.
        * intros H. exfalso. eapply wake_waiting; eauto.
        * intros H. apply Hd, wake_done, H.
      + assert (Hr : rest = rest ++ []) by (rewrite app_nil_r; reflexivity).
        destruct (Hgrow _ _ Hr _ true eq_refl (fun _ => eq_refl) false) as [Hg|Hg]; [|discriminate].
        rewrite Hf in Hg.
        destruct rest as [|a l].
        * injection Hs as <-. exists []. split; [|right; left; cbn [th ts_eos]; auto].
          split; cbn [th th_c th_p th_out th_exn ts_eos]; auto; try discriminate.
          -- cbn [flat_map] in Hg. rewrite app_nil_r in Hg. cbn [orb] in Hg. exact Hg.
          -- intros H. exfalso. eapply wake_waiting; eauto.
          -- intros H. apply Hd, wake_done, H.
        * injection Hs as <-. exists []. split; [|left; cbn; lia].
          split; cbn [th th_c th_p th_out th_exn ts_eos]; auto; try discriminate.
          -- intros H. exfalso. eapply wake_waiting; eauto.
          -- intros H. apply Hd, wake_done, H.
  Qed.

  Lemma th_run_inv sched s rest : f = None -> ThInv s rest -> exists rest', ThInv (th_run c sched s) rest'.
  Proof.
    intros Hf. revert s rest. induction sched as [|w sched IH]; intros s rest H; cbn [th_run]; [eauto|].
    destruct (th_turn c w s) as [s'|] eqn:Et; [|eauto].
    destruct w; cbn [th_turn] in Et.
    - destruct (th_prod_inv _ _ _ Hf H Et) as (rest' & H' & _). eauto.
    - eapply IH, th_cons_inv; eauto.
  Qed.
End TokProofs.
