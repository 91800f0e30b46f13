(** A restored distributor continues like the original one. *)
From Verif Require Import Base MixtureKeyModel UtilsModel ChunkGenModel DistributorModel SpecDistributor DistributorProofs
  DistributorProofs2 DistributorProofs3 DistributorProofs4 DistributorProofs5 DistributorProofs6.
From Coq Require Import ZifyBool ZifyNat.
Open Scope Z_scope.

Section Sim.
  Context {C : Type}.
  Variable src : nat -> qout C.
  Variables dp nodes nw : Z.
  Variables B1 B2 : Z -> Z -> nat.
  Variable p : Z -> Z -> nat.           (** chunks taken for (group, worker) at the checkpoint *)
  Variable lastc : Z -> Z -> list (C * Z).     (** what has to be handed out again *)

  Record sim (pend : list p3) (s1 s2 : dist C) : Prop := {
    sm_f1 : d_forked s1 = false; sm_f2 : d_forked s2 = false; sm_calls : d_calls s1 = d_calls s2;
    sm_nd : NoDup pend;
    sm_inv : exists P1 F1 P2 F2, inv src dp nodes nw B1 s1 P1 F1 /\ inv src dp nodes nw B2 s2 P2 F2
      /\ (forall g n w, valid_slot dp nodes nw g n w -> (p g w <= P1 g n w)%nat
            /\ (if existsb (p3_eqb (g, n, w)) pend then P1 g n w = p g w /\ P2 g n w = pred (p g w) /\ p g w <> O
                else P2 g n w = P1 g n w))
      /\ (forall g w, 0 <= g < dp -> 0 <= w < nw -> length (F1 g w) = length (F2 g w)
            /\ (p g w <> O -> exists x, lastc g w = [x] /\ nth_error (F2 g w) (pred (p g w)) = Some x)
            /\ forall i, (p g w <= i)%nat -> nth_error (F1 g w) i = nth_error (F2 g w) i)
  }.

  Lemma existsb_filter (t t' : p3) l :
    existsb (p3_eqb t') (filter (fun x => negb (p3_eqb t x)) l) = existsb (p3_eqb t') l && negb (p3_eqb t t').
  Proof.
    induction l as [|x l IH]; [reflexivity|]. cbn [filter existsb]. destruct (p3_eqb t x) eqn:E; cbn [negb existsb].
    - apply p3_eqb_spec in E. subst x. rewrite IH. destruct (p3_eqb t' t) eqn:E2; [|reflexivity].
      apply p3_eqb_spec in E2. subst t'. rewrite (eqb_refl_ _ p3_eqb_spec). cbn. rewrite !andb_false_r. reflexivity.
    - rewrite IH. destruct (p3_eqb t' x) eqn:E2; [|reflexivity]. apply p3_eqb_spec in E2. subst x. rewrite E. reflexivity.
  Qed.

  Lemma with_dist_forked (s : dist C) a b c d : d_forked (with_dist s a b c d) = d_forked s.
  Proof. reflexivity. Qed.

  (** A first request after the restart. *)
  Lemma sim_pending pend s1 s2 g n w d s2' o :
    sim pend s1 s2 -> valid_slot dp nodes nw g n w -> existsb (p3_eqb (g, n, w)) pend = true ->
    next_chunk_for src g n w d s2 = (s2', o) ->
    (exists c k, lastc g w = [(c, k)] /\ o = DChunk (negb d) c k) /\ sim (filter (fun t => negb (p3_eqb (g, n, w) t)) pend) s1 s2'.
  Proof.
    intros [Hf1 Hf2 Hcalls Hnd (P1 & F1 & P2 & F2 & Hi1 & Hi2 & HP & HF)] Hv Hpe Hn.
    destruct (req_frame _ _ _ _ _ _ _ _ Hn) as (_ & _ & _ & _ & _ & _ & _ & Efk & _).
    destruct (req_step _ _ _ _ _ _ _ _ _ _ _ _ _ _ Hi2 Hn) as (P2' & F2' & Hi2' & Hres & _).
    destruct (HP g n w Hv) as [Hge Hpw]. rewrite Hpe in Hpw. destruct Hpw as (E1 & E2 & Hpne).
    pose proof Hv as (Hg & Hnn & Hw). destruct (HF g w Hg Hw) as (Hlen & Hlast & Hsame).
    assert (Hlt : (P2 g n w < length (F2 g w))%nat). { rewrite E2. apply nth_error_Some. destruct (Hlast Hpne) as (x & _ & ->). discriminate. }
    destruct Hres as [e s2' -> Hw' He|s2' o Hv' HPe Hcalls' -> Ho|s2' c k cache usage next Hv' -> Hnth|s2' c cache usage next Hv' HPe -> Hsrc].
    - exfalso. destruct Hw' as [Hw'|[Hw' _]]; [contradiction|congruence].
    - lia.
    - destruct (Hlast Hpne) as (x & Hl1 & Hl2). rewrite E2, Hl2 in Hnth. injection Hnth as ->. split; [exists c, k; auto|].
      constructor; auto.
      + apply NoDup_filter, Hnd.
      + exists P1, F1, (upd3 P2 g n w (S (P2 g n w))), F2. split; [exact Hi1|]. split; [exact Hi2'|]. split; [|exact HF].
        intros g' n' w' Hv''. destruct (HP g' n' w' Hv'') as [Hge' Hpw']. split; [exact Hge'|]. rewrite existsb_filter.
        destruct (p3_eqb (g, n, w) (g', n', w')) eqn:Et.
        * apply p3_eqb_spec in Et. injection Et as <- <- <-. rewrite Hpe. cbn. rewrite upd3_same. lia.
        * rewrite andb_true_r. rewrite upd3_other; [exact Hpw'|]. intros H. rewrite H, (eqb_refl_ _ p3_eqb_spec) in Et. discriminate.
    - lia.
  Qed.

  (** Any other request: both answer alike. *)
  Lemma sim_other pend s1 s2 g n w d s1' s2' o1 o2 :
    sim pend s1 s2 -> valid_slot dp nodes nw g n w -> existsb (p3_eqb (g, n, w)) pend = false ->
    next_chunk_for src g n w d s1 = (s1', o1) -> next_chunk_for src g n w d s2 = (s2', o2) ->
    o1 = o2 /\ sim pend s1' s2'.
  Proof.
    intros [Hf1 Hf2 Hcalls Hnd (P1 & F1 & P2 & F2 & Hi1 & Hi2 & HP & HF)] Hv Hpe Hn1 Hn2.
    destruct (req_frame _ _ _ _ _ _ _ _ Hn1) as (_ & _ & _ & _ & _ & _ & _ & Efk1 & _).
    destruct (req_frame _ _ _ _ _ _ _ _ Hn2) as (_ & _ & _ & _ & _ & _ & _ & Efk2 & _).
    destruct (req_step _ _ _ _ _ _ _ _ _ _ _ _ _ _ Hi1 Hn1) as (P1' & F1' & Hi1' & Hres1 & _).
    destruct (req_step _ _ _ _ _ _ _ _ _ _ _ _ _ _ Hi2 Hn2) as (P2' & F2' & Hi2' & Hres2 & _).
    destruct (HP g n w Hv) as [Hge Hpw]. rewrite Hpe in Hpw.
    pose proof Hv as (Hg & Hnn & Hw). destruct (HF g w Hg Hw) as (Hlen & Hlast & Hsame).
    pose proof (Hsame (P1 g n w) Hge) as Hnth12.
    assert (HPu : forall g' n' w', valid_slot dp nodes nw g' n' w' ->
       (p g' w' <= upd3 P1 g n w (S (P1 g n w)) g' n' w')%nat
       /\ (if existsb (p3_eqb (g', n', w')) pend
           then upd3 P1 g n w (S (P1 g n w)) g' n' w' = p g' w' /\ upd3 P2 g n w (S (P2 g n w)) g' n' w' = pred (p g' w') /\ p g' w' <> O
           else upd3 P2 g n w (S (P2 g n w)) g' n' w' = upd3 P1 g n w (S (P1 g n w)) g' n' w')).
    { intros g' n' w' Hv'. destruct (p3_eqb (g', n', w') (g, n, w)) eqn:Et.
      - apply p3_eqb_spec in Et. injection Et as -> -> ->. rewrite !upd3_same, Hpe. lia.
      - assert (Hne : (g', n', w') <> (g, n, w)) by (intros H; rewrite H, (eqb_refl_ _ p3_eqb_spec) in Et; discriminate).
        rewrite !upd3_other by exact Hne. apply HP, Hv'. }
    destruct Hres1 as [e s1' -> Hw' He|s1' o Hv' HPe Hcalls' -> Ho|s1' c k cache usage next Hv' -> Hnth|s1' c cache usage next Hv' HPe -> Hsrc].
    - exfalso. destruct Hw' as [Hw'|[Hw' _]]; [contradiction|congruence].
    - destruct Hres2 as [e2 s2' -> Hw2 He2|s2' o2 _ HPe2 Hcalls2 -> Ho2|s2' c2 k2 cache2 usage2 next2 _ -> Hnth2|s2' c2 cache2 usage2 next2 _ HPe2 -> Hsrc2].
      + exfalso. destruct Hw2 as [Hw2|[Hw2 _]]; [contradiction|congruence].
      + split.
        * rewrite <- Hcalls in Ho2. destruct (src (d_calls s1)); congruence || contradiction.
        * constructor; auto; [cbn; congruence|]. exists P1, F1, P2, F2. auto.
      + exfalso. rewrite Hpw, <- Hnth12 in Hnth2. assert (P1 g n w < length (F1 g w))%nat by (apply nth_error_Some; congruence). lia.
      + exfalso. rewrite <- Hcalls in Hsrc2. rewrite Hsrc2 in Ho. exact Ho.
    - assert (Hlt : (P1 g n w < length (F1 g w))%nat) by (apply nth_error_Some; congruence).
      destruct Hres2 as [e2 s2' -> Hw2 He2|s2' o2 _ HPe2 Hcalls2 -> Ho2|s2' c2 k2 cache2 usage2 next2 _ -> Hnth2|s2' c2 cache2 usage2 next2 _ HPe2 -> Hsrc2].
      + exfalso. destruct Hw2 as [Hw2|[Hw2 _]]; [contradiction|congruence].
      + lia.
      + rewrite Hpw in Hnth2. split; [congruence|]. constructor; auto.
        exists (upd3 P1 g n w (S (P1 g n w))), F1, (upd3 P2 g n w (S (P2 g n w))), F2. auto.
      + lia.
    - destruct Hres2 as [e2 s2' -> Hw2 He2|s2' o2 _ HPe2 Hcalls2 -> Ho2|s2' c2 k2 cache2 usage2 next2 _ -> Hnth2|s2' c2 cache2 usage2 next2 _ HPe2 -> Hsrc2].
      + exfalso. destruct Hw2 as [Hw2|[Hw2 _]]; [contradiction|congruence].
      + exfalso. rewrite <- Hcalls, Hsrc in Ho2. exact Ho2.
      + exfalso. rewrite Hpw, <- Hnth12 in Hnth2. assert (P1 g n w < length (F1 g w))%nat by (apply nth_error_Some; congruence). lia.
      + rewrite <- Hcalls in Hsrc2. assert (c2 = c) by congruence. subst c2. split; [reflexivity|].
        constructor; auto; [cbn; congruence|].
        exists (upd3 P1 g n w (S (P1 g n w))), (updF F1 g w (F1 g w ++ [(c, 0)])), (upd3 P2 g n w (S (P2 g n w))), (updF F2 g w (F2 g w ++ [(c, 0)])).
        split; [exact Hi1'|]. split; [exact Hi2'|]. split; [exact HPu|].
        intros g' w' Hg' Hw'. unfold updF. destruct ((g' =? g) && (w' =? w)) eqn:Et; [|apply HF; assumption].
        rewrite andb_true_iff, !Z.eqb_eq in Et. destruct Et as [-> ->]. rewrite !app_length. cbn. split; [lia|]. split.
        * intros Hne. destruct (Hlast Hne) as (x & Hl1 & Hl2). exists x. split; [exact Hl1|]. rewrite nth_error_app1; [auto|]. apply nth_error_Some. rewrite Hl2. discriminate.
        * intros i Hi. destruct (Nat.lt_ge_cases i (length (F1 g w))) as [Hl|Hl].
          -- rewrite !nth_error_app1 by lia. auto.
          -- rewrite !nth_error_app2 by lia. rewrite Hlen. reflexivity.
  Qed.

  Lemma sim_run ops : forall pend s1 s2 s2' es,
    sim pend s1 s2 -> only_requests dp nodes nw ops -> drun src s2 ops = (s2', es) ->
    (exists s1', drun src s1 (fst (without_first pend ops es)) = (s1', snd (without_first pend ops es)))
    /\ forall g n w, valid_slot dp nodes nw g n w ->
         got_skip g n w ops es = (if existsb (p3_eqb (g, n, w)) pend && asked_for (g, n, w) ops then lastc g w else [])
                                 ++ got_skip g n w (fst (without_first pend ops es)) (snd (without_first pend ops es)).
  Proof.
    induction ops as [|o ops IH]; intros pend s1 s2 s2' es Hs Hv Hr; cbn [drun] in Hr.
    - injection Hr as <- <-. cbn. split; [eexists; reflexivity|]. intros. rewrite andb_false_r. reflexivity.
    - inversion Hv as [|? ? Hv1 Hv2]; subst. destruct o as [g0 n0 w0 d| |]; try contradiction.
      cbn [dstep] in Hr. destruct (next_chunk_for src g0 n0 w0 d s2) as [s2a o2] eqn:E2.
      destruct (drun src s2a ops) as [s2b es'] eqn:Er. injection Hr as <- <-. cbn [without_first].
      destruct (existsb (p3_eqb (g0, n0, w0)) pend) eqn:Epe.
      + destruct (sim_pending _ _ _ _ _ _ _ _ _ Hs Hv1 Epe E2) as [(c & k & Hlc & ->) Hs'].
        destruct (IH _ _ _ _ _ Hs' Hv2 Er) as [Hrun Hgot]. split; [exact Hrun|].
        intros g n w Hvs. cbn [got_skip]. rewrite (Hgot g n w Hvs), existsb_filter.
        change (asked_for (g, n, w) (Req g0 n0 w0 d :: ops)) with (p3_eqb (g0, n0, w0) (g, n, w) || asked_for (g, n, w) ops).
        destruct ((g =? g0) && (n =? n0) && (w =? w0)) eqn:Et.
        * rewrite !andb_true_iff, !Z.eqb_eq in Et. destruct Et as [[-> ->] ->]. rewrite !(eqb_refl_ _ p3_eqb_spec), Epe. cbn.
          rewrite Hlc. reflexivity.
        * assert (Ef : p3_eqb (g0, n0, w0) (g, n, w) = false).
          { destruct (p3_eqb (g0, n0, w0) (g, n, w)) eqn:E; [|reflexivity]. apply p3_eqb_spec in E. injection E as -> -> ->.
            rewrite !Z.eqb_refl in Et. discriminate. }
          rewrite !Ef. cbn. rewrite andb_true_r. reflexivity.
      + destruct (next_chunk_for src g0 n0 w0 d s1) as [s1a o1] eqn:E1.
        destruct (sim_other _ _ _ _ _ _ _ _ _ _ _ Hs Hv1 Epe E1 E2) as [-> Hs'].
        destruct (IH _ _ _ _ _ Hs' Hv2 Er) as [[s1b Hrun] Hgot].
        destruct (without_first pend ops es') as [os rs] eqn:Ew. cbn [fst snd] in *. split.
        * exists s1b. cbn [drun dstep]. rewrite E1, Hrun. reflexivity.
        * intros g n w Hvs. cbn [got_skip]. unfold asked_for. cbn [existsb]. fold (asked_for (g, n, w) ops).
          specialize (Hgot g n w Hvs). destruct o2 as [ser c k| |]; cbn [got_skip].
          -- destruct ((g =? g0) && (n =? n0) && (w =? w0)) eqn:Et.
             ++ rewrite !andb_true_iff, !Z.eqb_eq in Et. destruct Et as [[-> ->] ->]. rewrite Epe in Hgot |- *. cbn in *. rewrite Hgot. reflexivity.
             ++ assert (Ef : p3_eqb (g0, n0, w0) (g, n, w) = false).
                { destruct (p3_eqb (g0, n0, w0) (g, n, w)) eqn:E; [|reflexivity]. apply p3_eqb_spec in E. injection E as -> -> ->.
                  rewrite !Z.eqb_refl in Et. discriminate. }
                rewrite Ef. cbn. exact Hgot.
          -- rewrite Hgot. f_equal. destruct (p3_eqb (g0, n0, w0) (g, n, w)) eqn:E; [|reflexivity].
             apply p3_eqb_spec in E. injection E as <- <- <-. rewrite Epe. reflexivity.
          -- rewrite Hgot. f_equal. destruct (p3_eqb (g0, n0, w0) (g, n, w)) eqn:E; [|reflexivity].
             apply p3_eqb_spec in E. injection E as <- <- <-. rewrite Epe. reflexivity.
  Qed.
End Sim.
