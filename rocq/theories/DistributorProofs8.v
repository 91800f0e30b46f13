(** A checkpoint taken during the life of a job, what it holds, and the run after a restore. *)
From Verif Require Import Base MixtureKeyModel UtilsModel ChunkGenModel DistributorModel SpecDistributor DistributorProofs
  DistributorProofs2 DistributorProofs3 DistributorProofs4 DistributorProofs5 DistributorProofs6 DistributorProofs7.
From Coq Require Import ZifyBool ZifyNat.
Open Scope Z_scope.

Lemma flat_map_ext' {A D} (f h : A -> list D) l : (forall x, In x l -> f x = h x) -> flat_map f l = flat_map h l.
Proof. induction l as [|x l IH]; intros H; [reflexivity|]. cbn. rewrite (H x (or_introl eq_refl)), IH; [reflexivity|]. intros y Hy. apply H. right. exact Hy. Qed.

Lemma rev_case {A} (l : list A) : l = [] \/ exists l' x, l = l' ++ [x].
Proof. destruct (rev l) as [|x r] eqn:E; [left|right; exists (rev r), x]; rewrite <- (rev_involutive l), E; reflexivity. Qed.

Lemma firstn_split {A} (l m : list A) a b : (a <= length l)%nat -> (a <= b)%nat ->
  firstn a l ++ firstn (b - a) (skipn a (l ++ m)) = firstn b (l ++ m).
Proof.
  intros Ha Hb. rewrite <- (firstn_skipn a (l ++ m)) at 2. rewrite firstn_app.
  assert (Hl : length (firstn a (l ++ m)) = a) by (rewrite firstn_length, app_length; lia).
  rewrite Hl. rewrite (firstn_all2 (firstn a (l ++ m))) by lia. f_equal.
  rewrite firstn_app. replace (a - length l)%nat with O by lia. cbn. rewrite app_nil_r. reflexivity.
Qed.

Section Resume.
  Context {C : Type}.
  Variable src : nat -> qout C.

  Lemma in_had_chunk dp nodes nw (D : Z -> Z -> Z -> list C) g n w :
    existsb (p3_eqb (g, n, w)) (had_chunk dp nodes nw D) = true <->
    valid_slot dp nodes nw g n w /\ D g n w <> [].
  Proof.
    rewrite existsb_p3. unfold had_chunk. rewrite filter_In, in_all_slots, negb_true_iff, Nat.eqb_neq.
    destruct (D g n w); cbn; intuition congruence.
  Qed.

  (** What is known about a state in the life of a job. *)
  Record linv dp nodes nw m0 (B : Z -> Z -> nat) (s : dist C) (pend : list p3) rep (D : Z -> Z -> Z -> list C) (P : posf) (F : streams (C := C)) (m : Z) : Prop := {
    l_dp : 1 <= dp; l_nw : 1 <= nw; l_m0 : 0 <= m0;
    l_inv : inv src dp nodes nw B s P F;
    l_ck : ck_inv dp nodes m0 s rep m; l_fork : d_forked s = false;
    l_pend : NoDup pend /\ forall g n w, In (g, n, w) pend -> valid_slot dp nodes nw g n w;
    l_D : forall g n w, valid_slot dp nodes nw g n w ->
      if existsb (p3_eqb (g, n, w)) pend then P g n w = B g w /\ (B g w < length (F g w))%nat /\ D g n w = map fst (firstn (S (P g n w)) (F g w))
      else D g n w = map fst (firstn (P g n w) (F g w)) /\ (P g n w <> O -> (B g w < P g n w)%nat);
    l_out : forall g n w, ~ valid_slot dp nodes nw g n w -> D g n w = [];
    l_reach : forall g w i, (i < length (F g w))%nat -> exists n, valid_slot dp nodes nw g n w /\ (i < length (D g n w))%nat
  }.

  Lemma linv_start dp nodes nw cached s : dist_init dp nodes nw cached 0 = Ok s ->
    linv dp nodes (eff_workers nw) 0 (fun _ _ => O) s [] [] (fun _ _ _ => []) (fun _ _ _ => O) (fun _ _ => []) 0.
  Proof.
    intros Hi. destruct (init_inv src _ _ _ _ _ Hi) as (Hdp & Hnw & Hinv & Hre & Hf).
    destruct (init_ck dp nodes nw cached s Hi) as (Hk0 & Hf0 & Hog & Hca).
    constructor; auto; [lia| |].
    - split; [constructor|intros ? ? ? []].
    - intros. cbn. split; [reflexivity|]. lia.
  Qed.

  Lemma linv_run_strong dp nodes nw m0 B s pend rep D P F m ops s' es :
    linv dp nodes nw m0 B s pend rep D P F m -> drun src s ops = (s', es) -> Forall (ck_valid dp nodes) ops -> ~ In Fork ops ->
    exists P' F' m', linv dp nodes nw m0 B s'
       (filter (fun t => match t with (g, n, w) => Nat.eqb (length (got g n w ops es)) 0 end) pend) (round rep ops es)
       (fun g n w => D g n w ++ if existsb (p3_eqb (g, n, w)) pend then tl (got g n w ops es) else got g n w ops es) P' F' m'
      /\ prefix_of F F' /\ (forall a b c, (P a b c <= P' a b c)%nat)
      /\ (forall g n w, got_skip g n w ops es = firstn (P' g n w - P g n w) (skipn (P g n w) (F' g w))
           /\ length (got_skip g n w ops es) = (P' g n w - P g n w)%nat).
  Proof.
    intros [Hdp Hnw Hm0 Hinv Hck Hf [Hnd Hpv] HD Hout Hre] Hr Hval Hnf.
    destruct (run_inv _ _ _ _ _ _ _ _ _ _ _ Hinv Hr) as (P' & F' & Hinv' & Hpre & Hle & HL & Hgot).
    destruct (ck_run src dp nodes m0 Hdp _ _ _ _ _ _ Hck Hf Hval Hnf Hr) as (Hck' & Hf' & _).
    exists P', F', (m + started es).
    split; [|split; [exact Hpre|split; [exact Hle|intros g n w; split; apply Hgot]]].
    assert (Hg1 : forall g n w, length (got g n w ops es) = (P' g n w - P g n w)%nat).
    { intros g n w. unfold got. rewrite map_length. apply Hgot. }
    assert (Hex : forall t, existsb (p3_eqb t) (filter (fun t => match t with (g, n, w) => Nat.eqb (length (got g n w ops es)) 0 end) pend)
              = existsb (p3_eqb t) pend && match t with (g, n, w) => Nat.eqb (length (got g n w ops es)) 0 end).
    { intros t. apply Bool.eq_iff_eq_true. rewrite andb_true_iff, !existsb_p3, filter_In. tauto. }
    assert (HDn : forall g n w, valid_slot dp nodes nw g n w ->
      let D' := D g n w ++ (if existsb (p3_eqb (g, n, w)) pend then tl (got g n w ops es) else got g n w ops es) in
      if existsb (p3_eqb (g, n, w)) pend && Nat.eqb (length (got g n w ops es)) 0
      then P' g n w = B g w /\ (B g w < length (F' g w))%nat /\ D' = map fst (firstn (S (P' g n w)) (F' g w))
      else D' = map fst (firstn (P' g n w) (F' g w)) /\ (P' g n w <> O -> (B g w < P' g n w)%nat)).
    { intros g n w Hv D'. specialize (HD g n w Hv). destruct (Hgot g n w) as (Hgs & _ & _). specialize (Hg1 g n w).
      specialize (Hle g n w). destruct (Hpre g w) as [l0 El]. remember (map (fun c : C => (c, 0)) l0) as l eqn:El0.
      pose proof (c_le _ _ _ _ _ _ _ _ _ (i_core _ _ _ _ _ _ _ _ Hinv) _ _ _ Hv) as HleF.
      pose proof (c_base _ _ _ _ _ _ _ _ _ (i_core _ _ _ _ _ _ _ _ Hinv) _ _ _ Hv) as Hbase.
      assert (Egot : got g n w ops es = map fst (firstn (P' g n w - P g n w) (skipn (P g n w) (F' g w)))).
      { unfold got. rewrite Hgs. reflexivity. }
      destruct (existsb (p3_eqb (g, n, w)) pend); cbn [andb].
      - destruct HD as (E1 & E2 & E3). destruct (Nat.eqb_spec (length (got g n w ops es)) 0) as [E0|E0].
        + assert (Ep : P' g n w = P g n w) by lia. rewrite Ep. split; [exact E1|]. rewrite El, app_length. split; [lia|].
          unfold D'. destruct (got g n w ops es); [|discriminate]. cbn [tl]. rewrite app_nil_r, E3.
          rewrite firstn_app. replace (S (P g n w) - length (F g w))%nat with O by lia.
          change (firstn 0 l) with (@nil (C * Z)). rewrite app_nil_r. reflexivity.
        + split; [|lia]. unfold D'. rewrite E3, Egot, El.
          destruct (nth_error (F g w) (P g n w)) as [x|] eqn:Ex.
          2:{ apply nth_error_None in Ex. lia. }
          assert (Ex' : nth_error (F g w ++ l) (P g n w) = Some x) by (rewrite nth_error_app1; [exact Ex|lia]).
          rewrite (skipn_nth _ _ _ Ex'). replace (P' g n w - P g n w)%nat with (S (P' g n w - S (P g n w))) by lia.
          rewrite firstn_cons. cbn [map tl]. rewrite <- map_app. f_equal. apply firstn_split; lia.
      - destruct HD as (E1 & E2). split; [|lia]. unfold D'. rewrite E1, Egot, El, <- map_app. f_equal. apply firstn_split; lia. }
    constructor; auto.
    - split; [apply NoDup_filter, Hnd|]. intros g n w H. apply filter_In in H as [H _]. auto.
    - intros g n w Hv. rewrite Hex. apply HDn, Hv.
    - intros g n w Hnv. rewrite (Hout _ _ _ Hnv).
      assert (E : got g n w ops es = []).
      { destruct (Hgot g n w) as (_ & Hx & _). specialize (Hg1 g n w). rewrite (Hx Hnv), Nat.sub_diag in Hg1.
        destruct (got g n w ops es); [reflexivity|discriminate]. }
      rewrite E. destruct (existsb _ _); reflexivity.
    - intros g w i Hi. destruct (Nat.lt_ge_cases i (length (F g w))) as [Hlt|Hge].
      + destruct (Hre g w i Hlt) as (n & Hv & Hn). exists n. split; [exact Hv|]. rewrite app_length. lia.
      + destruct (HL (fun g w => length (F g w))) with (g := g) (w := w) (i := i) as (n & Hv & Hn); [intros ? ? ? ?; lia|lia|].
        exists n. split; [exact Hv|]. specialize (HDn g n w Hv). cbn zeta in HDn.
        pose proof (c_le _ _ _ _ _ _ _ _ _ (i_core _ _ _ _ _ _ _ _ Hinv') _ _ _ Hv) as HleF.
        destruct (existsb (p3_eqb (g, n, w)) pend && Nat.eqb (length (got g n w ops es)) 0).
        * destruct HDn as (_ & _ & ->). rewrite map_length, firstn_length. lia.
        * destruct HDn as (-> & _). rewrite map_length, firstn_length. lia.
  Qed.

  Lemma linv_run dp nodes nw m0 B s pend rep D P F m ops s' es :
    linv dp nodes nw m0 B s pend rep D P F m -> drun src s ops = (s', es) -> Forall (ck_valid dp nodes) ops -> ~ In Fork ops ->
    exists P' F' m', linv dp nodes nw m0 B s'
       (filter (fun t => match t with (g, n, w) => Nat.eqb (length (got g n w ops es)) 0 end) pend) (round rep ops es)
       (fun g n w => D g n w ++ if existsb (p3_eqb (g, n, w)) pend then tl (got g n w ops es) else got g n w ops es) P' F' m'.
  Proof.
    intros HL Hr Hv Hf. destruct (linv_run_strong _ _ _ _ _ _ _ _ _ _ _ _ _ _ _ HL Hr Hv Hf) as (P' & F' & m' & H & _).
    exists P', F', m'. exact H.
  Qed.
End Resume.
