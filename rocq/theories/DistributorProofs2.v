(** The distributor invariant along histories. *)
From Verif Require Import Base MixtureKeyModel UtilsModel ChunkGenModel DistributorModel SpecDistributor DistributorProofs.
From Coq Require Import ZifyBool ZifyNat.
Open Scope Z_scope.

  Lemma valid_dec dp nodes nw g n w : {valid_slot dp nodes nw g n w} + {~ valid_slot dp nodes nw g n w}.
  Proof.
    destruct ((0 <=? g) && (g <? dp) && (0 <=? n) && (n <? nodes) && (0 <=? w) && (w <? nw)) eqn:E;
      [left|right]; unfold valid_slot; lia.
  Qed.

  Lemma taken_S {C} (src : nat -> qout C) k : taken src (S k) = taken src k ++ chunk_of (src k).
  Proof.
    unfold taken. replace (S k) with (k + 1)%nat by lia. rewrite seq_app, flat_map_app. cbn [seq flat_map plus].
    rewrite app_nil_r. reflexivity.
  Qed.

Section Run.
  Context {C : Type}.
  Variable src : nat -> qout C.
  Variables dp nodes nw : Z.
  Variable B : Z -> Z -> nat.

  Definition all_chunks (F : streams (C := C)) : list C :=
    flat_map (fun g => flat_map (fun w => map fst (F g w)) (zrange 0 nw)) (zrange 0 dp).

  Record inv (s : dist C) (P : posf) (F : streams (C := C)) : Prop := {
    i_dp : d_dp s = dp; i_nodes : d_nodes s = nodes; i_nw : d_nw s = nw;
    i_core : core dp nodes nw B (d_cache s) (d_usage s) (d_next s) P F;
    i_taken : Permutation (all_chunks F) (taken src (d_calls s))
  }.

  Lemma flat_map_upd {A D} (eqb : A -> A -> bool) (f : A -> list D) (x : A) (b : D) l (h : A -> list D) :
    NoDup l -> In x l -> h x = f x ++ [b] -> (forall y, y <> x -> h y = f y) ->
    Permutation (flat_map h l) (b :: flat_map f l).
  Proof.
    intros Hnd. induction l as [|y l IH]; cbn; [tauto|]. inversion Hnd as [|? ? Hni Hnd']; subst.
    intros [->|Hin] Hx Ho.
    - rewrite Hx, <- app_assoc. cbn. rewrite <- Permutation_middle.
      replace (flat_map h l) with (flat_map f l); [reflexivity|].
      rewrite !flat_map_concat_map. f_equal. apply map_ext_in. intros z Hz. symmetry. apply Ho. intros ->. contradiction.
    - rewrite (Ho y) by (intros ->; contradiction). rewrite (IH Hnd' Hin Hx Ho). rewrite <- Permutation_middle. reflexivity.
  Qed.

  Lemma all_chunks_upd F g w c k : 0 <= g < dp -> 0 <= w < nw ->
    Permutation (all_chunks (updF F g w (F g w ++ [(c, k)]))) (c :: all_chunks F).
  Proof.
    intros Hg Hw. unfold all_chunks.
    set (h := fun g' => flat_map (fun w' => map fst (updF F g w (F g w ++ [(c, k)]) g' w')) (zrange 0 nw)).
    set (f := fun g' => flat_map (fun w' => map fst (F g' w')) (zrange 0 nw)).
    assert (Hperm : Permutation (h g) (c :: f g)).
    { unfold h, f. apply (flat_map_upd Z.eqb (fun w' => map fst (F g w')) w c (zrange 0 nw)).
      - apply NoDup_zrange.
      - apply in_zrange. lia.
      - rewrite updF_same, map_app. reflexivity.
      - intros y Hy. rewrite updF_other by congruence. reflexivity. }
    assert (Hoth : forall g', g' <> g -> h g' = f g').
    { intros g' Hne. unfold h, f. rewrite !flat_map_concat_map. f_equal. apply map_ext_in. intros z _.
      rewrite updF_other by congruence. reflexivity. }
    assert (Hin : In g (zrange 0 dp)) by (apply in_zrange; lia).
    pose proof (NoDup_zrange 0 dp) as Hnd. induction (zrange 0 dp) as [|y l IH]; [contradiction|].
    inversion Hnd as [|? ? Hni Hnd']; subst. cbn [flat_map]. destruct Hin as [->|Hin].
    - rewrite Hperm. cbn. constructor. replace (flat_map h l) with (flat_map f l); [reflexivity|].
      rewrite !flat_map_concat_map. f_equal. apply map_ext_in. intros z Hz. symmetry. apply Hoth. intros ->. contradiction.
    - rewrite (Hoth y) by (intros ->; contradiction). rewrite (IH Hin Hnd'). apply Permutation_sym, Permutation_middle.
  Qed.

  (** What a request does. *)
  Inductive req_result (g n w : Z) (deser : bool) (s : dist C) (P : posf) (F : streams (C := C))
    : dist C -> dout C -> posf -> streams (C := C) -> Prop :=
  | rr_refused e s' : s' = s -> (~ valid_slot dp nodes nw g n w) \/ (d_forked s = true /\ guaranteed_server s = true) ->
      (e = AssertionError \/ e = KeyError \/ e = RuntimeError) -> req_result g n w deser s P F s' (DErr e) P F
  | rr_noChunk s' o : valid_slot dp nodes nw g n w -> P g n w = length (F g w) -> d_calls s' = S (d_calls s) ->
      s' = with_dist s (S (d_calls s)) (d_cache s) (d_usage s) (d_next s) ->
      (match src (d_calls s) with QErr e => o = DErr e | QChunk _ => False | _ => o = DStop end) ->
      req_result g n w deser s P F s' o P F
  | rr_cached s' c k cache usage next : valid_slot dp nodes nw g n w -> s' = with_dist s (d_calls s) cache usage next ->
      nth_error (F g w) (P g n w) = Some (c, k) ->
      req_result g n w deser s P F s' (DChunk (negb deser) c k) (upd3 P g n w (S (P g n w))) F
  | rr_fetched s' c cache usage next : valid_slot dp nodes nw g n w -> P g n w = length (F g w) ->
      s' = with_dist s (S (d_calls s)) cache usage next -> src (d_calls s) = QChunk c ->
      req_result g n w deser s P F s' (DChunk (negb deser) c 0) (upd3 P g n w (S (P g n w)))
                 (updF F g w (F g w ++ [(c, 0)])).

  (** A chunk leaves the memory only when every node has taken it and the following one. *)
  Definition dropped_ok (s s' : dist C) (P' : posf) : Prop :=
    forall k, aget p2_eqb k (d_cache s') = None -> aget p2_eqb k (d_cache s) <> None ->
      exists g w i, k = (g, w + nw * Z.of_nat i) /\ 0 <= g < dp /\ 0 <= w < nw
        /\ forall n, 0 <= n < nodes -> (i + 1 < P' g n w)%nat.

  Lemma req_step g n w deser s P F s' o :
    inv s P F -> next_chunk_for src g n w deser s = (s', o) ->
    exists P' F', inv s' P' F' /\ req_result g n w deser s P F s' o P' F' /\ dropped_ok s s' P'.
  Proof.
    intros Hi Hs. pose proof Hi as [Hdp Hno Hnw Hcore Htk]. unfold next_chunk_for in Hs.
    assert (Href : forall e, s' = s -> o = DErr e -> ((~ valid_slot dp nodes nw g n w) \/ (d_forked s = true /\ guaranteed_server s = true)) ->
      (e = AssertionError \/ e = KeyError \/ e = RuntimeError) ->
      exists P' F', inv s' P' F' /\ req_result g n w deser s P F s' o P' F' /\ dropped_ok s s' P').
    { intros e -> -> Hv He. exists P, F. split; [exact Hi|]. split; [apply rr_refused; auto|].
      intros k H1 H2. congruence. }
    destruct (negb (g <? d_dp s) || negb (n <? d_nodes s) || negb (w <? d_nw s)) eqn:Ea.
    { injection Hs as <- <-. eapply Href; try reflexivity; [|auto]. left. unfold valid_slot. lia. }
    destruct (d_forked s && guaranteed_server s) eqn:Ef.
    { injection Hs as <- <-. apply andb_true_iff in Ef. eapply Href; try reflexivity; [|auto]. right. exact Ef. }
    destruct (aget p3_eqb (g, n, w) (d_next s)) as [id|] eqn:En.
    2:{ injection Hs as <- <-. eapply Href; try reflexivity; [|auto]. left. intros Hv.
        rewrite (c_next _ _ _ _ _ _ _ _ _ Hcore _ _ _ Hv) in En. discriminate. }
    pose proof (c_out _ _ _ _ _ _ _ _ _ Hcore _ _ _ _ En) as Hv.
    rewrite (c_next _ _ _ _ _ _ _ _ _ Hcore _ _ _ Hv) in En. injection En as <-.
    destruct (aget p2_eqb (g, w + nw * Z.of_nat (P g n w)) (d_cache s)) as [ck|] eqn:Ec.
    - destruct (core_hand dp nodes nw B s (d_calls s) (d_cache s) (d_usage s) P F g n w (negb deser) ck Hno Hnw Hcore Hv Ec)
        as (cache' & usage' & next' & Eh & Hnth & Hcore' & Hdrop).
      rewrite Eh in Hs. injection Hs as <- <-. exists (upd3 P g n w (S (P g n w))), F. destruct ck as [c k]. split; [|split].
      + constructor; cbn; auto.
      + eapply rr_cached; eauto.
      + intros k0 H1 H2. cbn in H1. destruct (Hdrop k0 H1) as [H|(i & -> & Hall)]; [contradiction|].
        exists g, w, i. destruct Hv as (Hg & _ & Hw). auto.
    - pose proof (core_end _ _ _ _ _ _ _ _ _ _ _ _ Hcore Hv Ec) as HP.
      destruct (src (d_calls s)) as [c| | |e] eqn:Es.
      + destruct (core_fetch dp nodes nw B _ _ _ P F g n w c Hcore Hv Ec) as [_ Hcf].
        destruct (core_hand dp nodes nw B s (S (d_calls s)) _ _ P _ g n w (negb deser) (c, 0) Hno Hnw Hcf Hv)
          as (cache' & usage' & next' & Eh & Hnth & Hcore' & Hdrop).
        { apply (aget_aset_same _ p2_eqb_spec). }
        rewrite Eh in Hs. injection Hs as <- <-.
        exists (upd3 P g n w (S (P g n w))), (updF F g w (F g w ++ [(c, 0)])). split; [|split].
        * constructor; [exact Hdp|exact Hno|exact Hnw|exact Hcore || exact Hcore'|]. cbn [with_dist d_calls]. rewrite taken_S, Es. cbn. destruct Hv as (Hg & _ & Hw).
          rewrite (all_chunks_upd F g w c 0 Hg Hw), Htk. apply Permutation_cons_append.
        * eapply rr_fetched; eauto.
        * intros k0 H1 H2. cbn in H1. destruct (Hdrop k0 H1) as [H|(i & -> & Hall)].
          { rewrite (aget_aset _ p2_eqb_spec) in H. destruct (p2_eqb _ k0); [discriminate|contradiction]. }
          exists g, w, i. destruct Hv as (Hg & _ & Hw). auto.
      + injection Hs as <- <-. exists P, F. split; [|split].
        * constructor; [exact Hdp|exact Hno|exact Hnw|exact Hcore || exact Hcore'|]. cbn [with_dist d_calls]. rewrite taken_S, Es, app_nil_r. exact Htk.
        * apply rr_noChunk; auto. rewrite Es. reflexivity.
        * intros k H1 H2. cbn in H1. congruence.
      + injection Hs as <- <-. exists P, F. split; [|split].
        * constructor; [exact Hdp|exact Hno|exact Hnw|exact Hcore || exact Hcore'|]. cbn [with_dist d_calls]. rewrite taken_S, Es, app_nil_r. exact Htk.
        * apply rr_noChunk; auto. rewrite Es. reflexivity.
        * intros k H1 H2. cbn in H1. congruence.
      + injection Hs as <- <-. exists P, F. split; [|split].
        * constructor; [exact Hdp|exact Hno|exact Hnw|exact Hcore || exact Hcore'|]. cbn [with_dist d_calls]. rewrite taken_S, Es, app_nil_r. exact Htk.
        * apply rr_noChunk; auto. rewrite Es. reflexivity.
        * intros k H1 H2. cbn in H1. congruence.
  Qed.

  (** Checkpoint requests and forks do not touch the distribution state. *)
  Lemma checkpoint_frame g n st srv qd (s s' : dist C) r j :
    checkpoint g n st srv qd s = (s', r, j) ->
    d_dp s' = d_dp s /\ d_nodes s' = d_nodes s /\ d_nw s' = d_nw s /\ d_og s' = d_og s /\ d_forked s' = d_forked s
    /\ d_calls s' = d_calls s /\ d_cache s' = d_cache s /\ d_usage s' = d_usage s /\ d_next s' = d_next s
    /\ d_cached s' = d_cached s.
  Proof.
    unfold checkpoint. intros H.
    destruct ((d_dp s =? 1) && _ && _ && _); [injection H as <- _ _; repeat split|].
    destruct (d_forked s) eqn:Ef; [injection H as <- _ _; repeat split; auto|].
    destruct (existsb _ _); [injection H as <- _ _; repeat split; auto|].
    destruct (d_cur s); cbn zeta in H.
    all: destruct (_ =? _); [|injection H as <- _ _; cbn; repeat split; auto].
    all: destruct (validate _); [|injection H as <- _ _; cbn; repeat split; auto].
    all: destruct (start_checkpointing _ _ _ _); injection H as <- _ _; cbn; repeat split; auto.
  Qed.

  Definition prefix_of (F F' : streams (C := C)) : Prop := forall g w, exists l, F' g w = F g w ++ map (fun c => (c, 0)) l.
  Lemma prefix_nth F F' g w i x : prefix_of F F' -> nth_error (F g w) i = Some x -> nth_error (F' g w) i = Some x.
  Proof.
    intros H Hn. destruct (H g w) as [l ->]. rewrite nth_error_app1; [exact Hn|]. apply nth_error_Some. congruence.
  Qed.
  Lemma prefix_trans F F1 F2 : prefix_of F F1 -> prefix_of F1 F2 -> prefix_of F F2.
  Proof. intros H1 H2 g w. destruct (H1 g w) as [l1 E1], (H2 g w) as [l2 E2]. exists (l1 ++ l2). rewrite E2, E1, map_app, app_assoc. reflexivity. Qed.

  Lemma req_mono g n w deser s P F s' o P' F' :
    req_result g n w deser s P F s' o P' F' ->
    prefix_of F F' /\ (forall a b c, (P a b c <= P' a b c)%nat).
  Proof.
    assert (Hr : prefix_of F F) by (intros a b; exists []; cbn [map]; rewrite app_nil_r; reflexivity).
    assert (Hu : forall a b c, (P a b c <= upd3 P g n w (S (P g n w)) a b c)%nat).
    { intros a b c. unfold upd3. destruct (Z.eqb_spec a g), (Z.eqb_spec b n), (Z.eqb_spec c w); subst; cbn [andb]; lia. }
    intros [ | | |s1 c]; split; auto.
    intros a b. unfold updF. destruct ((a =? g) && (b =? w)) eqn:E; [|exists []; cbn [map]; rewrite app_nil_r; reflexivity].
    rewrite andb_true_iff, !Z.eqb_eq in E. destruct E as [-> ->]. exists [c]. reflexivity.
  Qed.

  (** Every chunk taken for a worker has been handed to at least one node. *)
  (** From position [L] on, every chunk of a stream was taken by some node. *)
  Definition reach_from (L : Z -> Z -> nat) (P : posf) (F : streams (C := C)) : Prop :=
    forall g w i, (L g w <= i < length (F g w))%nat -> exists n, valid_slot dp nodes nw g n w /\ (i < P g n w)%nat.
  Definition reach (P : posf) (F : streams (C := C)) : Prop :=
    forall g w i, (i < length (F g w))%nat -> exists n, valid_slot dp nodes nw g n w /\ (i < P g n w)%nat.
  Lemma req_reach L g n w deser s P F s' o P' F' :
    req_result g n w deser s P F s' o P' F' -> reach_from L P F -> reach_from L P' F'.
  Proof.
    assert (Hu : forall a b c, (P a b c <= upd3 P g n w (S (P g n w)) a b c)%nat).
    { intros a b c. unfold upd3. destruct (Z.eqb_spec a g), (Z.eqb_spec b n), (Z.eqb_spec c w); subst; cbn [andb]; lia. }
    intros Hres H. destruct Hres as [ | |s1 c k ca us nx Hv _ Hn|s1 c ca us nx Hv HP _ _]; auto.
    - intros g' w' i Hi. destruct (H g' w' i Hi) as (n' & Hv' & Hl). exists n'. split; [exact Hv'|]. specialize (Hu g' n' w'). lia.
    - intros g' w' i Hi. unfold updF in Hi. destruct ((g' =? g) && (w' =? w)) eqn:E.
      + rewrite andb_true_iff, !Z.eqb_eq in E. destruct E as [-> ->]. exists n. split; [exact Hv|].
        rewrite upd3_same. rewrite app_length in Hi. cbn in Hi. lia.
      + destruct (H g' w' i Hi) as (n' & Hv' & Hl). exists n'. split; [exact Hv'|]. specialize (Hu g' n' w'). lia.
  Qed.

  Lemma skipn_nth {A} (l : list A) i x : nth_error l i = Some x -> skipn i l = x :: skipn (S i) l.
  Proof. revert i. induction l as [|y l IH]; intros [|i] H; try discriminate; [injection H as ->; reflexivity|]. cbn [skipn]. rewrite (IH i H). reflexivity. Qed.

  Lemma run_inv ops : forall s P F s' es,
    inv s P F -> drun src s ops = (s', es) ->
    exists P' F', inv s' P' F' /\ prefix_of F F' /\ (forall a b c, (P a b c <= P' a b c)%nat)
      /\ (forall L, reach_from L P F -> reach_from L P' F')
      /\ (forall g n w, got_skip g n w ops es = firstn (P' g n w - P g n w) (skipn (P g n w) (F' g w))
           /\ (~ valid_slot dp nodes nw g n w -> P' g n w = P g n w)
           /\ length (got_skip g n w ops es) = (P' g n w - P g n w)%nat).
  Proof.
    induction ops as [|o ops IH]; intros s P F s' es Hi Hr; cbn [drun] in Hr.
    - injection Hr as <- <-. exists P, F. split; [exact Hi|]. split; [intros a b; exists []; cbn [map]; rewrite app_nil_r; reflexivity|].
      split; [lia|]. split; [auto|]. intros g n w. rewrite Nat.sub_diag. cbn. auto.
    - destruct (dstep src s o) as [s1 e] eqn:Es. destruct (drun src s1 ops) as [s2 es'] eqn:Er. injection Hr as <- <-.
      assert (Hskip : forall P1 F1, inv s1 P1 F1 -> prefix_of F F1 -> (forall L, reach_from L P F -> reach_from L P1 F1) -> (forall a b c, P1 a b c = P a b c) ->
        (forall g n w, got_skip g n w (o :: ops) (e :: es') = got_skip g n w ops es') ->
        exists P' F', inv s2 P' F' /\ prefix_of F F' /\ (forall a b c, (P a b c <= P' a b c)%nat)
          /\ (forall L, reach_from L P F -> reach_from L P' F')
          /\ (forall g n w, got_skip g n w (o :: ops) (e :: es') = firstn (P' g n w - P g n w) (skipn (P g n w) (F' g w))
               /\ (~ valid_slot dp nodes nw g n w -> P' g n w = P g n w)
               /\ length (got_skip g n w (o :: ops) (e :: es')) = (P' g n w - P g n w)%nat)).
      { intros P1 F1 Hi1 Hp Hre HP Hg. destruct (IH _ _ _ _ _ Hi1 Er) as (P' & F' & H1 & H2 & H3 & HR & H4).
        exists P', F'. split; [exact H1|]. split; [eapply prefix_trans; eauto|].
        split; [intros a b c; rewrite <- HP; apply H3|]. split; [auto|]. intros g n w. rewrite Hg, <- HP. apply H4. }
      destruct o as [g0 n0 w0 d|g0 n0 st srv qd|]; cbn [dstep] in Es.
      + destruct (next_chunk_for src g0 n0 w0 d s) as [s1' r] eqn:En. injection Es as -> <-.
        destruct (req_step _ _ _ _ _ _ _ _ _ Hi En) as (P1 & F1 & Hi1 & Hres & _).
        destruct (req_mono _ _ _ _ _ _ _ _ _ _ _ Hres) as [Hpre Hmono].
        assert (Hgot : forall c k, r = DChunk (negb d) c k -> valid_slot dp nodes nw g0 n0 w0 ->
                  nth_error (F1 g0 w0) (P g0 n0 w0) = Some (c, k) -> P1 = upd3 P g0 n0 w0 (S (P g0 n0 w0)) ->
          exists P' F', inv s2 P' F' /\ prefix_of F F' /\ (forall a b c, (P a b c <= P' a b c)%nat)
          /\ (forall L, reach_from L P F -> reach_from L P' F')
          /\ (forall g n w, got_skip g n w (Req g0 n0 w0 d :: ops) (EReq r :: es') = firstn (P' g n w - P g n w) (skipn (P g n w) (F' g w))
               /\ (~ valid_slot dp nodes nw g n w -> P' g n w = P g n w)
               /\ length (got_skip g n w (Req g0 n0 w0 d :: ops) (EReq r :: es')) = (P' g n w - P g n w)%nat)).
        { intros c k -> Hv Hn ->. destruct (IH _ _ _ _ _ Hi1 Er) as (P' & F' & H1 & H2 & H3 & HR & H4).
          exists P', F'. split; [exact H1|]. split; [eapply prefix_trans; eauto|].
          split; [intros a b c0; eapply Nat.le_trans; [apply Hmono|apply H3]|].
          split; [intros L Hre; apply HR; eapply req_reach; eauto|].
          intros g n w. cbn [got_skip]. specialize (H4 g n w). specialize (H3 g n w).
          destruct ((g =? g0) && (n =? n0) && (w =? w0)) eqn:E.
          - rewrite !andb_true_iff, !Z.eqb_eq in E. destruct E as [[-> ->] ->]. rewrite upd3_same in *.
            destruct H4 as (Ha & Hb & Hc). rewrite (skipn_nth _ _ _ (prefix_nth _ _ _ _ _ _ H2 Hn)).
            replace (P' g0 n0 w0 - P g0 n0 w0)%nat with (S (P' g0 n0 w0 - S (P g0 n0 w0))) by lia.
            cbn [firstn length]. rewrite Ha at 1. split; [reflexivity|]. split; [tauto|]. lia.
          - rewrite upd3_other in *; [exact H4| |].
            all: intros H; injection H as -> -> ->; rewrite !Z.eqb_refl in E; discriminate. }
        destruct Hres as [e s1' -> Hw He|s1' o Hv HP Hcalls -> Ho|s1' c k cache usage next Hv -> Hn|s1' c cache usage next Hv HP -> Hsrc].
        * apply (Hskip P F); auto.
        * apply (Hskip P F); auto. intros g n w. cbn. destruct (src (d_calls s)); subst; try reflexivity. contradiction.
        * eapply Hgot; eauto.
        * eapply Hgot; eauto. rewrite updF_same, HP, nth_error_app2, Nat.sub_diag by lia. reflexivity.
      + destruct (checkpoint g0 n0 st srv qd s) as [[s1' r] j] eqn:Ec. injection Es as -> <-.
        destruct (checkpoint_frame _ _ _ _ _ _ _ _ _ Ec) as (E1 & E2 & E3 & E4 & E5 & E6 & E7 & E8 & E9 & E10).
        apply (Hskip P F); auto; [|intros a b; exists []; cbn [map]; rewrite app_nil_r; reflexivity].
        destruct Hi as [I1 I2 I3 I4 I5]. constructor; try congruence; rewrite ?E6, ?E7, ?E8, ?E9; auto.
      + injection Es as <- <-. apply (Hskip P F); auto; [|intros a b; exists []; cbn [map]; rewrite app_nil_r; reflexivity].
        destruct Hi as [I1 I2 I3 I4 I5]. constructor; auto.
  Qed.
End Run.
