(** Concurrent consumers (C12): the invariant over schedules. *)
From Verif Require Import Base MixtureKeyModel MixtureKeyProofs UtilsModel UtilsProofs ChunkGenModel SpecChunk ConcurrentModel
  ChunkGenProofs1 ChunkGenProofs2 ChunkGenProofs3 ChunkGenProofs4 ChunkGenProofs5 ChunkGenProofs6 ChunkGenProofs10.
From Coq Require Import ZifyBool ZifyNat.
Open Scope Z_scope.

Definition is_chunk (o : nout) : Prop := match o with NChunk _ => True | _ => False end.

(** A QueryResult whose last call (if any) delivered a chunk. *)
Record ready (idx : index) (order : list mkey) (r : ref) (q : qr) (g : gstate) : Prop := {
  rd_gen : qgen idx order q = GChunk g;
  rd_cur : g_cur g = q_count q;
  rd_mix : s_mix (q_self q) = r;
  rd_idx : q_idx q = idx;
  rd_order : q_order q = order;
  rd_nret : q_gen q = None -> q_nret q = 0
}.

(** [next()] in terms of the loop. *)
Lemma next_send idx order r q fuel h t : s_mix (q_self q) = r -> q_idx q = idx -> q_order q = order -> (q_gen q = None -> q_nret q = 0) ->
  qr_next fuel h (set_count q t) =
  let '(gn', sf', out) := gen_send fuel idx h (qgen idx order q) (q_self q) r t in
  let mk count := mkQR idx order sf' count (Some gn') (q_nret q + 1) (q_son q) in
  match out with
  | YChunk c => (mk (t + 1), NChunk c)
  | YNone => (mk (t + 1 - 1), if q_son q then NStop else NNone)
  | YStop => (mk (t + 1), NStop)
  | YErr e => (mk (t + 1), NErr e)
  end.
Proof.
  intros H1 H2 H3 H4. unfold qr_next, set_count. cbn [q_count q_gen q_nret q_idx q_order q_self q_son].
  assert (Hb : (match q_gen q with None => true | Some _ => false end) && negb (q_nret q =? 0) = false).
  { destruct (q_gen q); [reflexivity|]. rewrite H4 by reflexivity. reflexivity. }
  rewrite Hb. unfold qgen. rewrite H1, H2, H3. reflexivity.
Qed.

Lemma set_count_same q : set_count q (q_count q) = q.
Proof. destruct q; reflexivity. Qed.

Lemma ready_next idx order r q g F h q' c : ready idx order r q g -> qr_next (S F) h q = (q', NChunk c) ->
  exists g1, ready idx order r q' g1 /\ q_count q' = q_count q + 1
    /\ iter (S F) idx h (ret r (g_cur g) g) (q_self q) = (q_self q', ItChunk g1 c) /\ keys_known (rc_index c) (rc_kid c) = true.
Proof.
  intros [R1 R2 R3 R4 R5 R6] H. rewrite <- (set_count_same q) in H. rewrite (next_send idx order r) in H by assumption.
  rewrite R1 in H. cbn [gen_send] in H. fold (ret r (q_count q) g) in H. rewrite <- R2 in H. rewrite gen_loop_iter in H.
  destruct (iter (S F) idx h (ret r (g_cur g) g) (q_self q)) as [sf1 i] eqn:Ei.
  destruct i as [g1 c1|g1| |e|]; cbn [ret g_cur g_target] in H.
  - rewrite Z.eqb_refl in H. destruct (keys_known (rc_index c1) (rc_kid c1)) eqn:Ek; injection H as H1 H2; [|discriminate].
    subst c1. destruct (iter_base _ _ _ _ _ _ _ _ Ei) as (B1 & B2 & B3). cbn [g_cur ret] in B2.
    assert (Hm : s_mix sf1 = r).
    { assert (E : gen_loop (S F) idx h (ret r (g_cur g) g) (q_self q) = (GChunk g1, sf1, YChunk c)).
      { rewrite gen_loop_iter, Ei. cbn [ret g_cur g_target]. rewrite Z.eqb_refl, Ek. reflexivity. }
      apply gen_loop_once in E as [(_ & _ & _ & E)|(_ & -> & _)]; [discriminate| |reflexivity].
      rewrite (proj1 (noted_mix _ _ _ _)). exact R3. }
    exists g1. subst q'. cbn [q_count q_self]. split; [|repeat split; try congruence; lia].
    constructor; cbn; auto; try lia. discriminate.
  - destruct (q_son q); injection H as _ H; discriminate.
  - injection H as _ H; discriminate.
  - injection H as _ H; discriminate.
  - injection H as _ H; discriminate.
Qed.

Lemma ready_chain idx order r F h cs : forall q g qN, ready idx order r q g ->
  qrun (S F) (repeat (Next h) (length cs)) q = (qN, map NChunk cs) ->
  exists gN, ready idx order r qN gN /\ chain F idx h r gN (q_self qN) g (q_self q) cs /\ q_count qN = q_count q + Z.of_nat (length cs).
Proof.
  induction cs as [|c cs IH]; intros q g qN Hr H; cbn [length repeat qrun map] in H.
  - injection H as <-. exists g. split; [exact Hr|]. split; [apply chain_nil; reflexivity|cbn; lia].
  - destruct (qr_next (S F) h q) as [q1 o] eqn:E. destruct (qrun (S F) (repeat (Next h) (length cs)) q1) as [q2 os] eqn:E2.
    injection H as Hq Ho Hos. subst q2 o os. destruct (ready_next _ _ _ _ _ _ _ _ _ Hr E) as (g1 & R1 & R2 & R3 & R4).
    destruct (IH q1 g1 qN R1 E2) as (gN & I1 & I2 & I3). exists gN. split; [exact I1|]. split; [|cbn [length]; lia].
    eapply chain_cons; eauto.
Qed.

Section World.
  Variables (F fuel : nat) (idx : index) (order : list mkey) (h : heap) (r : ref).
  Variables (q0 qN : qr) (g0 gN : gstate) (cs : list rchunk).
  Let B := q_count q0.
  Let N := Z.of_nat (length cs).
  Hypothesis Hh : heap_ok h.
  Hypothesis H0 : ready idx order r q0 g0.
  Hypothesis HN : ready idx order r qN gN.
  Hypothesis Hch : chain F idx h r gN (q_self qN) g0 (q_self q0) cs.
  Hypothesis HqN : q_count qN = B + N.
  Hypothesis Hfuel : (F + length cs <= fuel)%nat.

  (** The single consumer's next call gives nothing. *)
  Definition ended : Prop := snd (qr_next (S F) h qN) = NNone \/ snd (qr_next (S F) h qN) = NStop.

  Lemma ended_loop : ended -> exists gn sf' out, gen_loop (S F) idx h (ret r (g_cur gN) gN) (q_self qN) = (gn, sf', out)
    /\ (out = YNone \/ out = YStop).
  Proof.
    unfold ended. destruct HN as [R1 R2 R3 R4 R5 R6]. rewrite <- (set_count_same qN). rewrite (next_send idx order r) by assumption.
    rewrite R1. cbn [gen_send]. fold (ret r (q_count qN) gN). rewrite <- R2.
    destruct (gen_loop _ _ _ _ _) as [[gn sf'] out]. intros H. exists gn, sf', out. split; [reflexivity|].
    destruct out; cbn in H; destruct (q_son qN); destruct H; try discriminate; auto.
  Qed.

  Definition deadstate (q : qr) : Prop :=
    match qgen idx order q with
    | GChunk _ => False
    | GNone g => g_base g = r /\ stuck (h r) (g_comps g)
    | GDone => True
    end.

  Definition at_pos (q : qr) (k : Z) : Prop :=
    exists g, qgen idx order q = GChunk g /\ g_cur g = k /\ chain F idx h r gN (q_self qN) g (q_self q) (skipn (Z.to_nat (k - B)) cs).

  Record base_ok (q : qr) : Prop := {
    bo_mix : s_mix (q_self q) = r; bo_idx : q_idx q = idx; bo_order : q_order q = order; bo_nret : q_gen q = None -> q_nret q = 0 }.

  Definition lim (w : world) (p : nat) : Z := match p_pending (w_procs w p) with Some t => Z.min t (w_count w) | None => w_count w end.

  Definition proc_ok (w : world) (p : nat) : Prop :=
    base_ok (p_qr (w_procs w p)) /\
    ((exists k, B <= k <= B + N /\ k <= lim w p /\ at_pos (p_qr (w_procs w p)) k)
     \/ (B + N <= lim w p /\ (ended -> deadstate (p_qr (w_procs w p))))).

  Definition bigp (pt : nat * Z) : bool := B + N <=? snd pt.
  Definition res_t (x : result) : Z := snd (fst x).

  Definition res_ok (x : result) : Prop :=
    B <= res_t x /\
    (res_t x < B + N -> exists c, nth_error cs (Z.to_nat (res_t x - B)) = Some c /\ snd x = NChunk c) /\
    (B + N <= res_t x -> ended -> ~ is_chunk (snd x)).

  Record winv (w : world) (res : list result) : Prop := {
    wi_B : B <= w_count w;
    wi_proc : forall p, proc_ok w p;
    wi_res : Forall res_ok res;
    wi_pend : exists pend, NoDup (map fst pend) /\ (forall p t, In (p, t) pend <-> p_pending (w_procs w p) = Some t)
      /\ Permutation (filter (fun t => t <? B + N) (map snd pend) ++ filter (fun t => t <? B + N) (map res_t res)) (zrange B (Z.min (w_count w) (B + N)))
      /\ (let big := Z.of_nat (length (filter bigp pend)) in big = 0 \/ B + N + big <= w_count w)
  }.

  Lemma winv_init : winv (forked q0) [].
  Proof.
    constructor.
    - cbn. unfold B. lia.
    - intros p. split; [destruct H0; constructor; auto|]. left. exists B. unfold lim. cbn. fold B. split; [lia|]. split; [lia|].
      destruct H0 as [R1 R2 R3 R4 R5 R6]. exists g0. split; [exact R1|]. split; [exact R2|]. rewrite Z.sub_diag. cbn. exact Hch.
    - constructor.
    - exists []. cbn. split; [constructor|]. split; [intros; split; [intros []|discriminate]|]. split; [|auto].
      fold B. replace (Z.min B (B + N)) with B by lia. unfold zrange. rewrite Z.sub_diag. constructor.
  Qed.

  Lemma skipn_skipn {A} a b (l : list A) : skipn a (skipn b l) = skipn (a + b) l.
  Proof.
    revert b; induction l as [|x l IH]; intros b; [rewrite !skipn_nil; reflexivity|].
    destruct b; [rewrite Nat.add_0_r; reflexivity|]. replace (a + S b)%nat with (S (a + b)) by lia. cbn. apply IH.
  Qed.
  Lemma nth_error_skipn {A} a b (l : list A) : nth_error (skipn a l) b = nth_error l (a + b).
  Proof. revert l; induction a as [|a IH]; intros l; [reflexivity|]. destruct l; [rewrite skipn_nil; destruct b; reflexivity|cbn; apply IH]. Qed.

  (** One call of one process. *)
  Lemma call_ok q t : base_ok q -> B <= t ->
    ((exists k, B <= k <= B + N /\ k <= t /\ at_pos q k) \/ (B + N <= t /\ (ended -> deadstate q))) ->
    forall q' o, qr_next (S fuel) h (set_count q t) = (q', o) ->
    base_ok q' /\ (q_count q' = t + 1 \/ (q_count q' = t /\ B + N <= t))
    /\ (t < B + N -> (exists c, nth_error cs (Z.to_nat (t - B)) = Some c /\ o = NChunk c) /\ at_pos q' (t + 1))
    /\ (B + N <= t -> ended -> ~ is_chunk o /\ deadstate q').
  Proof.
    intros Hb Ht Hq q' o H. destruct Hb as [R3 R4 R5 R6]. rewrite (next_send idx order r) in H by assumption.
    destruct (gen_send (S fuel) idx h (qgen idx order q) (q_self q) r t) as [[gn' sf'] out] eqn:Es.
    assert (Hmix : s_mix sf' = r).
    { unfold gen_send in Es. clear - Es R3. destruct (qgen idx order q) as [g|g|].
      - revert Es. generalize (mkG (g_keys g) (g_comps g) (g_cur g) (g_mid g) (g_kidx g) (g_empty g) (g_prev g) (g_fail g) r t).
        intros g1 Es. eapply gen_loop_smix in Es. congruence.
      - eapply gen_loop_smix in Es. congruence.
      - injection Es as <- <- <-. exact R3. }
    assert (Hq' : q' = mkQR idx order sf' (match out with YNone => t + 1 - 1 | _ => t + 1 end) (Some gn') (q_nret q + 1) (q_son q)
                  /\ o = match out with YChunk c => NChunk c | YNone => if q_son q then NStop else NNone | YStop => NStop | YErr e => NErr e end).
    { destruct out; injection H as <- <-; auto. }
    clear H. destruct Hq' as [-> Ho].
    assert (Hbo : base_ok (mkQR idx order sf' (match out with YNone => t + 1 - 1 | _ => t + 1 end) (Some gn') (q_nret q + 1) (q_son q))).
    { constructor; cbn; auto. discriminate. }
    split; [exact Hbo|]. clear Hbo. cbn [q_count].
    destruct (Z.lt_ge_cases t (B + N)) as [Hlt|Hge].
    - destruct Hq as [(k & Hk1 & Hk2 & g & Hg1 & Hg2 & Hg3)|[? _]]; [|lia].
      rewrite Hg1 in Es. cbn [gen_send] in Es. fold (ret r t g) in Es.
      destruct (chain_jump F idx h r gN (q_self qN) _ g (q_self q) fuel t Hg3) as (g' & sf2 & c & J1 & J2 & J3 & J4).
      { rewrite skipn_length. unfold N in *. lia. }
      { rewrite skipn_length. lia. }
      rewrite J1 in Es. injection Es as <- <- <-. split; [left; reflexivity|]. split; [|lia]. intros _. split.
      + exists c. split; [|exact Ho]. rewrite nth_error_skipn in J2. rewrite <- J2. f_equal. lia.
      + exists g'. split; [reflexivity|]. split; [exact J3|]. cbn [q_self]. rewrite skipn_skipn in J4.
        replace (Z.to_nat (t + 1 - B)) with (Z.to_nat (t + 1 - g_cur g) + Z.to_nat (k - B))%nat by lia. exact J4.
    - split; [destruct out; [left|right|left|left]; lia|]. split; [lia|]. intros _ Hend.
      assert (Hx : (gn' = GDone \/ exists g', gn' = GNone g' /\ g_base g' = r /\ stuck (h r) (g_comps g')) /\ (forall c, out <> YChunk c)).
      { destruct Hq as [(k & Hk1 & Hk2 & g & Hg1 & Hg2 & Hg3)|[_ Hd]].
        - rewrite Hg1 in Es. cbn [gen_send] in Es. fold (ret r t g) in Es.
          destruct (chain_end F idx h r gN (q_self qN) _ g (q_self q) (fuel - length (skipn (Z.to_nat (k - B)) cs)) t Hg3) as [E|E].
          { rewrite skipn_length. unfold N in *. lia. }
          2:{ rewrite skipn_length in E. lia. }
          replace (fuel - length (skipn (Z.to_nat (k - B)) cs) + length (skipn (Z.to_nat (k - B)) cs))%nat with fuel in E by (rewrite skipn_length; lia).
          rewrite E in Es. destruct (ended_loop Hend) as (gn & sf1 & out1 & L1 & L2).
          destruct (end_out F idx h r gN (q_self qN) gn sf1 out1 (fuel - length (skipn (Z.to_nat (k - B)) cs)) t Hh L1 L2) as (gn2 & X1 & X2).
          { rewrite skipn_length. lia. }
          rewrite X1 in Es. injection Es as <- <- <-. split; [exact X2|]. intros c. destruct L2; subst; discriminate.
        - specialize (Hd Hend). unfold deadstate in Hd. destruct (qgen idx order q) as [g|g|]; [destruct Hd| |].
          + destruct Hd as [D1 D2]. cbn [gen_send] in Es. rewrite <- D1 in D2.
            apply (stuck_loop _ _ _ _ _ _ _ _ Hh D2) in Es as [[-> E]|[-> (g' & -> & E1 & E2)]].
            * split; [auto|]. intros c ->. destruct E as [E|[e E]]; discriminate.
            * split; [|discriminate]. right. exists g'. rewrite D1 in *. auto.
          + cbn in Es. injection Es as <- <- <-. split; [auto|discriminate]. }
      destruct Hx as [Hx1 Hx2]. split.
      + subst o. destruct out as [c| | |e]; cbn; try tauto; [exfalso; eapply Hx2; reflexivity|destruct (q_son q); cbn; tauto].
      + unfold deadstate, qgen. cbn [q_gen]. destruct Hx1 as [-> |(g' & -> & X)]; [exact I|exact X].
  Qed.

  Lemma zrange_snoc a b : a <= b -> zrange a (b + 1) = zrange a b ++ [b].
  Proof.
    intros H. unfold zrange. replace (Z.to_nat (b + 1 - a)) with (S (Z.to_nat (b - a))) by lia.
    rewrite seq_S, map_app. cbn. repeat f_equal. lia.
  Qed.

  Lemma filter_pend_split p t (pend : list (nat * Z)) : NoDup (map fst pend) -> In (p, t) pend ->
    exists l1 l2, pend = l1 ++ (p, t) :: l2 /\ ~ In p (map fst (l1 ++ l2)) /\ NoDup (map fst (l1 ++ l2)).
  Proof.
    intros Hnd Hin. apply in_split in Hin as (l1 & l2 & ->). exists l1, l2. split; [reflexivity|].
    rewrite map_app in *. cbn in Hnd. split; [apply NoDup_remove_2 in Hnd; exact Hnd|apply NoDup_remove_1 in Hnd; exact Hnd].
  Qed.

  Lemma winv_step ev w res w' res' : winv w res -> wstep (S fuel) h ev w = (w', res') -> winv w' (res ++ res').
  Proof.
    intros [W1 W2 W3 (pend & P1 & P2 & P3 & P4)] H. destruct ev as [p|p]; cbn [wstep] in H.
    - destruct (p_pending (w_procs w p)) as [t|] eqn:Ep; injection H as <- <-; rewrite app_nil_r.
      { constructor; auto. exists pend. auto. }
      assert (Hnp : ~ In p (map fst pend)).
      { intros Hin. apply in_map_iff in Hin as ([p1 t1] & E & Hin). cbn in E. subst p1. apply P2 in Hin. congruence. }
      constructor; cbn [w_count set_proc]; [lia| |exact W3|].
      + intros p'. destruct (W2 p') as [O1 O2]. unfold proc_ok, lim in *. cbn [w_procs set_proc w_count].
        destruct (Nat.eqb p p') eqn:E; cbn [p_qr p_pending].
        * apply Nat.eqb_eq in E. subst p'. rewrite Ep in O2. split; [exact O1|].
          destruct O2 as [(k & K1 & K2 & K3)|[K1 K2]]; [left; exists k; split; [exact K1|split; [lia|exact K3]]|right; split; [lia|exact K2]].
        * split; [exact O1|]. destruct (p_pending (w_procs w p')) as [t|];
          (destruct O2 as [(k & K1 & K2 & K3)|[K1 K2]]; [left; exists k; split; [exact K1|split; [lia|exact K3]]|right; split; [lia|exact K2]]).
      + exists ((p, w_count w) :: pend). split; [cbn; constructor; assumption|]. split; [|split].
        * intros p' t. cbn [w_procs set_proc In]. destruct (Nat.eqb p p') eqn:E.
          -- apply Nat.eqb_eq in E. subst p'. cbn. split.
             ++ intros [[= <-]|Hin]; [reflexivity|]. exfalso. apply Hnp, in_map_iff. exists (p, t). auto.
             ++ intros [= <-]. auto.
          -- rewrite <- P2. split; [intros [[= ? ?]|Hin]; [subst; rewrite Nat.eqb_refl in E; discriminate|exact Hin]|auto].
        * cbn [map snd filter]. destruct (w_count w <? B + N) eqn:E.
          -- replace (Z.min (w_count w + 1) (B + N)) with (w_count w + 1) by lia.
             replace (Z.min (w_count w) (B + N)) with (w_count w) in P3 by lia.
             rewrite zrange_snoc by lia. cbn [app]. rewrite P3. apply Permutation_cons_append.
          -- replace (Z.min (w_count w + 1) (B + N)) with (Z.min (w_count w) (B + N)) by lia. exact P3.
        * cbn [filter]. change (bigp (p, w_count w)) with (B + N <=? w_count w). cbv zeta in P4. destruct (B + N <=? w_count w) eqn:E; cbn [length]; cbv zeta; lia.
    - destruct (p_pending (w_procs w p)) as [t|] eqn:Ep.
      2:{ injection H as <- <-. rewrite app_nil_r. constructor; auto. exists pend. auto. }
      destruct (qr_next (S fuel) h (set_count (p_qr (w_procs w p)) t)) as [q' o] eqn:Eq. injection H as <- <-.
      assert (Hin : In (p, t) pend) by (apply P2, Ep).
      destruct (W2 p) as [O1 O2]. unfold lim in O2. rewrite Ep in O2.
      assert (Hbt : B <= t).
      { destruct (Z.lt_ge_cases t (B + N)) as [Hl|Hl]; [|lia].
        assert (Hx : In t (filter (fun t => t <? B + N) (map snd pend))).
        { apply filter_In. split; [apply (in_map snd) in Hin; exact Hin|lia]. }
        assert (Hy : In t (zrange B (Z.min (w_count w) (B + N)))) by (eapply Permutation_in; [exact P3|apply in_or_app; auto]).
        apply in_zrange in Hy. lia. }
      assert (Hq : (exists k, B <= k <= B + N /\ k <= t /\ at_pos (p_qr (w_procs w p)) k) \/ (B + N <= t /\ (ended -> deadstate (p_qr (w_procs w p))))).
      { destruct O2 as [(k & K1 & K2 & K3)|[K1 K2]]; [left; exists k; repeat split; try lia; exact K3|right; split; [lia|exact K2]]. }
      destruct (call_ok _ t O1 Hbt Hq q' o Eq) as (C1 & C2 & C3 & C4).
      destruct (filter_pend_split p t pend P1 Hin) as (l1 & l2 & El & Hnl & Hndl).
      assert (Hbig : (length (filter bigp pend) = length (filter bigp (l1 ++ l2)) + (if bigp (p, t) then 1 else 0))%nat).
      { rewrite El, !filter_app, !app_length. cbn [filter]. destruct (bigp (p, t)); cbn [length]; lia. }
      assert (Hsmall : Permutation (filter (fun t => t <? B + N) (map snd pend)) ((if t <? B + N then [t] else []) ++ filter (fun t => t <? B + N) (map snd (l1 ++ l2)))).
      { rewrite El, !map_app, !filter_app. cbn [map snd filter]. destruct (t <? B + N); cbn [app]; [symmetry; apply Permutation_middle|reflexivity]. }
      change (bigp (p, t)) with (B + N <=? t) in Hbig. cbv zeta in P4.
      set (d := q_count q' - (t + 1)). assert (Hd : d = 0 \/ (d = -1 /\ B + N <= t)) by (unfold d; lia).
      assert (Hcnt : d = 0 \/ B + N <= w_count w + d) by (destruct (B + N <=? t) eqn:?; lia).
      assert (Hmin : Z.min (w_count w + d) (B + N) = Z.min (w_count w) (B + N)) by (destruct (B + N <=? t) eqn:?; lia).
      assert (Hpt : t < B + N -> t < w_count w).
      { intros Hl. assert (Hx : In t (zrange B (Z.min (w_count w) (B + N)))).
        { eapply Permutation_in; [exact P3|]. rewrite Hsmall. replace (t <? B + N) with true by lia. cbn. auto. }
        apply in_zrange in Hx. lia. }
      constructor; cbn [w_count set_proc]; fold d.
      + destruct Hcnt; unfold N in *; lia.
      + intros p'. unfold proc_ok, lim. cbn [w_procs set_proc w_count]. destruct (Nat.eqb p p') eqn:E; cbn [p_qr p_pending].
        * split; [exact C1|]. destruct (Z.lt_ge_cases t (B + N)) as [Hl|Hl].
          -- left. exists (t + 1). specialize (Hpt Hl). split; [lia|]. split; [lia|]. apply C3, Hl.
          -- right. split; [destruct (B + N <=? t) eqn:?; lia|]. intros He. apply C4; assumption.
        * destruct (W2 p') as [O1' O2']. unfold lim in O2'. split; [exact O1'|]. destruct (p_pending (w_procs w p')) as [t'|];
          (destruct O2' as [(k & K1 & K2 & K3)|[K1 K2]]; [left; exists k; split; [exact K1|split; [lia|exact K3]]|right; split; [lia|exact K2]]).
      + apply Forall_app. split; [exact W3|]. constructor; [|constructor]. split; [cbn; exact Hbt|]. cbn [res_t fst snd]. split.
        * intros Hl. apply C3, Hl.
        * intros Hl He. apply C4; assumption.
      + exists (l1 ++ l2). split; [exact Hndl|]. split; [|split].
        * intros p' t'. cbn [w_procs set_proc]. destruct (Nat.eqb p p') eqn:E.
          -- apply Nat.eqb_eq in E. subst p'. cbn. split; [|discriminate]. intros Hi. exfalso. apply Hnl, in_map_iff. exists (p, t'). auto.
          -- rewrite <- P2, El, !in_app_iff. cbn. split; [tauto|]. intros [Hi|[[= ? ?]|Hi]]; auto. subst. rewrite Nat.eqb_refl in E. discriminate.
        * rewrite Hmin, <- P3, Hsmall, (map_app res_t), (filter_app _ (map res_t res)). cbn [map filter].
          change (res_t (p, t, o)) with t.
          destruct (t <? B + N); cbn [app]; [|rewrite app_nil_r; reflexivity].
          rewrite app_assoc. symmetry. apply Permutation_cons_append.
        * cbv zeta. destruct (B + N <=? t) eqn:?; lia.
  Qed.

  Lemma winv_run evs : forall w res w' res', winv w res -> wrun (S fuel) h evs w = (w', res') -> winv w' (res ++ res').
  Proof.
    induction evs as [|ev evs IH]; intros w res w' res' Hw H; cbn [wrun] in H.
    - injection H as <- <-. rewrite app_nil_r. exact Hw.
    - destruct (wstep (S fuel) h ev w) as [w1 r1] eqn:E1. destruct (wrun (S fuel) h evs w1) as [w2 r2] eqn:E2. injection H as <- <-.
      rewrite app_assoc. eapply IH; [|exact E2]. eapply winv_step; eassumption.
  Qed.
End World.
