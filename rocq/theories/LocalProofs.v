(** Proofs for C82 (local data loader workers). *)
From Verif Require Import Base MixtureKeyModel MixtureKeyProofs UtilsModel UtilsProofs ChunkGenModel SpecChunk ConcurrentModel
  ChunkGenProofs1 ChunkGenProofs2 ChunkGenProofs3 ChunkGenProofs4 ChunkGenProofs5 ChunkGenProofs6 ChunkGenProofs10 ChunkGenProofs11
  DistributorModel LocalModel SpecLocal.
From Coq Require Import ZifyBool ZifyNat.
Open Scope Z_scope.

(** ** The distributor of one worker process *)
Record wdist_ok (nw w : Z) (s : dist rchunk) : Prop := {
  wd_dp : d_dp s = 1; wd_nodes : d_nodes s = 1; wd_nw : d_nw s = nw; wd_w : 0 <= w < nw;
  wd_next : exists i, aget p3_eqb (0, 0, w) (d_next s) = Some i /\ w <= i /\
    ((d_cache s = [] /\ d_usage s = []) \/
     exists ck u, 0 <= i - nw /\ d_cache s = [((0, i - nw), ck)] /\ d_usage s = [((0, i - nw), u)])
}.

Lemma p3_eqb_true a b : p3_eqb a b = true <-> a = b.
Proof.
  destruct a as [[a1 a2] a3], b as [[b1 b2] b3]. unfold p3_eqb, p2_eqb. cbn [fst snd].
  rewrite !andb_true_iff, !Z.eqb_eq. split; [intros [[-> ->] ->]; reflexivity|intros [= -> -> ->]; auto].
Qed.

Lemma p3_refl a : p3_eqb a a = true.
Proof. apply p3_eqb_true. reflexivity. Qed.

Lemma p2_eqb_z a b c : p2_eqb (a, b) (a, c) = (b =? c).
Proof. unfold p2_eqb. cbn [fst snd]. rewrite Z.eqb_refl. reflexivity. Qed.

Lemma next_aset w (i : Z) (l : list (p3 * Z)) : aget p3_eqb (0, 0, w) (aset p3_eqb (0, 0, w) i l) = Some i.
Proof.
  induction l as [|[k v] l IH]; cbn [aset]; [cbn [aget]; rewrite p3_refl; reflexivity|].
  destruct (p3_eqb (0, 0, w) k) eqn:E; cbn [aget]; rewrite E; [reflexivity|exact IH].
Qed.

(** Every element of the stream asks the query result; the answer is handed through. *)
Lemma wdist_next nw w s src : wdist_ok nw w s ->
  exists s', next_chunk_for src 0 0 w true s
             = (s', match src (d_calls s) with QChunk c => DChunk false c 0 | QNone | QStop => DStop | QErr e => DErr e end)
    /\ wdist_ok nw w s' /\ d_calls s' = S (d_calls s).
Proof.
  intros [H1 H2 H3 H4 (i & Hi & Hw & Hc)]. unfold next_chunk_for, guaranteed_server. rewrite H1, H2, H3.
  replace (negb (0 <? 1) || negb (0 <? 1) || negb (w <? nw)) with false by lia.
  replace (d_forked s && ((1 <? 1) || (1 <? 1))) with false by (rewrite andb_false_r; reflexivity). rewrite Hi.
  assert (Hn : aget p2_eqb (0, i) (d_cache s) = None).
  { destruct Hc as [[-> _]|(ck & u & E0 & -> & _)]; [reflexivity|]. cbn [aget]. rewrite p2_eqb_z.
    replace (i =? i - nw) with false by lia. reflexivity. }
  rewrite Hn. destruct (src (d_calls s)) as [c| | |e].
  2-4: eexists; split; [reflexivity|]; split; [|reflexivity]; constructor; cbn; auto; exists i; auto.
  unfold hand_out. cbn [negb].
  destruct Hc as [[Ec Eu]|(ck & u & E0 & Ec & Eu)]; rewrite Ec, Eu; cbn [aset].
  - cbn [aget]. rewrite p2_eqb_z, Z.eqb_refl. rewrite H2, H3. unfold amem. cbn [aget]. rewrite !p2_eqb_z.
    replace (i - nw =? i) with false by lia. rewrite !andb_false_r. cbn [andb].
    eexists. split; [reflexivity|]. split; [|reflexivity]. constructor; cbn [with_dist d_dp d_nodes d_nw d_next d_cache d_usage]; auto.
    exists (i + nw). split; [apply next_aset|]. split; [lia|]. right. exists (c, 0), (0 + 1).
    replace (i + nw - nw) with i by lia. split; [lia|]. split; [reflexivity|].
    cbn [aset]. rewrite ?p2_eqb_z, ?Z.eqb_refl. reflexivity.
  - assert (X1 : (i =? i - nw) = false) by lia. assert (X2 : (i - nw =? i) = false) by lia.
    repeat (unfold amem; cbn [aget aset adel]; rewrite ?p2_eqb_z, ?X1, ?X2, ?Z.eqb_refl, ?H2, ?H3).
    change (1 <=? 0 + 1) with true. replace (0 <=? i - nw) with true by lia. cbn [andb negb].
    repeat (unfold amem; cbn [aget aset adel]; rewrite ?p2_eqb_z, ?X1, ?X2, ?Z.eqb_refl, ?H2, ?H3).
    eexists. split; [reflexivity|]. split; [|reflexivity]. constructor; cbn [with_dist d_dp d_nodes d_nw d_next d_cache d_usage]; auto.
    exists (i + nw). split; [apply next_aset|]. split; [lia|]. right. exists (c, 0), (0 + 1).
    replace (i + nw - nw) with i by lia. split; [lia|]. split; reflexivity.
Qed.

Lemma wdist_asks nw w s : wdist_ok nw w s -> asks w s = true.
Proof.
  intros H. unfold asks. destruct (wdist_next nw w s (fun _ => QNone) H) as (s' & E & _ & Ed). rewrite E. cbn [fst]. rewrite Ed.
  replace (Nat.eqb (S (d_calls s)) (d_calls s)) with false; [reflexivity|]. symmetry. apply Nat.eqb_neq. lia.
Qed.

Lemma all_slots_11 nw : all_slots 1 1 nw = map (fun w => (0, 0, w)) (zrange 0 nw).
Proof. unfold all_slots. change (zrange 0 1) with [0]. cbn [flat_map]. rewrite !app_nil_r. reflexivity. Qed.

Lemma init_next w l : In w l -> aget p3_eqb (0, 0, w) (map (fun t => (t, snd t)) (map (fun w => (0, 0, w)) l)) = Some w.
Proof.
  induction l as [|x l IH]; [intros []|]. intros Hin. cbn [map aget snd]. destruct (p3_eqb (0, 0, w) (0, 0, x)) eqn:E.
  - apply p3_eqb_true in E. injection E as ->. reflexivity.
  - destruct Hin as [-> |Hin]; [rewrite p3_refl in E; discriminate|apply IH, Hin].
Qed.

(** What registering a job for one node and one group gives (chunk_distributor.py 29-90). *)
Lemma wdist_init nw cached calls s w : dist_init 1 1 nw cached calls = Ok s -> 0 <= w < (if 0 <? nw then nw else 1) ->
  wdist_ok (if 0 <? nw then nw else 1) w (fork s).
Proof.
  unfold dist_init. cbn [Z.ltb]. change (1 <? 1) with false. cbv beta iota zeta. intros [= <-] Hw.
  constructor; cbn [fork d_dp d_nodes d_nw d_next d_cache d_usage]; auto. exists w. split; [|split; [lia|auto]].
  rewrite all_slots_11. apply init_next. apply in_zrange. exact Hw.
Qed.

(** ** Subsequences *)
Lemma ss_empty {A} (b : list A) : subseq [] b.
Proof. induction b; constructor; assumption. Qed.

Lemma ss_prefix {A} (a b : list A) : subseq a b -> forall c, subseq a (b ++ c).
Proof. induction 1; intros c; cbn; [apply ss_empty|constructor; auto..]. Qed.

Lemma ss_snoc {A} (a b : list A) x : subseq a b -> subseq (a ++ [x]) (b ++ [x]).
Proof. induction 1; cbn; constructor; auto. constructor. Qed.

Lemma ss_firstn {A} (a cs : list A) i j : (i <= j)%nat -> subseq a (firstn i cs) -> subseq a (firstn j cs).
Proof.
  intros Hij H. rewrite <- (firstn_skipn i (firstn j cs)), firstn_firstn. replace (Nat.min i j) with i by lia. apply ss_prefix, H.
Qed.

Lemma firstn_snoc_nth {A} (cs : list A) c : forall j, nth_error cs j = Some c -> firstn (S j) cs = firstn j cs ++ [c].
Proof.
  induction cs as [|x cs IH]; intros [|j] H; cbn in *; try discriminate; [injection H as ->; reflexivity|]. f_equal. apply IH, H.
Qed.

Lemma ss_add {A} (a cs : list A) c i j : (i <= j)%nat -> nth_error cs j = Some c -> subseq a (firstn i cs) ->
  subseq (a ++ [c]) (firstn (S j) cs).
Proof. intros Hij Hn H. rewrite (firstn_snoc_nth _ _ _ Hn). apply ss_snoc. eapply ss_firstn; eassumption. Qed.

Lemma delivered_to_snoc p res p' o : delivered_to p (res ++ [(p', o)])
  = delivered_to p res ++ (if Nat.eqb p p' then match o with LChunk c => [c] | _ => [] end else []).
Proof.
  unfold delivered_to, delivered. rewrite filter_app, flat_map_app. cbn [filter fst]. destruct (Nat.eqb p p'); cbn; [|reflexivity].
  rewrite app_nil_r. reflexivity.
Qed.

(** ** The world *)
Section World.
  Variables (F fuel : nat) (idx : index) (order : list mkey) (h : heap) (r : ref).
  Variables (q0 qN : qr) (g0 gN : gstate) (cs : list rchunk).
  Let B := q_count q0.
  Let N := Z.of_nat (length cs).
  Hypothesis Hh : heap_ok h.
  Hypothesis H0 : ready idx order r q0 g0.
  Hypothesis HN : ready idx order r qN gN.
  Hypothesis Hch : chain F idx h r gN (q_self qN) g0 (q_self q0) cs.
  Hypothesis HqN : q_count qN = B + N.
  Hypothesis Hfuel : (F + length cs <= fuel)%nat.
  Hypothesis Hend : snd (qr_next (S F) h qN) = NNone \/ snd (qr_next (S F) h qN) = NStop.
  Variables (nw : Z) (wid : nat -> Z).

  Let winv' := winv F idx order h r q0 qN gN cs.
  Let at_pos' := at_pos F idx order h r q0 qN gN cs.

  (** A call of a worker that is still at a chunk, with a number beyond the last chunk: the end. *)
  Lemma call_end q t k : base_ok idx order r q -> B + N <= t -> B <= k <= B + N -> at_pos' q k ->
    forall q' o, qr_next (S fuel) h (set_count q t) = (q', o) -> o = NNone \/ o = NStop.
  Proof.
    intros Hb Ht Hk (g & Hg1 & Hg2 & Hg3) q' o H. destruct Hb as [R3 R4 R5 R6]. rewrite (next_send idx order r) in H by assumption.
    destruct (gen_send (S fuel) idx h (qgen idx order q) (q_self q) r t) as [[gn' sf'] out] eqn:Es.
    rewrite Hg1 in Es. cbn [gen_send] in Es. fold (ret r t g) in Es. fold B in Hg3.
    destruct (chain_end F idx h r gN (q_self qN) _ g (q_self q) (fuel - length (skipn (Z.to_nat (k - B)) cs)) t Hg3) as [E|E].
    { rewrite skipn_length. unfold N in *. lia. }
    2:{ rewrite skipn_length in E. lia. }
    replace (fuel - length (skipn (Z.to_nat (k - B)) cs) + length (skipn (Z.to_nat (k - B)) cs))%nat with fuel in E by (rewrite skipn_length; lia).
    rewrite E in Es. destruct (ended_loop F idx order h r qN gN HN Hend) as (gn & sf1 & out1 & L1 & L2).
    destruct (end_out F idx h r gN (q_self qN) gn sf1 out1 (fuel - length (skipn (Z.to_nat (k - B)) cs)) t Hh L1 L2) as (gn2 & X1 & X2).
    { rewrite skipn_length. lia. }
    rewrite X1 in Es. injection Es as <- <- <-. destruct L2; subst out1; destruct (q_son q); injection H as <- <-; auto.
  Qed.

  Definition conv (o : nout) : lout := match o with NChunk c => LChunk c | NNone | NStop => LEnd | NErr e => LRaise e end.

  Record linv (lw : lworld) (lres : list (nat * lout)) : Prop := {
    li_world : exists w res, w_count w = lw_count lw
      /\ (forall p, p_qr (w_procs w p) = l_qr (lw_procs lw p) /\ p_pending (w_procs w p) = l_pend (lw_procs lw p))
      /\ winv' w res /\ lres = map (fun x => (fst (fst x), conv (snd x))) res
      /\ (forall p, exists k, B <= k <= B + N /\ subseq (delivered_to p lres) (firstn (Z.to_nat (k - B)) cs)
            /\ (l_done (lw_procs lw p) = false -> k <= lim w p /\ at_pos' (l_qr (lw_procs lw p)) k));
    li_dist : forall p, wdist_ok nw (wid p) (l_dist (lw_procs lw p));
    li_pend : forall p t, l_pend (lw_procs lw p) = Some t -> l_done (lw_procs lw p) = false;
    li_full : some_stream_ended lres -> B + N <= lw_count lw;
    li_err : forall p o, In (p, o) lres -> (exists c, o = LChunk c) \/ o = LEnd
  }.

  Lemma linv_init s : (forall p, wdist_ok nw (wid p) (fork s)) -> linv (lforked q0 s) [].
  Proof.
    intros Hd. constructor.
    - exists (forked q0), []. split; [reflexivity|]. split; [intros p; split; reflexivity|]. split; [|split; [reflexivity|]].
      + eapply winv_init; eassumption.
      + intros p. exists B. split; [lia|]. split; [apply ss_empty|]. intros _. cbn. unfold lim. cbn. fold B. split; [lia|].
        destruct H0 as [R1 R2 R3 R4 R5 R6]. exists g0. split; [exact R1|]. split; [exact R2|]. fold B. rewrite Z.sub_diag. exact Hch.
    - intros p. apply Hd.
    - intros p t. discriminate.
    - intros (p & []).
    - intros p o [].
  Qed.

  Lemma big_pend w res p t : winv' w res -> p_pending (w_procs w p) = Some t -> B + N <= t -> B + N + 1 <= w_count w.
  Proof.
    intros [W1 W2 W3 (pend & P1 & P2 & P3 & P4)] Hp Ht. apply P2 in Hp. cbv zeta in P4.
    assert (Hin : In (p, t) (filter (bigp q0 cs) pend)). { apply filter_In. split; [exact Hp|]. unfold bigp. cbn [snd]. fold B N. lia. }
    fold B N in P4. destruct (filter (bigp q0 cs) pend); [destruct Hin|]. cbn [length] in P4. lia.
  Qed.

  Lemma in_res_count w res x : winv' w res -> In x res -> res_t x < B + N -> res_t x < w_count w.
  Proof.
    intros [W1 W2 W3 (pend & P1 & P2 & P3 & P4)] Hin Ht. fold B N in P3.
    assert (Hx : In (res_t x) (zrange B (Z.min (w_count w) (B + N)))).
    { eapply Permutation_in; [exact P3|]. apply in_or_app. right. apply filter_In. split; [apply in_map, Hin|lia]. }
    apply in_zrange in Hx. lia.
  Qed.

  Lemma linv_step ev lw lres lw' r' : linv lw lres -> lstep (S fuel) h wid ev lw = (lw', r') -> linv lw' (lres ++ r').
  Proof.
    intros HI H. destruct HI as [(w & res & A1 & A2 & A3 & A4 & A5) D P Fu Er]. destruct ev as [p|p]; cbn [lstep] in H.
    - destruct (l_pend (lw_procs lw p)) as [t|] eqn:Ep.
      { injection H as <- <-. rewrite app_nil_r. constructor; auto. exists w, res. auto. }
      destruct (l_done (lw_procs lw p)) eqn:Ed.
      { injection H as <- <-. rewrite app_nil_r. constructor; auto. exists w, res. auto. }
      rewrite (wdist_asks nw) in H by apply D. injection H as <- <-. rewrite app_nil_r.
      destruct (wstep (S fuel) h (Take p) w) as [w1 res1] eqn:E1.
      assert (HW : winv' w1 (res ++ res1)). { eapply winv_step; try eassumption. }
      cbn [wstep] in E1. rewrite (proj2 (A2 p)), Ep in E1. injection E1 as <- <-. rewrite app_nil_r in HW.
      constructor; cbn [lw_procs set_lproc lw_count].
      + exists (set_proc w p (w_count w + 1) (mkProc (p_qr (w_procs w p)) (Some (w_count w)))), res.
        cbn [w_count set_proc w_procs]. split; [lia|]. split; [|split; [exact HW|split; [exact A4|]]].
        * intros p'. destruct (Nat.eqb p p'); cbn; [rewrite A1; split; [apply A2|reflexivity]|apply A2].
        * intros p'. destruct (A5 p') as (k & K1 & Ks & K2). exists k. split; [exact K1|]. split; [exact Ks|].
          unfold lim in *. cbn [w_procs w_count set_proc]. destruct (Nat.eqb p p') eqn:E.
          -- apply Nat.eqb_eq in E. subst p'. cbn [l_qr p_pending]. intros _. destruct (K2 Ed) as [K3 K4].
             rewrite (proj2 (A2 p)), Ep in K3. split; [lia|exact K4].
          -- intros Hd'. destruct (K2 Hd') as [K3 K4]. split; [|exact K4]. destruct (p_pending (w_procs w p')); lia.
      + intros p'. destruct (Nat.eqb p p') eqn:E; [apply Nat.eqb_eq in E; subst p'; cbn; apply D|apply D].
      + intros p' t. destruct (Nat.eqb p p'); [reflexivity|apply P].
      + intros X. specialize (Fu X). lia.
      + exact Er.
    - destruct (l_pend (lw_procs lw p)) as [t|] eqn:Ep.
      2:{ injection H as <- <-. rewrite app_nil_r. constructor; auto. exists w, res. auto. }
      destruct (qr_next (S fuel) h (set_count (l_qr (lw_procs lw p)) t)) as [q' o] eqn:Eq.
      destruct (wdist_next nw (wid p) (l_dist (lw_procs lw p)) (fun _ => to_qout o) (D p)) as (s' & En & Ds' & _).
      rewrite En in H. injection H as <- <-.
      destruct (wstep (S fuel) h (Finish p) w) as [w1 res1] eqn:E1.
      assert (HW : winv' w1 (res ++ res1)). { eapply winv_step; try eassumption. }
      cbn [wstep] in E1. rewrite (proj2 (A2 p)), Ep, (proj1 (A2 p)), Eq in E1. injection E1 as <- <-.
      assert (Eo : to_lout (match to_qout o with QChunk c => DChunk false c 0 | QErr e => DErr e | _ => DStop end) = conv o)
        by (destruct o; reflexivity). rewrite Eo. clear Eo En.
      destruct A3 as [W1 W2 W3 W4] eqn:EA3. clear EA3. destruct (W2 p) as [O1 _]. rewrite (proj1 (A2 p)) in O1.
      pose proof (P p t Ep) as Hlive. destruct (A5 p) as (k & K1 & Ks & K23). destruct (K23 Hlive) as [K2 K3]. unfold lim in K2. rewrite (proj2 (A2 p)), Ep in K2.
      destruct (call_ok F fuel idx order h r q0 qN g0 gN cs Hh H0 HN Hch Hfuel (l_qr (lw_procs lw p)) t O1) with (q' := q') (o := o) as (C1 & C2 & C3 & C4).
      { fold B. lia. } { left. exists k. fold B N. split; [exact K1|]. split; [lia|exact K3]. } { exact Eq. }
      fold B N in C2, C3, C4.
      assert (Hcnt : (q_count q' = t + 1 /\ t < B + N) \/ (B + N <= t /\ t <= q_count q' <= t + 1 /\ B + N + 1 <= w_count w)).
      { destruct (Z.lt_ge_cases t (B + N)) as [Hl|Hl]; [left; lia|]. right. split; [exact Hl|]. split; [lia|].
        eapply big_pend; [exact A3| |exact Hl]. rewrite (proj2 (A2 p)). exact Ep. }
      constructor; cbn [lw_procs set_lproc lw_count].
      + exists (set_proc w p (w_count w + (q_count q' - (t + 1))) (mkProc q' None)), (res ++ [(p, t, o)]).
        cbn [w_count set_proc w_procs]. split; [lia|]. split; [|split; [exact HW|split; [|]]].
        * intros p'. destruct (Nat.eqb p p'); cbn; [split; reflexivity|apply A2].
        * rewrite map_app, A4. reflexivity.
        * intros p'. rewrite delivered_to_snoc. unfold lim. cbn [w_procs w_count set_proc]. rewrite (Nat.eqb_sym p' p).
          destruct (Nat.eqb p p') eqn:E; cbn [l_qr l_done p_pending] in *.
          -- apply Nat.eqb_eq in E. subst p'. destruct (Z.lt_ge_cases t (B + N)) as [Hl|Hl].
             ++ exists (t + 1). split; [lia|]. destruct (C3 Hl) as ((c & Cn & ->) & C5). split; [|intros _; split; [|exact C5]].
                ** cbn [conv]. replace (Z.to_nat (t + 1 - B)) with (S (Z.to_nat (t - B))) by lia.
                   eapply ss_add; [|exact Cn|exact Ks]. lia.
                ** assert (Hx : t < w_count w + (q_count q' - (t + 1))); [|lia].
                   pose proof (in_res_count _ _ (p, t, NChunk c) HW) as Y. cbn [w_count set_proc] in Y. unfold res_t in Y. cbn [fst snd] in Y.
                   apply Y; [|exact Hl]. apply in_or_app. right. cbn. auto.
             ++ destruct (C4 Hl Hend) as [Hnc _]. exists k. split; [exact K1|].
                destruct o; cbn in Hnc |- *; try tauto; rewrite app_nil_r; (split; [exact Ks|discriminate]).
          -- destruct (A5 p') as (k' & K1' & Ks' & K2'). exists k'. split; [exact K1'|]. rewrite app_nil_r. split; [exact Ks'|].
             intros Hd'. destruct (K2' Hd') as [K3' K4']. unfold lim in K3'. split; [|exact K4'].
             destruct (p_pending (w_procs w p')); lia.
      + intros p'. destruct (Nat.eqb p p') eqn:E; [apply Nat.eqb_eq in E; subst p'; cbn; exact Ds'|apply D].
      + intros p' t'. destruct (Nat.eqb p p'); [discriminate|apply P].
      + intros (p1 & Hin). apply in_app_iff in Hin as [Hin|Hin].
        * assert (X : B + N <= lw_count lw) by (apply Fu; exists p1; exact Hin). lia.
        * cbn in Hin. destruct Hin as [[= -> Ho]|[]]. destruct (Z.lt_ge_cases t (B + N)) as [Hl|Hl]; [|lia].
          destruct (C3 Hl) as ((c & _ & ->) & _). discriminate.
      + intros p1 o1 Hin. apply in_app_iff in Hin as [Hin|Hin]; [eapply Er; exact Hin|]. cbn in Hin. destruct Hin as [[= <- <-]|[]].
        destruct (Z.lt_ge_cases t (B + N)) as [Hl|Hl].
        * destruct (C3 Hl) as ((c & _ & ->) & _). left. exists c. reflexivity.
        * right. destruct (call_end _ t k O1 Hl K1 K3 _ _ Eq) as [-> | ->]; reflexivity.
  Qed.

  Lemma linv_run evs : forall lw lres lw' r', linv lw lres -> lrun (S fuel) h wid evs lw = (lw', r') -> linv lw' (lres ++ r').
  Proof.
    induction evs as [|ev evs IH]; intros lw lres lw' r' Hw H; cbn [lrun] in H.
    - injection H as <- <-. rewrite app_nil_r. exact Hw.
    - destruct (lstep (S fuel) h wid ev lw) as [w1 r1] eqn:E1. destruct (lrun (S fuel) h wid evs w1) as [w2 r2] eqn:E2. injection H as <- <-.
      rewrite app_assoc. eapply IH; [|exact E2]. eapply linv_step; eassumption.
  Qed.
End World.
