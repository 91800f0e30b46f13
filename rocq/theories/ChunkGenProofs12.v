(** Internal errors of [next()] (C50): none for positive mixtures; the id table covers the requested keys. *)
From Verif Require Import Base MixtureKeyModel MixtureKeyProofs UtilsModel UtilsProofs ChunkGenModel SpecChunk ChunkGenProofs1
  ChunkGenProofs2 ChunkGenProofs3 ChunkGenProofs4 ChunkGenProofs5 ChunkGenProofs6 ChunkGenProofs7 ChunkGenProofs9.
From Coq Require Import ZifyBool ZifyNat.
Open Scope Z_scope.

Lemma same_dict_keys a b : same_dict a b -> incl (map fst a) (map fst b).
Proof.
  intros H k Hk. destruct (aget_some_in _ mkey_eqb_spec k a Hk) as [v E]. rewrite (H k) in E.
  apply (aget_in _ mkey_eqb_spec), (in_map fst) in E. exact E.
Qed.

Definition cov (q : qr) (prev : option (list (mkey * Z))) : Prop :=
  forall rows, prev = Some rows -> incl (map fst rows) (map fst (q_kid q)).

Lemma bump_same prev id g rows : ghost prev id g -> NoDup (map fst rows) -> rows <> [] -> bump g rows = false ->
  exists p, prev = Some p /\ same_dict p rows.
Proof.
  intros [_ H] Hnd Hne Hb. destruct rows as [|kv rows']; [contradiction|]. set (rows := kv :: rows') in *.
  unfold bump in Hb. destruct prev as [p|].
  - destruct H as (_ & _ & Hp & p0 & E & Hs & Hn0). exists p. split; [reflexivity|]. unfold rows in Hb. rewrite E in Hb.
    destruct p0 as [|kv0 p0']; [discriminate|]. cbn [to_prev prev_differs] in Hb. apply negb_false_iff in Hb.
    apply dict_eqb_spec in Hb; auto. intros k. rewrite <- (Hs k). apply Hb.
  - destruct H as (_ & E & _). unfold rows in Hb. rewrite E in Hb. discriminate.
Qed.
Lemma same_bump prev id g p rows : ghost prev id g -> NoDup (map fst rows) -> rows <> [] -> prev = Some p -> same_dict p rows ->
  bump g rows = false.
Proof.
  intros [_ H] Hnd Hne -> Hs. destruct H as (_ & _ & Hp & p0 & E & Hs0 & Hn0).
  destruct rows as [|kv rows']; [contradiction|]. set (rows := kv :: rows') in *.
  unfold bump. unfold rows. fold rows. rewrite E.
  destruct p0 as [|kv0 p0'].
  - exfalso. specialize (Hs (fst kv)). specialize (Hs0 (fst kv)). cbn in Hs0. rewrite <- Hs0 in Hs. unfold rows in Hs.
    destruct kv as [k v]. cbn in Hs. rewrite mkey_eqb_refl in Hs. discriminate.
  - cbn [to_prev prev_differs]. apply negb_false_iff. apply dict_eqb_spec; auto. intros k. rewrite (Hs0 k). apply Hs.
Qed.

Section Errs.
  Context (idx : index) (order : list mkey).
  Hypothesis Hix : index_ok idx.
  Hypothesis Hord : Permutation order (map fst idx).

  Lemma gen_loop_arb_err fuel h g sf gn' sf' out : heap_ok h -> ginv idx order g -> kid_ok (s_kid sf) ->
    incl (map fst idx) (map fst (s_kid sf)) -> g_cur g = g_target g -> m_rows (h (g_base g)) = [] ->
    gen_loop (S fuel) idx h g sf = (gn', sf', out) -> forall e, out = YErr e -> e = OutOfFuel.
  Proof.
    intros Hh [G1 G2 G3 G4 G5] Hk Hcov Hct Hrows H e ->. cbn [gen_loop] in H. destruct (10 <? g_fail g); [discriminate|].
    rewrite Hrows in H. pose proof (note_arbitrary_g g sf) as Hn.
    assert (Hkid : s_kid (snd (note_arbitrary g sf)) = s_kid sf) by (unfold note_arbitrary; destruct (_ || _); reflexivity).
    destruct (note_arbitrary g sf) as [g1 sf1]. destruct Hn as (N1 & N2 & N3 & N4 & N5 & N6 & N7 & N8). cbn [snd] in Hkid.
    rewrite N1, N2, N3, N4, N6, N7, Hct, Z.eqb_refl in H. rewrite G1 in H.
    match type of H with context [round_robin ?fu ?a ?b ?c ?d ?e] =>
      destruct (round_robin fu a b c d e) as [[[comps' kidx'] empty'] ro] eqn:Err end.
    apply round_robin_spec in Err as (Hres & _ & _); auto; [|apply Hh].
    inversion Hres as [key p st st' Hkin Hget Hsend E1 E2|Hexh E1 E2|E1 E2]; subst ro.
    - assert (Hknown : keys_known [(key, p)] (s_kid sf1) = true).
      { cbn. rewrite andb_true_r, Hkid. unfold amem.
        destruct (aget_some_in _ mkey_eqb_spec key (s_kid sf)) as [v Ev]; [|rewrite Ev; reflexivity].
        apply Hcov. eapply Permutation_in; [exact Hord|exact Hkin]. }
      rewrite Hknown in H. discriminate.
    - discriminate.
    - congruence.
  Qed.

  (** One call: the requested keys have ids, and the only errors are those of non-positive mixtures or a livelock. *)
  Lemma qnext_clean fuel h q os inst held prev id q' o :
    heap_ok h -> qinv idx order q os -> kidinv idx q -> hist idx order q inst held prev id -> cov q prev ->
    let rows := m_rows (h (held_of inst held)) in
    (held <> None -> exists p, prev = Some p /\ same_dict p rows) ->
    qr_next (S fuel) h q = (q', o) ->
    (ChunkGenProofs5.qgen idx order q' <> GDone -> cov q' (Some rows)) /\ (forall e, o = NErr e ->
      (rows = [] /\ e = OutOfFuel) \/ (rows <> [] /\ e = ZeroDivisionError /\ m_strict (h (held_of inst held)) = false
        /\ exists k, In k (map fst rows) /\ asked rows k = 0)).
  Proof.
    intros Hh Hq [K1 K2 K3] Hi Hcov rows Hheld H. pose proof (qr_next_kid _ _ _ _ _ H K2) as (Q1 & Q2 & _).
    destruct Hi as [H1 H2 H3 H4 H5]. pose proof (qi_gen _ _ _ _ Hq) as Hg.
    unfold qr_next in H. rewrite H2, H3 in H.
    change (match q_gen q with Some g => g | None => gen_init idx order end) with (ChunkGenProofs5.qgen idx order q) in H.
    assert (Hb : (match q_gen q with None => true | Some _ => false end) && negb (q_nret q =? 0) = false).
    { destruct (q_gen q); [reflexivity|]. rewrite H4 by reflexivity. reflexivity. }
    rewrite Hb in H. clear Hb.
    destruct (gen_send (S fuel) idx h (ChunkGenProofs5.qgen idx order q) (q_self q) (s_mix (q_self q)) (q_count q)) as [[gn' sf'] out] eqn:Es.
    assert (Hkid : q_kid q' = s_kid sf') by (destruct out; injection H as <- <-; reflexivity).
    assert (Hmain : forall g, ginv idx order g -> g_cur g = g_target g -> h (g_base g) = h (held_of inst held) ->
              ghost prev id g -> (g_base g = s_mix (q_self q) \/ exists p, prev = Some p /\ same_dict p rows) ->
              gen_loop (S fuel) idx h g (q_self q) = (gn', sf', out) ->
              (gn' <> GDone \/ (exists e, out = YErr e) -> incl (map fst rows) (map fst (s_kid sf'))) /\ (forall e, out = YErr e ->
                (rows = [] /\ e = OutOfFuel) \/ (rows <> [] /\ e = ZeroDivisionError /\ m_strict (h (held_of inst held)) = false
                  /\ exists k, In k (map fst rows) /\ asked rows k = 0))).
    { intros g Gi Gc Gb Gg Gor GL.
      assert (Hrnd : NoDup (map fst rows)) by apply Hh.
      assert (Hinc : gn' <> GDone \/ (exists e, out = YErr e) -> incl (map fst rows) (map fst (s_kid sf'))).
      { intros Hns. destruct (gen_loop_once _ _ _ _ _ _ _ _ Gc GL) as [(_ & -> & _ & ->)|(_ & -> & _)]; [destruct Hns as [Hns|[? Hns]]; congruence|].
        destruct rows as [|kv rows'] eqn:Er; [intros k []|]. rewrite <- Er in *. assert (Hne : rows <> []) by congruence.
        destruct (bump g rows) eqn:Eb.
        - unfold noted. rewrite Gb. fold rows. rewrite Er. unfold note_mixture. fold rows.
          unfold bump in Eb. rewrite Er in Eb. rewrite <- Er in Eb. rewrite Eb. cbn [snd s_kid].
          destruct Gor as [Gor|(p & Hp & Hs)].
          + rewrite <- Gor, Gb. fold rows. rewrite <- Er. exact (proj1 (proj2 (proj2 (update_kid_spec idx rows _ K2)))).
          + exfalso. assert (Hx : bump g rows = false) by (eapply same_bump; eauto). unfold bump in Hx. rewrite Er in Hx. rewrite <- Er in Hx. congruence.
        - destruct (bump_same prev id g rows Gg Hrnd Hne Eb) as (p & Hp & Hs).
          intros k Hk. assert (Hkk : In k (map fst (q_kid q))).
          { apply (Hcov p Hp). apply (same_dict_keys rows p); [intros k'; symmetry; apply Hs|exact Hk]. }
          destruct (noted_kid idx h g (q_self q)) as [En|[_ En]]; rewrite En; [exact Hkk|].
          apply (kid_ext_keys _ _ (proj1 (proj2 (update_kid_spec idx (m_rows (h (s_mix (q_self q)))) _ K2)))). exact Hkk. }
      split; [exact Hinc|]. intros e ->. specialize (Hinc ltac:(eauto)).
      destruct rows as [|kv rows'] eqn:Er.
      - left. split; [reflexivity|]. eapply gen_loop_arb_err; [exact Hh|exact Gi|exact K2|exact K3|exact Gc| |exact GL|reflexivity]. rewrite Gb. exact Er.
      - rewrite <- Er in *. right. assert (Hne : rows <> []) by congruence. split; [exact Hne|].
        apply gen_loop_mixture in GL as [E1 _]; [|exact Hh|exact Gc|rewrite Gb; exact Hne].
        destruct (E1 e eq_refl) as [(E & E' & E'')|(E & k & Hk1 & Hk2)].
        + rewrite Gb in *. auto.
        + exfalso. apply Hk2, Hinc. rewrite Gb in Hk1. exact Hk1. }
    destruct (ChunkGenProofs5.qgen idx order q) as [g|g|] eqn:Eq.
    - destruct H5 as (-> & Hc & Hgh & _). cbn [gen_send] in Es. cbn [held_of] in *.
      apply Hmain in Es as [M1 M2].
      + split.
        * intros Hns r' [= <-]. rewrite Hkid. apply M1. left. intros ->. apply Hns. destruct out; injection H as <- <-; reflexivity.
        * intros e ->. apply M2. destruct out; injection H as _ H; try discriminate; try congruence. destruct (q_son q); discriminate.
      + destruct Hg as [G1 G2 G3 G4 G5]. constructor; assumption.
      + exact Hc.
      + cbn [g_base]. rewrite H1. reflexivity.
      + exact Hgh.
      + left. reflexivity.
    - destruct H5 as (-> & Hc & Ht & Hgh & _). cbn [gen_send] in Es. cbn [held_of] in *.
      apply Hmain in Es as [M1 M2].
      + split.
        * intros Hns r' [= <-]. rewrite Hkid. apply M1. left. intros ->. apply Hns. destruct out; injection H as <- <-; reflexivity.
        * intros e ->. apply M2. destruct out; injection H as _ H; try discriminate; try congruence. destruct (q_son q); discriminate.
      + exact Hg.
      + congruence.
      + reflexivity.
      + exact Hgh.
      + right. apply Hheld. discriminate.
    - cbn in Es. injection Es as <- <- <-. injection H as <- <-. split; [intros Hx; exfalso; apply Hx; reflexivity|discriminate].
  Qed.

  Lemma run_clean fuel ops : forall q os0 inst held prev id q' os,
    Forall (fun o => heap_ok (op_heap o)) ops -> qinv idx order q os0 -> kidinv idx q -> hist idx order q inst held prev id ->
    (ChunkGenProofs5.qgen idx order q <> GDone -> cov q prev) ->
    (forall m, held <> None -> nth_error (working ops os inst held) 0 = Some m -> exists p, prev = Some p /\ same_dict p (m_rows m)) ->
    (forall i m m', (forall c, nth_error os i <> Some (NChunk c)) -> nth_error (working ops os inst held) i = Some m ->
       nth_error (working ops os inst held) (S i) = Some m' -> same_dict (m_rows m) (m_rows m')) ->
    qrun (S fuel) ops q = (q', os) ->
    forall i e m, nth_error os i = Some (NErr e) -> nth_error (working ops os inst held) i = Some m ->
      (m_rows m = [] /\ e = OutOfFuel) \/ (m_rows m <> [] /\ e = ZeroDivisionError /\ m_strict m = false
        /\ exists k, In k (map fst (m_rows m)) /\ asked (m_rows m) k = 0).
  Proof.
    induction ops as [|[h|h r] ops IH]; intros q os0 inst held prev id q' os Hh Hq Hk Hi Hc Hfirst Hst H i e m Hn Hw; cbn [qrun] in H.
    - injection H as <- <-. destruct i; discriminate.
    - inversion Hh as [|? ? Hh1 Hh2]; subst. destruct (qr_next (S fuel) h q) as [q1 o] eqn:E. destruct (qrun (S fuel) ops q1) as [q2 os2] eqn:E2.
      injection H as <- <-. rewrite working_cons in *.
      assert (Hstep : (ChunkGenProofs5.qgen idx order q1 <> GDone -> cov q1 (Some (m_rows (h (held_of inst held)))))
                /\ (forall e, o = NErr e -> (m_rows (h (held_of inst held)) = [] /\ e = OutOfFuel) \/ (m_rows (h (held_of inst held)) <> [] /\ e = ZeroDivisionError /\ m_strict (h (held_of inst held)) = false
        /\ exists k, In k (map fst (m_rows (h (held_of inst held)))) /\ asked (m_rows (h (held_of inst held))) k = 0))).
      { destruct (ChunkGenProofs5.qgen idx order q) as [g|g|] eqn:Eq.
        3:{ pose proof (hi_idx _ _ _ _ _ _ _ Hi) as H2. pose proof (hi_order _ _ _ _ _ _ _ Hi) as H3. pose proof (hi_gen _ _ _ _ _ _ _ Hi) as H4.
            unfold qr_next in E. rewrite H2, H3 in E.
            change (match q_gen q with Some g => g | None => gen_init idx order end) with (ChunkGenProofs5.qgen idx order q) in E.
            assert (Hb : (match q_gen q with None => true | Some _ => false end) && negb (q_nret q =? 0) = false).
            { destruct (q_gen q); [reflexivity|]. rewrite H4 by reflexivity. reflexivity. }
            rewrite Hb, Eq in E. cbn in E. injection E as <- <-. split; [intros Hx; exfalso; apply Hx; reflexivity|discriminate]. }
        all: eapply (qnext_clean fuel h q os0 inst held prev id q1 o); eauto; try (apply Hc; rewrite Eq; discriminate); try (apply Hc; discriminate).
        all: intros Hheld; apply (Hfirst (h (held_of inst held)) Hheld); reflexivity. }
      destruct Hstep as [S1 S2]. destruct i as [|i]; cbn in Hn, Hw.
      + injection Hn as ->. injection Hw as <-. apply S2. reflexivity.
      + destruct (hist_next idx order fuel h q inst held prev id q1 o Hh1 Hi E) as (N1 & _).
        eapply (IH q1 (os0 ++ [o]) inst (new_held inst held o)); [exact Hh2| | |exact N1|exact S1| | |exact E2|exact Hn|exact Hw].
        * apply (qnext_inv idx order Hix (S fuel) h q os0 q1 o Hh1 Hq E).
        * eapply kidinv_next; eauto.
        * intros m0 Hheld Hm0. eexists. split; [reflexivity|].
          apply (Hst 0%nat (h (held_of inst held)) m0); [|reflexivity|exact Hm0].
          intros c Hc0. cbn in Hc0. injection Hc0 as ->. apply Hheld. reflexivity.
        * intros i0 m1 m2 Hnc H1 H2. apply (Hst (S i0) m1 m2); assumption.
    - inversion Hh as [|? ? Hh1 Hh2]; subst. cbn [working] in *.
      eapply (IH (qr_update_mixture h r q) os0 r held prev id); [exact Hh2|apply qupdate_inv, Hq|apply kidinv_update, Hk
        |apply hist_update with (inst := inst), Hi| |exact Hfirst|exact Hst|exact H|exact Hn|exact Hw].
      intros Hx rows Hr k Hkk. destruct Hk as [K1 K2 K3].
      destruct (update_kid_spec (q_idx q) (m_rows (h r)) (q_kid q) K2) as (U1 & U2 & U3 & U4).
      apply (kid_ext_keys _ _ U2). apply (Hc Hx rows Hr). exact Hkk.
  Qed.
End Errs.

(** ** A failing attempt (C51) *)
Definition row_eq_dec (a b : row) : {a = b} + {a <> b}.
Proof. decide equality; [apply Z.eq_dec|]. decide equality; apply Z.eq_dec. Defined.

Section Fail.
  Context (idx : index) (order : list mkey).
  Hypothesis Hix : index_ok idx.
  Hypothesis Hord : Permutation order (map fst idx).

  Lemma gen_loop_none fuel h g sf gn' sf' :
    heap_ok h -> g_cur g = g_target g -> m_rows (h (g_base g)) <> [] ->
    gen_loop (S fuel) idx h g sf = (gn', sf', YNone) ->
    exists g' ch, gn' = GNone g' /\ Permutation (comps_rows (g_comps g)) (all_rows ch ++ comps_rows (g_comps g'))
      /\ Z.of_nat (length (all_rows ch)) < zsum (map snd (m_rows (h (g_base g))))
      /\ (if m_strict (h (g_base g)) then exists mk, In mk (map fst (m_rows (h (g_base g)))) /\ dry mk (g_comps g')
         else forall mk, In mk (map fst (m_rows (h (g_base g)))) -> dry mk (g_comps g')).
  Proof.
    intros Hh Hct Hne H. pose proof (proj2 (gen_loop_mixture _ _ _ _ _ _ _ _ Hh Hct Hne H) eq_refl) as (g' & Eg & Hdry).
    exists g'. cbn [gen_loop] in H. destruct (10 <? g_fail g) eqn:Ef; [discriminate|].
    set (m := h (g_base g)) in *. destruct (m_rows m) as [|kv0 rows0] eqn:Erows; [contradiction|]. rewrite <- Erows in *.
    pose proof (note_mixture_g idx h g sf m) as Hn. destruct (note_mixture idx h g sf m) as [g1 sf1].
    destruct Hn as (N1 & N2 & N3 & N4 & N5 & N6 & N7 & N8). rewrite N6, N7, Hct, Z.eqb_refl in H.
    destruct (Hh (g_base g)) as [Hmok _]. fold m in Hmok.
    pose proof (run_attempt_out (m_strict m) (g_comps g1) (m_rows m) Hmok) as Hout.
    destruct (run_attempt (m_strict m) (g_comps g1) (m_rows m)) as [a|e] eqn:Eat; [|discriminate].
    destruct (att_success a) eqn:Esucc; [destruct (keys_known (a_chunk a) (s_kid sf1)); discriminate|].
    injection H as <- <-. injection Eg as <-. cbn [g_comps] in *. exists (a_chunk a). split; [reflexivity|].
    assert (Hperm : takes (map fst (m_rows m)) (acc_ (mkAtt (g_comps g1) [] (m_rows m) (m_rows m) true)) (acc_ a) ->
              Permutation (comps_rows (g_comps g)) (all_rows (a_chunk a) ++ comps_rows (a_comps a))).
    { intros T. apply takes_conserve in T. cbn in T. rewrite <- N2. exact T. }
    inversion Hout as [a' T A S Z C Nn E|a' mk T A S In_ P D M R' E|a' T S R' D Sz E|S ZZ E]; subst a'.
    - exfalso. cbn [a_rem] in Nn. specialize (Nn Hne).
      assert (Hall : forallb (fun kv => snd kv =? 0) (a_rem a) = true).
      { apply forallb_forall. intros [k v] Hin. cbn. pose proof (in_aget _ mkey_eqb_spec k v (a_rem a) (ai_rem _ _ A) Hin) as E1.
        specialize (Z k). unfold lookup0 in Z. rewrite E1 in Z. lia. }
      unfold att_success in Esucc. rewrite Hall in Esucc. destruct (a_rem a); [apply Nn; reflexivity|discriminate].
    - split; [apply Hperm, T|]. split; [|exact Hdry]. pose proof (ainv_total _ _ (proj1 Hmok) A). pose proof (rem_sum_ge _ _ _ A In_). lia.
    - split; [apply Hperm, T|]. split; [apply Sz; exact Hne|exact Hdry].
  Qed.

  (** As long as only chunks were returned, nothing is lost. *)
  Definition chunk_only (q : qr) (os : list nout) : Prop :=
    exists g, ChunkGenProofs5.qgen idx order q = GChunk g /\ g_fail g = 0
      /\ Permutation (all_rows idx) (flat_map (fun c => all_rows (rc_index c)) (chunks os) ++ comps_rows (g_comps g)).

  Lemma chunk_only_init h r son : chunk_only (qr_init idx order h r son) [].
  Proof. eexists. split; [reflexivity|]. split; [reflexivity|]. exact (gen_init_rows idx order Hix Hord). Qed.

  Lemma chunk_only_next fuel h q os inst held prev id q' c : heap_ok h -> qinv idx order q os -> hist idx order q inst held prev id ->
    chunk_only q os -> qr_next (S fuel) h q = (q', NChunk c) -> chunk_only q' (os ++ [NChunk c]).
  Proof.
    intros Hh Hq [H1 H2 H3 H4 H5] (g & Eg & Hf & Hp) H. pose proof (qi_gen _ _ _ _ Hq) as Hg. rewrite Eg in Hg.
    unfold qr_next in H. rewrite H2, H3 in H.
    change (match q_gen q with Some g => g | None => gen_init idx order end) with (ChunkGenProofs5.qgen idx order q) in H.
    assert (Hb : (match q_gen q with None => true | Some _ => false end) && negb (q_nret q =? 0) = false).
    { destruct (q_gen q); [reflexivity|]. rewrite H4 by reflexivity. reflexivity. }
    rewrite Hb in H. clear Hb. rewrite Eg in H, H5. cbn [gen_send] in H. destruct H5 as (-> & Hc & _).
    destruct (gen_loop _ _ _ _ _) as [[gn' sf'] out] eqn:GL.
    assert (Ho : out = YChunk c) by (destruct out; injection H as _ H; try discriminate; try congruence; destruct (q_son q); discriminate).
    subst out. injection H as <-.
    set (g0 := mkG _ _ _ _ _ _ _ _ _ _) in GL.
    assert (Gi : ginv idx order g0) by (destruct Hg as [G1 G2 G3 G4 G5]; constructor; assumption).
    assert (Gc : g_cur g0 = g_target g0) by exact Hc.
    destruct (gen_loop_spec idx order Hix h (S fuel) Hh g0 _ _ _ _ GL Gi) as (_ & (lost & P1 & P2) & _).
    rewrite (P2 Gc c eq_refl) in P1. cbn [app out_rows] in P1.
    destruct (gen_loop_once _ _ _ _ _ _ _ _ Gc GL) as [(_ & _ & _ & E)|(_ & _ & Ho)]; [discriminate|].
    inversion Ho as [g' c' O1 O2 O3 O4 O5 O6 O7 O8 E1 E2| | |]; subst.
    exists g'. split; [reflexivity|]. split.
    - destruct (m_rows (h (g_base g0))) eqn:Er; [rewrite O8 by reflexivity; exact Hf|apply O7; discriminate].
    - rewrite chunks_app, flat_map_app. cbn [chunks flat_map]. rewrite <- app_assoc. rewrite Hp. apply Permutation_app_head. cbn [chunks flat_map app]. rewrite app_nil_r. exact P1.
  Qed.

  Definition matches (m : mixobj) (k : mkey) (x : row) : Prop :=
    exists ck p, In (ck, p) idx /\ key_eq k ck = true /\ In x (rows_of p).

  Lemma fail_next fuel h q os inst held prev id q' o : heap_ok h -> qinv idx order q os -> hist idx order q inst held prev id ->
    chunk_only q os -> qr_next (S fuel) h q = (q', o) -> o = NNone \/ o = NStop -> m_rows (h (held_of inst held)) <> [] ->
    exists ks, incl ks (map fst (m_rows (h (held_of inst held)))) /\ ks <> []
      /\ (m_strict (h (held_of inst held)) = false -> ks = map fst (m_rows (h (held_of inst held))))
      /\ forall L, NoDup L -> (forall x, In x L -> (exists k, In k ks /\ matches (h (held_of inst held)) k x)
           /\ ~ In x (flat_map (fun c => all_rows (rc_index c)) (chunks os))) ->
         Z.of_nat (length L) < zsum (map snd (m_rows (h (held_of inst held)))).
  Proof.
    intros Hh Hq [H1 H2 H3 H4 H5] (g & Eg & Hf & Hp) H Ho Hne. pose proof (qi_gen _ _ _ _ Hq) as Hg. rewrite Eg in Hg.
    unfold qr_next in H. rewrite H2, H3 in H.
    change (match q_gen q with Some g => g | None => gen_init idx order end) with (ChunkGenProofs5.qgen idx order q) in H.
    assert (Hb : (match q_gen q with None => true | Some _ => false end) && negb (q_nret q =? 0) = false).
    { destruct (q_gen q); [reflexivity|]. rewrite H4 by reflexivity. reflexivity. }
    rewrite Hb in H. clear Hb. rewrite Eg in H, H5. cbn [gen_send] in H. destruct H5 as (-> & Hc & _). cbn [held_of] in *. subst inst.
    destruct (gen_loop _ _ _ _ _) as [[gn' sf'] out] eqn:GL.
    set (g0 := mkG _ _ _ _ _ _ _ _ _ _) in GL.
    assert (Gi : ginv idx order g0) by (destruct Hg as [G1 G2 G3 G4 G5]; constructor; assumption).
    assert (Gc : g_cur g0 = g_target g0) by exact Hc.
    assert (Hout : out = YNone).
    { destruct out as [c| | |e].
      - injection H as _ H. destruct Ho; congruence.
      - reflexivity.
      - exfalso. cbn [gen_loop] in GL. change (g_fail g0) with (g_fail g) in GL. rewrite Hf in GL. cbn [Z.ltb Z.compare] in GL.
        change (g_base g0) with (s_mix (q_self q)) in GL. destruct (m_rows (h (s_mix (q_self q)))) eqn:Er; [contradiction|].
        destruct (note_mixture _ _ _ _ _) as [g1 sf1] eqn:En.
        pose proof (note_mixture_g idx h g0 (q_self q) (h (s_mix (q_self q)))) as Hn. rewrite En in Hn.
        destruct Hn as (N1 & N2 & N3 & N4 & N5 & N6 & N7 & N8). rewrite N6, N7, Gc, Z.eqb_refl in GL.
        destruct (run_attempt _ _ _) as [a|e]; [|discriminate]. destruct (att_success a); [|discriminate]. destruct (keys_known _ _); discriminate.
      - injection H as _ H. destruct Ho; congruence. }
    subst out. destruct (gen_loop_none _ _ _ _ _ _ Hh Gc Hne GL) as (g' & ch & Eg' & Hperm & Hsz & Hdry).
    destruct (gen_loop_spec idx order Hix h (S fuel) Hh g0 _ _ _ _ GL Gi) as (Gi' & _). rewrite Eg' in Gi'. cbn in Gi'.
    change (g_base g0) with (s_mix (q_self q)) in *. change (g_comps g0) with (g_comps g) in *.
    assert (Hin : forall k, dry k (g_comps g') -> forall x, matches (h (s_mix (q_self q))) k x ->
              ~ In x (flat_map (fun c => all_rows (rc_index c)) (chunks os)) -> In x (all_rows ch)).
    { intros k Hd x (ck & p & Hi & Hk & Hx) Hnd.
      assert (Hall : In x (all_rows idx)) by (apply in_flat_map; exists (ck, p); auto).
      apply (Permutation_in _ Hp), in_app_or in Hall as [Hall|Hall]; [contradiction|].
      apply (Permutation_in _ Hperm), in_app_or in Hall as [Hall|Hall]; [exact Hall|]. exfalso.
      unfold comps_rows in Hall. apply in_flat_map in Hall as ([ck' st] & Hst & Hxs). cbn in Hxs.
      destruct Gi' as [G1 G2 G3 G4 G5].
      assert (Hnd' : NoDup (map fst (g_comps g'))) by (rewrite G2; eapply Permutation_NoDup; [symmetry; exact Hord|apply (ix_keys _ Hix)]).
      pose proof (in_aget _ mkey_eqb_spec ck' st _ Hnd' Hst) as Ea.
      destruct (G3 ck' st Ea) as [_ Hr]. assert (E : ck' = ck) by (eapply (idx_rows_disj idx Hix); [apply Hr, Hxs|exists p; auto]). subst ck'.
      rewrite (Hd ck) in Hxs; [destruct Hxs| |exact Hk|exact Ea]. apply (in_map fst) in Hst. exact Hst. }
    destruct (m_strict (h (s_mix (q_self q)))) eqn:Es.
    - destruct Hdry as (mk & Hmk & Hd). exists [mk]. split; [intros k [<-|[]]; exact Hmk|]. split; [discriminate|]. split; [discriminate|].
      intros L HL HLx. assert (Hincl : incl L (all_rows ch)).
      { intros x Hx. destruct (HLx x Hx) as [(k & [<-|[]] & Hm) Hnd]. eapply Hin; eauto. }
      apply NoDup_incl_length in Hincl; [lia|exact HL].
    - exists (map fst (m_rows (h (s_mix (q_self q))))). split; [apply incl_refl|]. split.
      { intros E. apply map_eq_nil in E. contradiction. }
      split; [reflexivity|]. intros L HL HLx. assert (Hincl : incl L (all_rows ch)).
      { intros x Hx. destruct (HLx x Hx) as [(k & Hk & Hm) Hnd]. eapply Hin; eauto. }
      apply NoDup_incl_length in Hincl; [lia|exact HL].
  Qed.

  Lemma fail_run fuel ops : forall q os0 inst held prev id q' cs o m,
    Forall (fun o => heap_ok (op_heap o)) ops -> qinv idx order q os0 -> hist idx order q inst held prev id -> chunk_only q os0 ->
    Forall (fun o => exists c, o = NChunk c) cs -> o = NNone \/ o = NStop ->
    qrun (S fuel) ops q = (q', cs ++ [o]) -> nth_error (working ops (cs ++ [o]) inst held) (length cs) = Some m -> m_rows m <> [] ->
    exists ks, incl ks (map fst (m_rows m)) /\ ks <> [] /\ (m_strict m = false -> ks = map fst (m_rows m))
      /\ forall L, NoDup L -> (forall x, In x L -> (exists k, In k ks /\ matches m k x)
           /\ ~ In x (flat_map (fun c => all_rows (rc_index c)) (chunks (os0 ++ cs)))) ->
         Z.of_nat (length L) < zsum (map snd (m_rows m)).
  Proof.
    induction ops as [|[h|h r] ops IH]; intros q os0 inst held prev id q' cs o m Hh Hq Hi Hc Hcs Ho H Hw Hne; cbn [qrun] in H.
    - injection H as _ H. destruct cs; discriminate.
    - inversion Hh as [|? ? Hh1 Hh2]; subst. destruct (qr_next (S fuel) h q) as [q1 o1] eqn:E. destruct (qrun (S fuel) ops q1) as [q2 os2] eqn:E2.
      destruct cs as [|c1 cs].
      + cbn in H. injection H as -> -> ->. cbn [app] in *. rewrite working_cons in Hw. cbn in Hw. injection Hw as <-. rewrite app_nil_r.
        eapply fail_next; eauto.
      + cbn in H. injection H as -> -> ->. inversion Hcs as [|? ? [c ->] Hcs']; subst.
        cbn [app length] in Hw. rewrite working_cons in Hw. cbn [nth_error] in Hw.
        destruct (hist_next idx order fuel h q inst held prev id q1 (NChunk c) Hh1 Hi E) as (N1 & _).
        destruct (IH q1 (os0 ++ [NChunk c]) inst (new_held inst held (NChunk c)) _ _ q' cs o m Hh2
                    (proj1 (qnext_inv idx order Hix (S fuel) h q os0 q1 _ Hh1 Hq E)) N1) as (ks & K1 & K2 & K3 & K4); auto.
        * eapply chunk_only_next; eauto.
        * exists ks. split; [exact K1|]. split; [exact K2|]. split; [exact K3|]. rewrite <- app_assoc in K4. exact K4.
    - inversion Hh as [|? ? Hh1 Hh2]; subst. cbn [working] in Hw.
      eapply (IH (qr_update_mixture h r q) os0 r held prev id); eauto.
      + apply qupdate_inv, Hq.
      + apply hist_update with (inst := inst), Hi.
  Qed.
End Fail.
