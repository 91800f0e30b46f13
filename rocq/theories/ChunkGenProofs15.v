(** A successful attempt: a key that gets less than the mixture asks has nothing left (C93). *)
From Verif Require Import Base MixtureKeyModel MixtureKeyProofs UtilsModel UtilsProofs ChunkGenModel SpecChunk ChunkGenProofs1
  ChunkGenProofs2 ChunkGenProofs3 ChunkGenProofs4 ChunkGenProofs5 ChunkGenProofs6 ChunkGenProofs7 ChunkGenProofs9 ChunkGenProofs12 PropertiesChunk2.
From Coq Require Import ZifyBool ZifyNat.
Open Scope Z_scope.

(** What is asked of a key that stays in the attempt never falls. *)
Lemma attempt_loop_grows mix0 fuel : NoDup (map fst mix0) -> forall a a', ainv mix0 a -> attempt_loop fuel false a = Ok a' ->
  forall k, In k (map fst (a_rem a')) -> In k (map fst (a_rem a)) /\ lookup0 k (a_mix a) <= lookup0 k (a_mix a').
Proof.
  intros Hnd0. induction fuel as [|fuel IH]; intros a a' Ha H k Hk; cbn [attempt_loop] in H.
  - destruct (a_prog a && _); [discriminate|]. injection H as <-. split; [exact Hk|lia].
  - destruct (a_prog a && existsb (fun kv => negb (snd kv =? 0)) (a_rem a)) eqn:Ee; [|injection H as <-; split; [exact Hk|lia]].
    set (a0 := mkAtt (a_comps a) (a_chunk a) (a_rem a) (a_mix a) false) in *.
    assert (Ha0 : ainv mix0 a0) by (apply ainv_prog, Ha).
    assert (Hcks : forall ck, In ck (ksort (map fst (a_comps a))) <-> In ck (map fst (a_comps a0))).
    { intros ck. cbn. split; apply Permutation_in; [|symmetry]; apply ksort_perm. }
    assert (Hmks : forall mk, In mk (ksort (map fst (a_rem a))) -> In mk (map fst (a_rem a0))).
    { intros mk. cbn. apply Permutation_in, ksort_perm. }
    pose proof (serve_keys_pass mix0 false _ _ Hnd0 a0 Ha0 Hmks Hcks) as Hps.
    destruct (serve_keys false (ksort (map fst (a_comps a))) (ksort (map fst (a_rem a))) a0) as [b|e] eqn:Es; [|discriminate].
    inversion Hps as [b' T A M R F Z Eq|mk b' S T A Pr Nn L D K K2 Eq|mk b' S T R D K Sz Eq|S K2 Eq]; subst b'.
    + destruct (IH b a' A H k Hk) as [I1 I2]. rewrite R in I1. cbn in I1. rewrite M in I2. cbn in I2. auto.
    + destruct (IH b a' A H k Hk) as [I1 I2]. destruct (K2 k I1) as [K3 K4]. cbn in K3, K4. split; [exact K3|lia].
    + exfalso. assert (Er : a_rem a' = []).
      { destruct fuel; cbn [attempt_loop] in H; rewrite R in H; cbn [existsb] in H; rewrite andb_false_r in H; injection H as <-; exact R. }
      rewrite Er in Hk. destruct Hk.
Qed.

Section Share.
  Context (idx : index) (order : list mkey).
  Hypothesis Hix : index_ok idx.
  Hypothesis Hord : Permutation order (map fst idx).

  Lemma gen_loop_chunk fuel h g sf gn' sf' c :
    heap_ok h -> ginv idx order g -> g_cur g = g_target g -> m_rows (h (g_base g)) <> [] ->
    gen_loop (S fuel) idx h g sf = (gn', sf', YChunk c) ->
    exists g', gn' = GChunk g' /\ forall k, In k (map fst (m_rows (h (g_base g)))) ->
      asked (m_rows (h (g_base g))) k <= Z.of_nat (length (rows_under k (rc_index c))) \/ dry k (g_comps g').
  Proof using Hix Hord.
    intros Hh Hg Hct Hne H. cbn [gen_loop] in H. destruct (10 <? g_fail g) eqn:Ef; [discriminate|].
    set (m := h (g_base g)) in *. destruct (m_rows m) as [|kv0 rows0] eqn:Erows; [contradiction|]. rewrite <- Erows in *.
    pose proof (note_mixture_g idx h g sf m) as Hn. destruct (note_mixture idx h g sf m) as [g1 sf1].
    destruct Hn as (N1 & N2 & N3 & N4 & N5 & N6 & N7 & N8). rewrite N2, N6, N7, Hct, Z.eqb_refl in H.
    destruct (Hh (g_base g)) as [Hmok _]. fold m in Hmok.
    pose proof (run_attempt_out (m_strict m) (g_comps g) (m_rows m) Hmok) as Hout.
    destruct (run_attempt (m_strict m) (g_comps g) (m_rows m)) as [a|e] eqn:Eat; [|discriminate].
    destruct (att_success a) eqn:Esucc; [|discriminate].
    destruct (keys_known (a_chunk a) (s_kid sf1)); [|discriminate]. injection H as <- _ <-. eexists. split; [reflexivity|].
    cbn [g_comps rc_index]. intros k Hk.
    pose proof (ainv_init (g_comps g) (m_rows m) Hmok) as Ha0.
    inversion Hout as [a' T A S Z C Nn E|a' mk T A S In_ P D M R' E|a' T S R' D Sz E|S ZZ E]; subst a'.
    - assert (Hcnt : Z.of_nat (length (rows_under k (a_chunk a))) = lookup0 k (a_mix a)).
      { rewrite rows_under_kpart by apply (ai_ch _ _ A). fold (ksize k (a_chunk a)). pose proof (ai_cnt _ _ A k) as Hc. rewrite Z in Hc. lia. }
      change (asked (m_rows m) k) with (lookup0 k (m_rows m)). rewrite Hcnt.
      destruct (m_strict m) eqn:Es.
      + destruct (S eq_refl) as [-> _]. left. cbn. lia.
      + destruct (C eq_refl k Hk) as [Hr|Hd]; [left|right; exact Hd].
        unfold run_attempt in Eat. destruct (attempt_loop_grows (m_rows m) _ (proj1 Hmok) _ _ Ha0 Eat k Hr) as [_ G]. exact G.
    - exfalso. unfold att_success in Esucc.
      destruct (a_rem a) eqn:Er; [discriminate|]. rewrite <- Er in *. rewrite forallb_forall in Esucc.
      pose proof (lookup0_in _ _ In_) as Ev. apply (aget_in _ mkey_eqb_spec) in Ev. specialize (Esucc _ Ev). cbn in Esucc. lia.
    - exfalso. unfold att_success in Esucc. rewrite R' in Esucc. discriminate.
  Qed.

  Lemma share_next fuel h q os inst held prev id q' c : heap_ok h -> qinv idx order q os -> hist idx order q inst held prev id ->
    chunk_only idx order q os -> qr_next (S fuel) h q = (q', NChunk c) -> m_rows (h (held_of inst held)) <> [] ->
    forall k, In k (map fst (m_rows (h (held_of inst held)))) ->
      asked (m_rows (h (held_of inst held))) k <= Z.of_nat (length (rows_under k (rc_index c)))
      \/ forall x, belongs idx k x -> In x (flat_map (fun c => all_rows (rc_index c)) (chunks (os ++ [NChunk c]))).
  Proof using Hix Hord.
    intros Hh Hq Hi Hco H Hne k Hk. pose proof (chunk_only_next idx order Hix fuel h q os inst held prev id q' c Hh Hq Hi Hco H) as Hco'.
    destruct Hi as [H1 H2 H3 H4 H5]. destruct Hco as (g & Eg & Hf & Hp). pose proof (qi_gen _ _ _ _ Hq) as Hg. rewrite Eg in Hg.
    unfold qr_next in H. rewrite H2, H3 in H.
    change (match q_gen q with Some g => g | None => gen_init idx order end) with (ChunkGenProofs5.qgen idx order q) in H.
    assert (Hb : (match q_gen q with None => true | Some _ => false end) && negb (q_nret q =? 0) = false).
    { destruct (q_gen q); [reflexivity|]. rewrite H4 by reflexivity. reflexivity. }
    rewrite Hb in H. clear Hb. rewrite Eg in H, H5. cbn [gen_send] in H. destruct H5 as (-> & Hc & _). cbn [held_of] in *. subst inst.
    destruct (gen_loop _ _ _ _ _) as [[gn' sf'] out] eqn:GL.
    assert (Ho : out = YChunk c) by (destruct out; injection H as _ H; try discriminate; try congruence; destruct (q_son q); discriminate).
    subst out. injection H as <-.
    set (g0 := mkG _ _ _ _ _ _ _ _ _ _) in GL.
    assert (Gi : ginv idx order g0) by (destruct Hg as [G1 G2 G3 G4 G5]; constructor; assumption).
    assert (Gc : g_cur g0 = g_target g0) by exact Hc.
    destruct (gen_loop_chunk _ _ _ _ _ _ _ Hh Gi Gc Hne GL) as (g' & -> & Hs).
    destruct (gen_loop_spec idx order Hix h (S fuel) Hh g0 _ _ _ _ GL Gi) as (Gi' & _). cbn in Gi'.
    change (g_base g0) with (s_mix (q_self q)) in *. destruct (Hs k Hk) as [G|Hd]; [left; exact G|right].
    intros x (ck & p & Hin & Hkk & Hxp).
    destruct Hco' as (g2 & Eg2 & _ & Hp2). unfold ChunkGenProofs5.qgen in Eg2. cbn [q_gen] in Eg2. injection Eg2 as <-.
    assert (Hall : In x (all_rows idx)) by (apply in_flat_map; exists (ck, p); auto).
    apply (Permutation_in _ Hp2), in_app_or in Hall as [Hall|Hall]; [exact Hall|]. exfalso.
    unfold comps_rows in Hall. apply in_flat_map in Hall as ([ck' st] & Hst & Hxs). cbn in Hxs.
    destruct Gi' as [G1 G2 G3 G4 G5].
    assert (Hnd' : NoDup (map fst (g_comps g'))) by (rewrite G2; eapply Permutation_NoDup; [symmetry; exact Hord|apply (ix_keys _ Hix)]).
    pose proof (in_aget _ mkey_eqb_spec ck' st _ Hnd' Hst) as Ea.
    destruct (G3 ck' st Ea) as [_ Hr]. assert (E : ck' = ck) by (eapply (idx_rows_disj idx Hix); [apply Hr, Hxs|exists p; auto]). subst ck'.
    rewrite (Hd ck) in Hxs; [destruct Hxs| |exact Hkk|exact Ea]. apply (in_map fst) in Hst. exact Hst.
  Qed.

  Lemma share_run fuel ops : forall q os0 inst held prev id q' cs c m,
    Forall (fun o => heap_ok (op_heap o)) ops -> qinv idx order q os0 -> hist idx order q inst held prev id -> chunk_only idx order q os0 ->
    Forall (fun o => exists c, o = NChunk c) cs ->
    qrun (S fuel) ops q = (q', cs ++ [NChunk c]) -> nth_error (working ops (cs ++ [NChunk c]) inst held) (length cs) = Some m ->
    m_rows m <> [] -> forall k, In k (map fst (m_rows m)) ->
      asked (m_rows m) k <= Z.of_nat (length (rows_under k (rc_index c)))
      \/ forall x, belongs idx k x -> In x (flat_map (fun c => all_rows (rc_index c)) (chunks (os0 ++ cs ++ [NChunk c]))).
  Proof using Hix Hord.
    induction ops as [|[h|h r] ops IH]; intros q os0 inst held prev id q' cs c m Hh Hq Hi Hc Hcs H Hw Hne; cbn [qrun] in H.
    - injection H as _ H. destruct cs; discriminate.
    - inversion Hh as [|? ? Hh1 Hh2]; subst. destruct (qr_next (S fuel) h q) as [q1 o1] eqn:E. destruct (qrun (S fuel) ops q1) as [q2 os2] eqn:E2.
      destruct cs as [|c1 cs].
      + cbn in H. injection H as -> -> ->. cbn [app] in *. rewrite working_cons in Hw. cbn in Hw. injection Hw as <-.
        eapply share_next; eauto.
      + cbn in H. injection H as -> -> ->. inversion Hcs as [|? ? [d ->] Hcs']; subst.
        cbn [app length] in Hw. rewrite working_cons in Hw. cbn [nth_error] in Hw.
        destruct (hist_next idx order fuel h q inst held prev id q1 (NChunk d) Hh1 Hi E) as (N1 & _).
        pose proof (IH q1 (os0 ++ [NChunk d]) inst (new_held inst held (NChunk d)) _ _ q' cs c m Hh2
                    (proj1 (qnext_inv idx order Hix (S fuel) h q os0 q1 _ Hh1 Hq E)) N1) as G. cbn [app]. rewrite <- app_assoc in G. apply G; auto.
        eapply chunk_only_next; eauto.
    - inversion Hh as [|? ? Hh1 Hh2]; subst. cbn [working] in Hw.
      eapply (IH (qr_update_mixture h r q) os0 r held prev id); eauto.
      + apply qupdate_inv, Hq.
      + apply hist_update with (inst := inst), Hi.
  Qed.
End Share.
