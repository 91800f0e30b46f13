(** A failing attempt with a strict mixture whose keys share no property combination (C92). *)
From Verif Require Import Base MixtureKeyModel MixtureKeyProofs UtilsModel UtilsProofs ChunkGenModel SpecChunk ChunkGenProofs1
  ChunkGenProofs2 ChunkGenProofs3 ChunkGenProofs4 ChunkGenProofs5 ChunkGenProofs6 ChunkGenProofs7 ChunkGenProofs9 ChunkGenProofs12.
From Coq Require Import ZifyBool ZifyNat.
Open Scope Z_scope.

Section Strict.
  Context (idx : index) (order : list mkey).
  Hypothesis Hix : index_ok idx.
  Hypothesis Hord : Permutation order (map fst idx).

  (** No property combination of the query matches two keys of the mixture. *)
  Definition apart (rows : list (mkey * Z)) : Prop := forall ck k k', In ck (map fst idx) -> In k (map fst rows) -> In k' (map fst rows) ->
    key_eq k ck = true -> key_eq k' ck = true -> k = k'.

  Lemma gen_loop_none_strict fuel h g sf gn' sf' :
    heap_ok h -> ginv idx order g -> g_cur g = g_target g -> m_rows (h (g_base g)) <> [] -> m_strict (h (g_base g)) = true ->
    gen_loop (S fuel) idx h g sf = (gn', sf', YNone) ->
    exists g' ch, gn' = GNone g' /\ Permutation (comps_rows (g_comps g)) (all_rows ch ++ comps_rows (g_comps g'))
      /\ NoDup (map fst ch) /\ chunk_match idx ch /\ incl (map fst ch) (map fst (m_rows (h (g_base g))))
      /\ exists mk, In mk (map fst (m_rows (h (g_base g)))) /\ dry mk (g_comps g')
           /\ Z.of_nat (length (rows_under mk ch)) < asked (m_rows (h (g_base g))) mk.
  Proof using Hix Hord.
    intros Hh Hg Hct Hne Hst H. cbn [gen_loop] in H. destruct (10 <? g_fail g) eqn:Ef; [discriminate|].
    set (m := h (g_base g)) in *. destruct (m_rows m) as [|kv0 rows0] eqn:Erows; [contradiction|]. rewrite <- Erows in *.
    pose proof (note_mixture_g idx h g sf m) as Hn. destruct (note_mixture idx h g sf m) as [g1 sf1].
    destruct Hn as (N1 & N2 & N3 & N4 & N5 & N6 & N7 & N8). rewrite N2, N6, N7, Hct, Z.eqb_refl in H.
    destruct (Hh (g_base g)) as [Hmok _]. fold m in Hmok. destruct Hg as [G1 G2 G3 G4 G5].
    pose proof (run_attempt_out (m_strict m) (g_comps g) (m_rows m) Hmok) as Hout. rewrite Hst in *.
    destruct (run_attempt true (g_comps g) (m_rows m)) as [a|e] eqn:Eat; [|discriminate].
    destruct (att_success a) eqn:Esucc; [destruct (keys_known (a_chunk a) (s_kid sf1)); discriminate|].
    assert (Ht : takes (map fst (m_rows m)) (g_comps g, []) (a_comps a, a_chunk a)) by (inversion Hout; assumption).
    destruct (takes_sorted idx Hix _ _ _ G3 Ht) as (S1 & S2 & S3 & S4). cbn [fst snd] in S1, S2, S3, S4.
    injection H as <- _. eexists _, (a_chunk a). split; [reflexivity|]. cbn [g_comps].
    split. { pose proof (takes_conserve _ _ _ Ht) as T. cbn in T. exact T. }
    inversion Hout as [a' T A S Z C Nn E|a' mk T A S In_ P D M R' E|a' T S R' D Sz E|S ZZ E]; subst a'; try discriminate.
    - exfalso. cbn [a_rem] in Nn. specialize (Nn Hne).
      assert (Hall : forallb (fun kv => snd kv =? 0) (a_rem a) = true).
      { apply forallb_forall. intros [k v] Hin. cbn. pose proof (in_aget _ mkey_eqb_spec k v (a_rem a) (ai_rem _ _ A) Hin) as E1.
        specialize (Z k). unfold lookup0 in Z. rewrite E1 in Z. lia. }
      unfold att_success in Esucc. rewrite Hall in Esucc. destruct (a_rem a); [apply Nn; reflexivity|discriminate].
    - split; [apply (ai_ch _ _ A)|]. split; [exact S3|]. split; [apply (ai_c0 _ _ A)|].
      cbn [a_mix a_rem] in M, R'. rewrite R' in In_. exists mk. split; [exact In_|]. split; [exact D|].
      rewrite rows_under_kpart by apply (ai_ch _ _ A). fold (ksize mk (a_chunk a)). pose proof (ai_cnt _ _ A mk) as Hc. rewrite M in Hc.
      unfold asked. unfold lookup0 in Hc at 2. destruct (aget mkey_eqb mk (m_rows m)); lia.
  Qed.

  Lemma fail_next_strict fuel h q os inst held prev id q' o : heap_ok h -> qinv idx order q os -> hist idx order q inst held prev id ->
    chunk_only idx order q os -> qr_next (S fuel) h q = (q', o) -> o = NNone \/ o = NStop ->
    m_rows (h (held_of inst held)) <> [] -> m_strict (h (held_of inst held)) = true -> apart (m_rows (h (held_of inst held))) ->
    exists k, In k (map fst (m_rows (h (held_of inst held)))) /\ forall L, NoDup L ->
      (forall x, In x L -> matches idx (h (held_of inst held)) k x /\ ~ In x (flat_map (fun c => all_rows (rc_index c)) (chunks os))) ->
      Z.of_nat (length L) < asked (m_rows (h (held_of inst held))) k.
  Proof using Hix Hord.
    intros Hh Hq [H1 H2 H3 H4 H5] (g & Eg & Hf & Hp) H Ho Hne Hst Hap. pose proof (qi_gen _ _ _ _ Hq) as Hg. rewrite Eg in Hg.
    unfold qr_next in H. rewrite H2, H3 in H.
    change (match q_gen q with Some g => g | None => gen_init idx order end) with (ChunkGenProofs5.qgen idx order q) in H.
    assert (Hb : (match q_gen q with None => true | Some _ => false end) && negb (q_nret q =? 0) = false).
    { destruct (q_gen q); [reflexivity|]. rewrite H4 by reflexivity. reflexivity. }
    rewrite Hb in H. clear Hb. rewrite Eg in H, H5. cbn [gen_send] in H. destruct H5 as (-> & Hc & _). cbn [held_of] in *. subst inst.
    destruct (gen_loop _ _ _ _ _) as [[gn' sf'] out] eqn:GL.
    set (g0 := mkG _ _ _ _ _ _ _ _ _ _) in GL.
    assert (Gi : ginv idx order g0) by (destruct Hg as [G1 G2 G3 G4 G5]; constructor; assumption).
    assert (Gc : g_cur g0 = g_target g0) by exact Hc.
    assert (Hout : out = YNone).
    { destruct out as [c| | |e].
      - injection H as _ H. destruct Ho; congruence.
      - reflexivity.
      - exfalso. cbn [gen_loop] in GL. change (g_fail g0) with (g_fail g) in GL. rewrite Hf in GL. cbn [Z.ltb Z.compare] in GL.
        change (g_base g0) with (s_mix (q_self q)) in GL. destruct (m_rows (h (s_mix (q_self q)))) eqn:Er; [contradiction|].
        destruct (note_mixture _ _ _ _ _) as [g1 sf1] eqn:En.
        pose proof (note_mixture_g idx h g0 (q_self q) (h (s_mix (q_self q)))) as Hn. rewrite En in Hn.
        destruct Hn as (N1 & N2 & N3 & N4 & N5 & N6 & N7 & N8). rewrite N6, N7, Gc, Z.eqb_refl in GL.
        destruct (run_attempt _ _ _) as [a|e]; [|discriminate]. destruct (att_success a); [|discriminate]. destruct (keys_known _ _); discriminate.
      - injection H as _ H. destruct Ho; congruence. }
    subst out. destruct (gen_loop_none_strict _ _ _ _ _ _ Hh Gi Gc Hne Hst GL) as (g' & ch & Eg' & Hperm & Hnd & Hm & Hk & mk & Hmk & Hd & Hsz).
    destruct (gen_loop_spec idx order Hix h (S fuel) Hh g0 _ _ _ _ GL Gi) as (Gi' & _). rewrite Eg' in Gi'. cbn in Gi'.
    change (g_base g0) with (s_mix (q_self q)) in *. change (g_comps g0) with (g_comps g) in *.
    exists mk. split; [exact Hmk|]. intros L HL HLx.
    assert (Hincl : incl L (rows_under mk ch)).
    { intros x Hx. destruct (HLx x Hx) as [(ck & p & Hi & Hkk & Hxp) Hnx].
      assert (Hall : In x (all_rows idx)) by (apply in_flat_map; exists (ck, p); auto).
      apply (Permutation_in _ Hp), in_app_or in Hall as [Hall|Hall]; [contradiction|].
      apply (Permutation_in _ Hperm), in_app_or in Hall as [Hall|Hall].
      - unfold all_rows in Hall. apply in_flat_map in Hall as ([k' p'] & Hin & Hx'). cbn [snd] in Hx'.
        destruct (Hm k' p' x Hin Hx') as (ck' & p'' & Hi' & Hk' & Hx'').
        assert (Ec : ck' = ck) by (eapply (idx_rows_disj idx Hix); [exists p''; split; [exact Hi'|exact Hx'']|exists p; split; [exact Hi|exact Hxp]]). subst ck'.
        assert (Ek : k' = mk).
        { apply (Hap ck); [apply (in_map fst) in Hi; exact Hi| |exact Hmk|exact Hk'|exact Hkk]. apply Hk. apply (in_map fst) in Hin. exact Hin. }
        subst k'. unfold rows_under. apply in_flat_map. exists (mk, p'). split; [exact Hin|]. cbn [fst snd]. rewrite mkey_eqb_refl. exact Hx'.
      - exfalso. unfold comps_rows in Hall. apply in_flat_map in Hall as ([ck' st] & Hstt & Hxs). cbn in Hxs.
        destruct Gi' as [G1 G2 G3 G4 G5].
        assert (Hnd' : NoDup (map fst (g_comps g'))) by (rewrite G2; eapply Permutation_NoDup; [symmetry; exact Hord|apply (ix_keys _ Hix)]).
        pose proof (in_aget _ mkey_eqb_spec ck' st _ Hnd' Hstt) as Ea.
        destruct (G3 ck' st Ea) as [_ Hr]. assert (E : ck' = ck) by (eapply (idx_rows_disj idx Hix); [apply Hr, Hxs|exists p; auto]). subst ck'.
        rewrite (Hd ck) in Hxs; [destruct Hxs| |exact Hkk|exact Ea]. apply (in_map fst) in Hstt. exact Hstt. }
    apply NoDup_incl_length in Hincl; [|exact HL]. eapply Z.le_lt_trans; [|exact Hsz]. lia.
  Qed.

  Lemma fail_run_strict fuel ops : forall q os0 inst held prev id q' cs o m,
    Forall (fun o => heap_ok (op_heap o)) ops -> qinv idx order q os0 -> hist idx order q inst held prev id -> chunk_only idx order q os0 ->
    Forall (fun o => exists c, o = NChunk c) cs -> o = NNone \/ o = NStop ->
    qrun (S fuel) ops q = (q', cs ++ [o]) -> nth_error (working ops (cs ++ [o]) inst held) (length cs) = Some m ->
    m_rows m <> [] -> m_strict m = true -> apart (m_rows m) ->
    exists k, In k (map fst (m_rows m)) /\ forall L, NoDup L ->
      (forall x, In x L -> matches idx m k x /\ ~ In x (flat_map (fun c => all_rows (rc_index c)) (chunks (os0 ++ cs)))) ->
      Z.of_nat (length L) < asked (m_rows m) k.
  Proof using Hix Hord.
    induction ops as [|[h|h r] ops IH]; intros q os0 inst held prev id q' cs o m Hh Hq Hi Hc Hcs Ho H Hw Hne Hst Hap; cbn [qrun] in H.
    - injection H as _ H. destruct cs; discriminate.
    - inversion Hh as [|? ? Hh1 Hh2]; subst. destruct (qr_next (S fuel) h q) as [q1 o1] eqn:E. destruct (qrun (S fuel) ops q1) as [q2 os2] eqn:E2.
      destruct cs as [|c1 cs].
      + cbn in H. injection H as -> -> ->. cbn [app] in *. rewrite working_cons in Hw. cbn in Hw. injection Hw as <-. rewrite app_nil_r.
        eapply fail_next_strict; eauto.
      + cbn in H. injection H as -> -> ->. inversion Hcs as [|? ? [c ->] Hcs']; subst.
        cbn [app length] in Hw. rewrite working_cons in Hw. cbn [nth_error] in Hw.
        destruct (hist_next idx order fuel h q inst held prev id q1 (NChunk c) Hh1 Hi E) as (N1 & _).
        destruct (IH q1 (os0 ++ [NChunk c]) inst (new_held inst held (NChunk c)) _ _ q' cs o m Hh2
                    (proj1 (qnext_inv idx order Hix (S fuel) h q os0 q1 _ Hh1 Hq E)) N1) as (k & K1 & K2); auto.
        * eapply chunk_only_next; eauto.
        * exists k. split; [exact K1|]. rewrite <- app_assoc in K2. exact K2.
    - inversion Hh as [|? ? Hh1 Hh2]; subst. cbn [working] in Hw.
      eapply (IH (qr_update_mixture h r q) os0 r held prev id); eauto.
      + apply qupdate_inv, Hq.
      + apply hist_update with (inst := inst), Hi.
  Qed.
End Strict.
