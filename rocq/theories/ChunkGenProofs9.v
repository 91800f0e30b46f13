(** Errors of one [next()]; what a failed attempt means. *)
From Verif Require Import Base MixtureKeyModel MixtureKeyProofs UtilsModel UtilsProofs ChunkGenModel SpecChunk ChunkGenProofs1
  ChunkGenProofs2 ChunkGenProofs3 ChunkGenProofs4 ChunkGenProofs5 ChunkGenProofs6 ChunkGenProofs7.
From Coq Require Import ZifyBool ZifyNat.
Open Scope Z_scope.

Definition gcomps (gn : gen) : list (mkey * list frange) :=
  match gn with GChunk g => g_comps g | GNone g => g_comps g | GDone => [] end.

(** One iteration with a non-empty mixture. *)
Lemma gen_loop_mixture fuel idx h g sf gn' sf' out :
  heap_ok h -> g_cur g = g_target g -> m_rows (h (g_base g)) <> [] ->
  gen_loop (S fuel) idx h g sf = (gn', sf', out) ->
  (forall e, out = YErr e -> (e = ZeroDivisionError /\ m_strict (h (g_base g)) = false /\ exists k, In k (map fst (m_rows (h (g_base g)))) /\ asked (m_rows (h (g_base g))) k = 0)
                             \/ (e = AssertionError /\ exists k, In k (map fst (m_rows (h (g_base g)))) /\ ~ In k (map fst (s_kid sf'))))
  /\ (out = YNone -> exists g', gn' = GNone g' /\
        (if m_strict (h (g_base g)) then exists mk, In mk (map fst (m_rows (h (g_base g)))) /\ dry mk (g_comps g')
         else forall mk, In mk (map fst (m_rows (h (g_base g)))) -> dry mk (g_comps g'))).
Proof.
  intros Hh Hct Hne H. cbn [gen_loop] in H. destruct (10 <? g_fail g) eqn:Ef.
  { injection H as <- <- <-. split; [discriminate|discriminate]. }
  set (m := h (g_base g)) in *. destruct (m_rows m) as [|kv0 rows0] eqn:Erows; [contradiction|]. rewrite <- Erows in *.
  pose proof (note_mixture_g idx h g sf m) as Hn. destruct (note_mixture idx h g sf m) as [g1 sf1].
  destruct Hn as (N1 & N2 & N3 & N4 & N5 & N6 & N7 & N8). rewrite N6, N7, Hct, Z.eqb_refl in H.
  destruct (Hh (g_base g)) as [Hmok _]. fold m in Hmok.
  pose proof (run_attempt_out (m_strict m) (g_comps g1) (m_rows m) Hmok) as Hout.
  destruct (run_attempt (m_strict m) (g_comps g1) (m_rows m)) as [a|e] eqn:Eat.
  2:{ injection H as <- <- <-. split; [|discriminate]. intros e' [= <-]. left. inversion Hout; subst; auto. }
  destruct (att_success a) eqn:Esucc.
  - destruct (keys_known (a_chunk a) (s_kid sf1)) eqn:Ekn; injection H as <- <- <-; (split; [|discriminate]).
    + discriminate.
    + intros e [= <-]. right. split; [reflexivity|].
      assert (Hinc : incl (map fst (a_chunk a)) (map fst (m_rows m))).
      { inversion Hout as [a' T A S Z C Nn E|a' mk T A S In_ P D M R' E|a' T S R' D Sz E|S ZZ E]; subst a'.
        - apply (ai_c0 _ _ A).
        - apply (ai_c0 _ _ A).
        - unfold att_success in Esucc. rewrite R' in Esucc. discriminate. }
      unfold keys_known in Ekn.
      assert (Hx : exists k, In k (map fst (a_chunk a)) /\ amem mkey_eqb k (s_kid sf1) = false).
      { clear - Ekn. induction (map fst (a_chunk a)) as [|k l IH]; [discriminate|]. cbn in Ekn.
        destruct (amem mkey_eqb k (s_kid sf1)) eqn:E; [|exists k; cbn; auto]. destruct (IH Ekn) as (k' & H1 & H2). exists k'. cbn; auto. }
      destruct Hx as (k & Hk & Em). exists k. split; [apply Hinc, Hk|]. intros Hin.
      destruct (aget_some_in _ mkey_eqb_spec k (s_kid sf1) Hin) as [v E]. unfold amem in Em. rewrite E in Em. discriminate.
  - injection H as <- <- <-. split; [discriminate|]. intros _. eexists. split; [reflexivity|]. cbn [g_comps].
    inversion Hout as [a' T A S Z C Nn E|a' mk T A S In_ P D M R' E|a' T S R' D Sz E|S ZZ E]; subst a'.
    + assert (Hall : forallb (fun kv => snd kv =? 0) (a_rem a) = true).
      { apply forallb_forall. intros [k v] Hin. cbn. pose proof (in_aget _ mkey_eqb_spec k v (a_rem a) (ai_rem _ _ A) Hin) as E1.
        specialize (Z k). unfold lookup0 in Z. rewrite E1 in Z. lia. }
      unfold att_success in Esucc. rewrite Hall in Esucc.
      assert (Er : a_rem a = []) by (destruct (a_rem a); [reflexivity|discriminate]).
      destruct (m_strict m) eqn:Es.
      * exfalso. destruct (S eq_refl) as [_ S2]. cbn [a_rem] in S2. rewrite Er in S2. destruct (m_rows m); [contradiction|discriminate].
      * intros mk Hmk. destruct (C eq_refl mk Hmk) as [Hc|Hc]; [rewrite Er in Hc; destruct Hc|exact Hc].
    + rewrite S. exists mk. split; [|exact D]. cbn [a_rem] in R'. rewrite <- R'. exact In_.
    + rewrite S. exact D.
Qed.

Lemma qnext_errs idx order fuel h q inst held prev id q' e :
  heap_ok h -> hist idx order q inst held prev id -> qr_next (S fuel) h q = (q', NErr e) ->
  m_rows (h (held_of inst held)) <> [] ->
  (e = ZeroDivisionError /\ m_strict (h (held_of inst held)) = false) \/ e = AssertionError.
Proof.
  intros Hh [H1 H2 H3 H4 H5] H Hne. unfold qr_next in H. rewrite H2, H3 in H.
  change (match q_gen q with Some g => g | None => gen_init idx order end) with (qgen idx order q) in H.
  assert (Hb : (match q_gen q with None => true | Some _ => false end) && negb (q_nret q =? 0) = false).
  { destruct (q_gen q); [reflexivity|]. rewrite H4 by reflexivity. reflexivity. }
  rewrite Hb in H. clear Hb.
  destruct (gen_send (S fuel) idx h (qgen idx order q) (q_self q) (s_mix (q_self q)) (q_count q)) as [[gn' sf'] out] eqn:Es.
  assert (Hout : out = YErr e).
  { destruct out; try (injection H as _ H; try discriminate; congruence). destruct (q_son q); discriminate. }
  clear H. destruct (qgen idx order q) as [g|g|].
  - destruct H5 as (-> & Hc & _). cbn [held_of gen_send] in *.
    apply gen_loop_mixture in Es as [E1 _]; cbn [g_base g_cur g_target]; [|exact Hh|exact Hc|rewrite H1; exact Hne].
    destruct (E1 e Hout) as [(E & E' & _)|[-> _]]; [|auto]. cbn [g_base] in E'. rewrite H1 in E'. auto.
  - destruct H5 as (-> & Hc & Ht & _). cbn [held_of gen_send] in *.
    apply gen_loop_mixture in Es as [E1 _]; [|exact Hh|congruence|exact Hne].
    destruct (E1 e Hout) as [(E & E' & _)|[-> _]]; auto.
  - cbn in Es. injection Es as <- <- <-. discriminate.
Qed.

Lemma run_errs idx order fuel ops : forall q inst held prev id q' os,
  Forall (fun o => heap_ok (op_heap o)) ops -> hist idx order q inst held prev id -> qrun (S fuel) ops q = (q', os) ->
  forall i e m, nth_error os i = Some (NErr e) -> nth_error (working ops os inst held) i = Some m -> m_rows m <> [] ->
  (e = ZeroDivisionError /\ m_strict m = false) \/ e = AssertionError.
Proof.
  induction ops as [|[h|h r] ops IH]; intros q inst held prev id q' os Hh Hi H i e m Hn Hw Hne; cbn [qrun] in H.
  - injection H as <- <-. destruct i; discriminate.
  - inversion Hh as [|? ? Hh1 Hh2]; subst. destruct (qr_next (S fuel) h q) as [q1 o] eqn:E. destruct (qrun (S fuel) ops q1) as [q2 os2] eqn:E2.
    injection H as <- <-. rewrite working_cons in Hw. destruct i as [|i]; cbn in Hn, Hw.
    + injection Hn as ->. injection Hw as <-. eapply qnext_errs; eauto.
    + destruct (hist_next idx order fuel h q inst held prev id q1 o Hh1 Hi E) as (N1 & _).
      eapply (IH q1); [exact Hh2|exact N1|exact E2|exact Hn|exact Hw|exact Hne].
  - inversion Hh as [|? ? Hh1 Hh2]; subst. cbn [working] in Hw.
    eapply (IH (qr_update_mixture h r q)); [exact Hh2|apply hist_update with (inst := inst), Hi|exact H|exact Hn|exact Hw|exact Hne].
Qed.
