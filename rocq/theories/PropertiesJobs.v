(** C86: several jobs of one local client.  Model: JobsModel.v. *)
From Verif Require Import Base MixtureKeyModel MixtureKeyProofs UtilsModel ChunkGenModel SpecChunk MixtureModel JobsModel PropertiesChunk
  ChunkGenProofs1 ChunkGenProofs2 PropertiesChunk2.
From Coq Require Import QArith ZifyBool ZifyNat.
Open Scope Z_scope.

(** The results of the calls about job [j]. *)
Definition results_of (j : nat) (os : list (nat * jout)) : list jout := map snd (filter (fun x => Nat.eqb j (fst x)) os).
(** The calls about job [j]. *)
Definition calls_of (j : nat) (evs : list jevent) : list jevent := filter (fun e => Nat.eqb j (jev_job e)) evs.
(** Job [j] is executed with mixture object [r], no other job is. *)
Definition own_mixture (j : nat) (r : ref) (evs : list jevent) : Prop :=
  forall j' idx order r', In (JExecute j' idx order r') evs -> (j' = j <-> r' = r).
(** A client that has not executed anything yet, with these mixture objects. *)
Definition fresh_client (objs : ref -> mixture) : jclient := mkJC objs (fun _ => None).

(** ** A query result looks only at its own mixture object *)
Definition base_ok (r : ref) (g : gen) : Prop := match g with GNone g => g_base g = r | _ => True end.
Definition qr_uses (r : ref) (q : qr) : Prop := s_mix (q_self q) = r /\ match q_gen q with Some g => base_ok r g | None => True end.

Lemma note_mixture_ext idx h h' g sf m r : h r = h' r -> s_mix sf = r -> note_mixture idx h g sf m = note_mixture idx h' g sf m.
Proof. intros E Hr. unfold note_mixture. rewrite Hr, E. reflexivity. Qed.
Lemma note_mixture_keep idx h g sf m g1 sf1 : note_mixture idx h g sf m = (g1, sf1) -> g_base g1 = g_base g /\ s_mix sf1 = s_mix sf.
Proof. unfold note_mixture. destruct (prev_differs _ _); intros [= <- <-]; auto. Qed.
Lemma note_arbitrary_keep g sf g1 sf1 : note_arbitrary g sf = (g1, sf1) -> g_base g1 = g_base g /\ s_mix sf1 = s_mix sf.
Proof. unfold note_arbitrary. destruct (_ || _); intros [= <- <-]; auto. Qed.

Lemma gen_loop_own idx h h' r : h r = h' r -> forall fuel g sf, g_base g = r -> s_mix sf = r ->
  gen_loop fuel idx h g sf = gen_loop fuel idx h' g sf
  /\ base_ok r (fst (fst (gen_loop fuel idx h g sf))) /\ s_mix (snd (fst (gen_loop fuel idx h g sf))) = r.
Proof.
  intros E. induction fuel as [|fuel IH]; intros g sf Hg Hs; cbn [gen_loop]; [cbn; auto|].
  destruct (10 <? g_fail g); [cbn; auto|]. cbv zeta. rewrite Hg, <- E. set (m := h r).
  destruct (m_rows m) as [|kv l] eqn:Em.
  - destruct (note_arbitrary g sf) as [g1 sf1] eqn:En. apply note_arbitrary_keep in En as [N1 N2].
    destruct (round_robin (S fuel) (g_keys g1) (m_csize m) (g_comps g1) (g_kidx g1) (g_empty g1)) as [[[comps' kidx'] empty'] out].
    destruct out as [key p| |e]; [|cbn; rewrite N2; auto..].
    destruct (g_cur g1 =? g_target g1).
    + destruct (keys_known _ _); cbn; rewrite N2; auto.
    + apply IH; cbn [g_base]; congruence.
  - rewrite <- Em. rewrite <- (note_mixture_ext idx h h' g sf m r E Hs).
    destruct (note_mixture idx h g sf m) as [g1 sf1] eqn:En. apply note_mixture_keep in En as [N1 N2].
    destruct (run_attempt (m_strict m) (g_comps g1) (m_rows m)) as [a|e]; [|cbn; rewrite N2; auto].
    destruct (att_success a).
    + destruct (g_cur g1 =? g_target g1).
      * destruct (keys_known _ _); cbn; rewrite N2; auto.
      * apply IH; cbn [g_base]; congruence.
    + cbn. rewrite N1, N2. auto.
Qed.

Lemma qr_next_own fuel h h' r q : h r = h' r -> qr_uses r q ->
  qr_next fuel h q = qr_next fuel h' q /\ qr_uses r (fst (qr_next fuel h q)).
Proof.
  intros E [U1 U2]. unfold qr_next. cbv zeta.
  set (gn := match q_gen q with Some g => g | None => gen_init (q_idx q) (q_order q) end).
  assert (Hgn : base_ok r gn) by (unfold gn; destruct (q_gen q); [exact U2|exact I]).
  destruct ((match q_gen q with None => true | Some _ => false end) && negb (q_nret q =? 0)).
  { split; [reflexivity|]. split; [exact U1|exact Hgn]. }
  assert (G : gen_send fuel (q_idx q) h gn (q_self q) (s_mix (q_self q)) (q_count q)
              = gen_send fuel (q_idx q) h' gn (q_self q) (s_mix (q_self q)) (q_count q)
              /\ base_ok r (fst (fst (gen_send fuel (q_idx q) h gn (q_self q) (s_mix (q_self q)) (q_count q))))
              /\ s_mix (snd (fst (gen_send fuel (q_idx q) h gn (q_self q) (s_mix (q_self q)) (q_count q)))) = r).
  { destruct gn as [g|g|]; cbn [gen_send].
    - apply gen_loop_own; auto.
    - apply gen_loop_own; auto.
    - cbn. auto. }
  destruct G as (G1 & G2 & G3). rewrite <- G1.
  destruct (gen_send fuel (q_idx q) h gn (q_self q) (s_mix (q_self q)) (q_count q)) as [[gn' sf'] out]. cbn [fst snd] in *.
  split; [reflexivity|]. destruct out; split; auto.
Qed.

(** ** Independence *)
Record jsim (j : nat) (r : ref) (s s' : jclient) : Prop := {
  js_obj : jc_objs s r = jc_objs s' r;
  js_job : jc_jobs s j = jc_jobs s' j;
  js_uses : forall q, jc_jobs s j = Some q -> qr_uses r q;
  js_other : forall j' q, j' <> j -> jc_jobs s j' = Some q -> s_mix (q_self q) <> r
}.

Lemma heap_of_at objs objs' r : objs r = objs' r -> heap_of objs r = heap_of objs' r.
Proof. intros E. unfold heap_of. rewrite E. reflexivity. Qed.

Lemma qr_init_at idx order h h' r : h r = h' r -> qr_init idx order h r false = qr_init idx order h' r false.
Proof. intros E. unfold qr_init. rewrite E. reflexivity. Qed.

Lemma qr_next_mix fuel h q : s_mix (q_self (fst (qr_next fuel h q))) = s_mix (q_self q).
Proof.
  unfold qr_next. cbv zeta. destruct (_ && _); [reflexivity|].
  set (gn := match q_gen q with Some g => g | None => gen_init (q_idx q) (q_order q) end). clearbody gn.
  assert (G : s_mix (snd (fst (gen_send fuel (q_idx q) h gn (q_self q) (s_mix (q_self q)) (q_count q)))) = s_mix (q_self q)).
  { assert (L : forall fuel g sf, s_mix (snd (fst (gen_loop fuel (q_idx q) h g sf))) = s_mix sf).
    { clear. induction fuel as [|fuel IH]; intros g sf; cbn [gen_loop]; [reflexivity|].
      destruct (10 <? g_fail g); [reflexivity|]. cbv zeta. destruct (m_rows (h (g_base g))) as [|kv l] eqn:Em.
      - destruct (note_arbitrary g sf) as [g1 sf1] eqn:En. apply note_arbitrary_keep in En as [_ N2].
        destruct (round_robin _ _ _ _ _ _) as [[[comps' kidx'] empty'] out]. destruct out; [|cbn; exact N2..].
        destruct (_ =? _); [destruct (keys_known _ _); exact N2|rewrite IH; exact N2].
      - destruct (note_mixture _ _ _ _ _) as [g1 sf1] eqn:En. apply note_mixture_keep in En as [_ N2].
        destruct (run_attempt _ _ _) as [a|e]; [|exact N2]. destruct (att_success a); [|exact N2].
        destruct (_ =? _); [destruct (keys_known _ _); exact N2|rewrite IH; exact N2]. }
    destruct gn as [g|g|]; cbn [gen_send]; [apply L|apply L|reflexivity]. }
  destruct (gen_send _ _ _ _ _ _ _) as [[gn' sf'] out]. cbn [fst snd] in G. destruct out; exact G.
Qed.

(** A call about another job: job [j] does not notice. *)
Lemma jsim_other fuel fl j r ev s s' : jsim j r s s' -> jev_job ev <> j ->
  (forall j' idx order r', ev = JExecute j' idx order r' -> r' <> r) -> jsim j r (fst (jstep fuel fl ev s)) s'.
Proof.
  intros [S1 S2 S3 S4] Hne Hex. destruct ev as [j' idx order r'|j'|j' steps]; cbn [jev_job jstep] in *.
  - specialize (Hex _ _ _ _ eq_refl). destruct (jc_jobs s j') eqn:Ej; [constructor; auto|].
    destruct (process_index _ _ _ _) as [m|e]; [|constructor; auto]. cbv zeta. cbn [fst]. constructor; cbn [jc_objs jc_jobs].
    + unfold set_obj. replace (r =? r') with false by lia. exact S1.
    + unfold set_job. destruct (Nat.eqb j j') eqn:E; [apply Nat.eqb_eq in E; congruence|exact S2].
    + unfold set_job. destruct (Nat.eqb j j') eqn:E; [apply Nat.eqb_eq in E; congruence|exact S3].
    + intros j1 q H1. unfold set_job. destruct (Nat.eqb j1 j'); [intros [= <-]; exact Hex|apply S4, H1].
  - destruct (jc_jobs s j') as [q0|] eqn:Ej; [|constructor; auto]. pose proof (qr_next_mix fuel (heap_of (jc_objs s)) q0) as M.
    destruct (qr_next fuel (heap_of (jc_objs s)) q0) as [q' o]. cbn [fst] in *. constructor; cbn [jc_objs jc_jobs]; [exact S1|..].
    + unfold set_job. destruct (Nat.eqb j j') eqn:E; [apply Nat.eqb_eq in E; congruence|exact S2].
    + unfold set_job. destruct (Nat.eqb j j') eqn:E; [apply Nat.eqb_eq in E; congruence|exact S3].
    + intros j1 q H1. unfold set_job. destruct (Nat.eqb j1 j'); [intros [= <-]; rewrite M; exact (S4 j' q0 Hne Ej)|apply S4, H1].
  - destruct (jc_jobs s j') as [q0|] eqn:Ej; [|constructor; auto]. cbv zeta. cbn [fst]. constructor; cbn [jc_objs jc_jobs]; auto.
    unfold set_obj. pose proof (S4 j' q0 Hne Ej). replace (r =? s_mix (q_self q0)) with false by lia. exact S1.
Qed.

(** A call about job [j]: the same result in both clients. *)
Lemma jsim_same fuel fl j r ev s s' : jsim j r s s' -> jev_job ev = j ->
  (forall idx order r', ev = JExecute j idx order r' -> r' = r) ->
  snd (jstep fuel fl ev s) = snd (jstep fuel fl ev s') /\ jsim j r (fst (jstep fuel fl ev s)) (fst (jstep fuel fl ev s')).
Proof.
  intros [S1 S2 S3 S4] He Hex. assert (S0 : jsim j r s s') by (constructor; assumption).
  destruct ev as [j' idx order r'|j'|j' steps]; cbn [jev_job jstep] in *; subst j'.
  - rewrite (Hex _ _ _ eq_refl) in *. rewrite <- S2, <- S1. destruct (jc_jobs s j) eqn:Ej; [auto|].
    destruct (process_index _ _ _ _) as [m|e]; [|auto]. cbv zeta. cbn [fst snd]. split; [reflexivity|].
    assert (H0 : forall objs, set_obj r m objs r = m) by (intros; unfold set_obj; rewrite Z.eqb_refl; reflexivity).
    constructor; cbn [jc_objs jc_jobs].
    + rewrite !H0. reflexivity.
    + unfold set_job. rewrite Nat.eqb_refl. f_equal. apply qr_init_at, heap_of_at. rewrite !H0. reflexivity.
    + unfold set_job. rewrite Nat.eqb_refl. intros q [= <-]. split; [reflexivity|exact I].
    + intros j1 q H1. unfold set_job. destruct (Nat.eqb j1 j) eqn:E; [apply Nat.eqb_eq in E; congruence|apply S4, H1].
  - rewrite <- S2. destruct (jc_jobs s j) as [q0|] eqn:Ej; [|auto].
    destruct (qr_next_own fuel (heap_of (jc_objs s)) (heap_of (jc_objs s')) r q0 (heap_of_at _ _ _ S1) (S3 _ eq_refl)) as [N1 N2].
    rewrite <- N1. destruct (qr_next fuel (heap_of (jc_objs s)) q0) as [q' o]. cbn [fst snd] in *. split; [reflexivity|].
    constructor; cbn [jc_objs jc_jobs]; [exact S1|..].
    + unfold set_job. rewrite Nat.eqb_refl. reflexivity.
    + unfold set_job. rewrite Nat.eqb_refl. intros q [= <-]. exact N2.
    + intros j1 q H1. unfold set_job. destruct (Nat.eqb j1 j) eqn:E; [apply Nat.eqb_eq in E; congruence|apply S4, H1].
  - rewrite <- S2. destruct (jc_jobs s j) as [q0|] eqn:Ej; [|auto]. cbv zeta. cbn [fst snd]. split; [reflexivity|].
    destruct (S3 _ eq_refl) as [U _]. rewrite U. constructor; cbn [jc_objs jc_jobs]; auto.
    + unfold set_obj. rewrite Z.eqb_refl, S1. reflexivity.
    + rewrite <- S2. exact Ej.
    + intros q Hq. apply S3. congruence.
Qed.

(** Jobs with mixture objects of their own: what a job returns, call by call, is what it would return if the client had
    no other jobs. *)
Theorem C86_separate_partial : forall fuel fl j r evs objs, own_mixture j r evs ->
  results_of j (snd (jrun fuel fl evs (fresh_client objs))) = map snd (snd (jrun fuel fl (calls_of j evs) (fresh_client objs))).
Proof.
  intros fuel fl j r evs objs O1.
  assert (S0 : jsim j r (fresh_client objs) (fresh_client objs)) by (constructor; cbn; auto; discriminate).
  generalize dependent (fresh_client objs). enough (K : forall s s', jsim j r s s' ->
    results_of j (snd (jrun fuel fl evs s)) = map snd (snd (jrun fuel fl (calls_of j evs) s'))) by (intros s H; apply K, H).
  induction evs as [|ev evs IH]; intros s s' S0; [reflexivity|]. cbn [jrun calls_of filter].
  assert (IH' := IH (fun j' idx order r' H => O1 j' idx order r' (or_intror H))).
  destruct (Nat.eqb j (jev_job ev)) eqn:E.
  - apply Nat.eqb_eq in E. destruct (jsim_same fuel fl j r ev s s' S0 (eq_sym E)) as [J1 J2].
    { intros idx order r' ->. apply (O1 j idx order r' (or_introl eq_refl)). reflexivity. }
    cbn [jrun]. destruct (jstep fuel fl ev s) as [s1 o1], (jstep fuel fl ev s') as [s1' o1']. cbn [fst snd] in *. subst o1'.
    specialize (IH' s1 s1' J2). unfold calls_of in IH'. destruct (jrun fuel fl evs s1) as [s2 os2].
    destruct (jrun fuel fl _ s1') as [s2' os2']. cbn [snd map] in *.
    unfold results_of in *. cbn [filter fst]. rewrite E, Nat.eqb_refl. cbn [map snd]. rewrite <- IH', E. reflexivity.
  - assert (E' : jev_job ev <> j) by (intros H; rewrite H, Nat.eqb_refl in E; discriminate).
    assert (J : jsim j r (fst (jstep fuel fl ev s)) s').
    { apply jsim_other; auto. intros j' idx order r' -> H. apply E'. cbn [jev_job]. apply (O1 j' idx order r' (or_introl eq_refl)), H. }
    destruct (jstep fuel fl ev s) as [s1 o1]. cbn [fst] in J. specialize (IH' s1 s' J).
    destruct (jrun fuel fl evs s1) as [s2 os2]. cbn [snd] in *. unfold results_of in *. cbn [filter fst]. rewrite E. exact IH'.
Qed.
Print Assumptions C86_separate_partial.

(** ** Fixed mixtures may be shared *)
(** The kinds of mixtures that do not depend on the query or the training step. *)
Definition fixed_mixture (m : mixture) : Prop := match mx_kind m with KRows _ | KArbitrary => True | _ => False end.

Record fsim (j : nat) (objs : ref -> mixture) (s s' : jclient) : Prop := {
  fs_obj : forall r, heap_of (jc_objs s) r = heap_of objs r /\ fixed_mixture (jc_objs s r);
  fs_obj' : forall r, heap_of (jc_objs s') r = heap_of objs r /\ fixed_mixture (jc_objs s' r);
  fs_job : jc_jobs s j = jc_jobs s' j;
  fs_uses : forall q, jc_jobs s j = Some q -> exists r, qr_uses r q
}.

Lemma fixed_process_index fl idx m : fixed_mixture m -> process_index (depth m) fl idx m = Ok m.
Proof. destruct m as [c st b k]. unfold fixed_mixture. cbn [mx_kind]. destruct k; try contradiction; reflexivity. Qed.
Lemma fixed_feedback objs r steps : fixed_mixture (objs r) ->
  forall r', heap_of (set_obj r (feedback (objs r) steps) objs) r' = heap_of objs r' .
Proof.
  intros F r'. unfold heap_of, set_obj. destruct (r' =? r) eqn:E; [|reflexivity]. apply Z.eqb_eq in E. subst r'.
  destruct (objs r) as [c st b k]. unfold fixed_mixture in F. cbn [mx_kind] in F. destruct k; try contradiction; reflexivity.
Qed.
Lemma fixed_feedback_fixed m steps : fixed_mixture m -> fixed_mixture (feedback m steps).
Proof. destruct m as [c st b k]. exact (fun H => H). Qed.

Lemma set_obj_same r objs r' : set_obj r (objs r) objs r' = objs r'.
Proof. unfold set_obj. destruct (r' =? r) eqn:E; [apply Z.eqb_eq in E; subst; reflexivity|reflexivity]. Qed.

(** What one step does to the objects, whatever the job. *)
Lemma fixed_step fuel fl ev s objs : (forall r, heap_of (jc_objs s) r = heap_of objs r /\ fixed_mixture (jc_objs s r)) ->
  forall r, heap_of (jc_objs (fst (jstep fuel fl ev s))) r = heap_of objs r /\ fixed_mixture (jc_objs (fst (jstep fuel fl ev s)) r).
Proof.
  intros H r. destruct ev as [j idx order r0|j|j steps]; cbn [jstep]; destruct (jc_jobs s j) as [q|]; try exact (H r).
  - rewrite fixed_process_index by apply H. cbv zeta. cbn [fst jc_objs]. unfold heap_of. rewrite set_obj_same. exact (H r).
  - destruct (qr_next fuel (heap_of (jc_objs s)) q). exact (H r).
  - cbv zeta. cbn [fst jc_objs]. rewrite fixed_feedback by apply H. split; [apply H|]. unfold set_obj.
    destruct (r =? s_mix (q_self q)); [apply fixed_feedback_fixed|]; apply H.
Qed.

Lemma fsim_other fuel fl j objs ev s s' : fsim j objs s s' -> jev_job ev <> j -> fsim j objs (fst (jstep fuel fl ev s)) s'.
Proof.
  intros [S1 S2 S3 S4] Hne. assert (E : jc_jobs (fst (jstep fuel fl ev s)) j = jc_jobs s j).
  { destruct ev as [j' idx order r0|j'|j' steps]; cbn [jstep jev_job] in *; destruct (jc_jobs s j') as [q|]; try reflexivity.
    - destruct (process_index _ _ _ _); [|reflexivity]. cbv zeta. cbn [fst jc_jobs]. unfold set_job.
      destruct (Nat.eqb j j') eqn:E; [apply Nat.eqb_eq in E; congruence|reflexivity].
    - destruct (qr_next fuel (heap_of (jc_objs s)) q). cbn [fst jc_jobs]. unfold set_job.
      destruct (Nat.eqb j j') eqn:E; [apply Nat.eqb_eq in E; congruence|reflexivity]. }
  constructor; auto.
  - intros r. apply fixed_step, S1.
  - rewrite E. exact S3.
  - rewrite E. exact S4.
Qed.

Lemma fsim_same fuel fl j objs ev s s' : fsim j objs s s' -> jev_job ev = j ->
  snd (jstep fuel fl ev s) = snd (jstep fuel fl ev s') /\ fsim j objs (fst (jstep fuel fl ev s)) (fst (jstep fuel fl ev s')).
Proof.
  intros [S1 S2 S3 S4] He. pose proof (fixed_step fuel fl ev s objs S1) as F1. pose proof (fixed_step fuel fl ev s' objs S2) as F2.
  enough (K : snd (jstep fuel fl ev s) = snd (jstep fuel fl ev s')
              /\ jc_jobs (fst (jstep fuel fl ev s)) j = jc_jobs (fst (jstep fuel fl ev s')) j
              /\ (forall q, jc_jobs (fst (jstep fuel fl ev s)) j = Some q -> exists r, qr_uses r q)).
  { destruct K as (K1 & K2 & K3). split; [exact K1|]. constructor; assumption. }
  clear F1 F2. destruct ev as [j' idx order r0|j'|j' steps]; cbn [jstep jev_job] in *; subst j'; rewrite <- S3; destruct (jc_jobs s j) as [q|] eqn:Ej.
  - cbn [fst snd]. rewrite <- S3. split; [reflexivity|]. split; [exact Ej|]. rewrite Ej. exact S4.
  - rewrite !fixed_process_index by (apply S1 || apply S2). cbv zeta. cbn [fst snd jc_jobs]. unfold set_job. rewrite Nat.eqb_refl.
    split; [reflexivity|]. split.
    + f_equal. apply qr_init_at. unfold heap_of. rewrite !set_obj_same. change (heap_of (jc_objs s) r0 = heap_of (jc_objs s') r0).
      rewrite (proj1 (S1 r0)), (proj1 (S2 r0)). reflexivity.
    + intros q [= <-]. exists r0. split; [reflexivity|exact I].
  - destruct (S4 q eq_refl) as (r & U).
    assert (E : heap_of (jc_objs s) r = heap_of (jc_objs s') r) by (rewrite (proj1 (S1 r)), (proj1 (S2 r)); reflexivity).
    destruct (qr_next_own fuel _ _ r q E U) as [N1 N2]. rewrite <- N1. destruct (qr_next fuel (heap_of (jc_objs s)) q) as [q' o].
    cbn [fst snd jc_jobs] in *. unfold set_job. rewrite Nat.eqb_refl. split; [reflexivity|]. split; [reflexivity|]. intros q1 [= <-]. exists r. exact N2.
  - cbn [fst snd]. rewrite <- S3. split; [reflexivity|]. split; [exact Ej|]. rewrite Ej. discriminate.
  - cbv zeta. cbn [fst snd jc_jobs]. rewrite <- S3. split; [reflexivity|]. split; [exact Ej|]. rewrite Ej. exact S4.
  - cbn [fst snd]. rewrite <- S3. split; [reflexivity|]. split; [exact Ej|]. rewrite Ej. discriminate.
Qed.

(** If every mixture object is static, hierarchical or arbitrary, jobs may share them. *)
Theorem C86_fixed_partial : forall fuel fl j evs objs, (forall r, fixed_mixture (objs r)) ->
  results_of j (snd (jrun fuel fl evs (fresh_client objs))) = map snd (snd (jrun fuel fl (calls_of j evs) (fresh_client objs))).
Proof.
  intros fuel fl j evs objs Hf.
  assert (S0 : fsim j objs (fresh_client objs) (fresh_client objs)) by (constructor; cbn; auto; discriminate).
  generalize dependent (fresh_client objs). enough (K : forall s s', fsim j objs s s' ->
    results_of j (snd (jrun fuel fl evs s)) = map snd (snd (jrun fuel fl (calls_of j evs) s'))) by (intros s H; apply K, H).
  induction evs as [|ev evs IH]; intros s s' S0; [reflexivity|]. cbn [jrun calls_of filter].
  destruct (Nat.eqb j (jev_job ev)) eqn:E.
  - apply Nat.eqb_eq in E. destruct (fsim_same fuel fl j objs ev s s' S0 (eq_sym E)) as [J1 J2].
    cbn [jrun]. destruct (jstep fuel fl ev s) as [s1 o1], (jstep fuel fl ev s') as [s1' o1']. cbn [fst snd] in *. subst o1'.
    specialize (IH s1 s1' J2). unfold calls_of in IH. destruct (jrun fuel fl evs s1) as [s2 os2].
    destruct (jrun fuel fl _ s1') as [s2' os2']. cbn [snd map] in *.
    unfold results_of in *. cbn [filter fst]. rewrite E, Nat.eqb_refl. cbn [map snd]. rewrite <- IH, E. reflexivity.
  - assert (E' : jev_job ev <> j) by (intros H; rewrite H, Nat.eqb_refl in E; discriminate).
    pose proof (fsim_other fuel fl j objs ev s s' S0 E') as J.
    destruct (jstep fuel fl ev s) as [s1 o1]. cbn [fst] in J. specialize (IH s1 s' J).
    destruct (jrun fuel fl evs s1) as [s2 os2]. cbn [snd] in *. unfold results_of in *. cbn [filter fst]. rewrite E. exact IH.
Qed.
Print Assumptions C86_fixed_partial.

(** ** A shared mixture object *)
Lemma jrun_app fuel fl a : forall b s, jrun fuel fl (a ++ b) s
  = (fst (jrun fuel fl b (fst (jrun fuel fl a s))), snd (jrun fuel fl a s) ++ snd (jrun fuel fl b (fst (jrun fuel fl a s)))).
Proof.
  induction a as [|ev a IH]; intros b s; cbn [app jrun].
  - cbn [fst snd app]. destruct (jrun fuel fl b s); reflexivity.
  - destruct (jstep fuel fl ev s) as [s1 o]. specialize (IH b s1). destruct (jrun fuel fl a s1) as [s2 os]. rewrite IH. reflexivity.
Qed.

Lemma asks_run fuel fl j n : forall s q, jc_jobs s j = Some q ->
  exists s', jrun fuel fl (repeat (JAsk j) n) s = (s', map (fun o => (j, JNext o)) (snd (qrun fuel (repeat (Next (heap_of (jc_objs s))) n) q)))
    /\ jc_objs s' = jc_objs s /\ jc_jobs s' j = Some (fst (qrun fuel (repeat (Next (heap_of (jc_objs s))) n) q))
    /\ (forall j', j' <> j -> jc_jobs s' j' = jc_jobs s j').
Proof.
  induction n as [|n IH]; intros s q Hq; cbn [repeat jrun qrun].
  - exists s. cbn. auto.
  - cbn [jstep jev_job]. rewrite Hq. destruct (qr_next fuel (heap_of (jc_objs s)) q) as [q1 o].
    destruct (IH (mkJC (jc_objs s) (set_job j q1 (jc_jobs s))) q1) as (s' & E1 & E2 & E3 & E4).
    { cbn [jc_jobs]. unfold set_job. rewrite Nat.eqb_refl. reflexivity. }
    cbn [jc_objs jc_jobs] in *. rewrite E1. exists s'.
    destruct (qrun fuel (repeat (Next (heap_of (jc_objs s))) n) q1) as [q2 os]. cbn [fst snd map] in *. split; [reflexivity|]. split; [exact E2|].
    split; [exact E3|]. intros j' Hj'. rewrite (E4 j' Hj'). unfold set_job. destruct (Nat.eqb j' j) eqn:E; [apply Nat.eqb_eq in E; congruence|reflexivity].
Qed.

Lemma qrun_snoc fuel ops : forall h q, qrun fuel (ops ++ [Next h]) q
  = (fst (qr_next fuel h (fst (qrun fuel ops q))), snd (qrun fuel ops q) ++ [snd (qr_next fuel h (fst (qrun fuel ops q)))]).
Proof.
  induction ops as [|[h1|h1 r1] ops IH]; intros h q; cbn [app qrun].
  - cbn [fst snd]. destruct (qr_next fuel h q); reflexivity.
  - destruct (qr_next fuel h1 q) as [q1 o1]. rewrite IH. destruct (qrun fuel ops q1); reflexivity.
  - apply IH.
Qed.

(** Jobs [a] and [b] are executed with the same inferring mixture, [b] after [a] has got any number of chunks: the next
    chunk of [a] follows the distribution of [b]'s query, not that of its own. *)
Theorem C86_shared_refuted : forall fuel fl objs a b r csize step idxa orda idxb ordb rows0 rowsa rowsb n cs c,
  a <> b -> index_ok idxa -> Permutation orda (map fst idxa) ->
  objs r = Mixture csize step true (KInferring rows0) ->
  infer_rows fl csize idxa = Ok rowsa -> infer_rows fl csize idxb = Ok rowsb -> rowsb <> [] ->
  heap_ok (heap_of (set_obj r (Mixture csize step true (KInferring rowsa)) objs)) ->
  heap_ok (heap_of (set_obj r (Mixture csize step true (KInferring rowsb)) objs)) ->
  length cs = n ->
  results_of a (snd (jrun (S fuel) fl (JExecute a idxa orda r :: repeat (JAsk a) n ++ [JExecute b idxb ordb r; JAsk a]) (fresh_client objs)))
  = JTrue :: map (fun c => JNext (NChunk c)) cs ++ [JNext (NChunk c)] ->
  forall k, Z.of_nat (length (rows_under k (rc_index c))) = asked rowsb k.
Proof.
  intros fuel fl objs a b r csize step idxa orda idxb ordb rows0 rowsa rowsb n cs c Hab Hix Hord Hr Ia Ib Hne Ha Hb Hn H.
  cbn [jrun jstep fresh_client jc_jobs jc_objs] in H. rewrite Hr in H. cbn [process_index depth] in H. rewrite Ia in H. cbv zeta in H.
  set (ma := Mixture csize step true (KInferring rowsa)) in *. set (mb := Mixture csize step true (KInferring rowsb)) in *.
  set (qa := qr_init idxa orda (heap_of (set_obj r ma objs)) r false) in *.
  rewrite jrun_app in H. destruct (asks_run (S fuel) fl a n (mkJC (set_obj r ma objs) (set_job a qa (fun _ => None))) qa) as (s' & E1 & E2 & E3 & E4).
  { cbn [jc_jobs]. unfold set_job. rewrite Nat.eqb_refl. reflexivity. }
  rewrite E1 in H. cbn [fst snd jc_objs jc_jobs] in *. set (h1 := heap_of (set_obj r ma objs)) in *.
  cbn [jrun jstep] in H. rewrite (E4 b) in H by congruence. unfold set_job at 1 in H. replace (Nat.eqb b a) with false in H by (symmetry; apply Nat.eqb_neq; congruence).
  rewrite E2 in H. unfold set_obj at 1 2 in H. rewrite Z.eqb_refl in H. unfold ma at 1 2 in H. cbn [process_index depth] in H. rewrite Ib in H. cbv zeta in H.
  cbn [jstep jc_jobs jc_objs] in H. unfold set_job at 1 in H. replace (Nat.eqb a b) with false in H by (symmetry; apply Nat.eqb_neq; congruence).
  rewrite E3 in H. fold mb in H. set (h2 := heap_of (set_obj r mb (set_obj r ma objs))) in *.
  set (ops := repeat (Next h1) n) in *.
  assert (Hq : qrun (S fuel) (ops ++ [Next h2]) qa = (fst (qr_next (S fuel) h2 (fst (qrun (S fuel) ops qa))), map NChunk cs ++ [NChunk c])).
  { rewrite qrun_snoc. f_equal. destruct (qr_next (S fuel) h2 (fst (qrun (S fuel) ops qa))) as [q3 o3]. cbn [fst snd jev_job jrun] in *.
    unfold results_of in H. cbn [filter fst snd map] in H. rewrite Nat.eqb_refl in H. cbn [map snd] in H. injection H as H.
    rewrite filter_app, map_app in H. cbn [filter fst] in H. rewrite Nat.eqb_refl in H.
    replace (Nat.eqb a b) with false in H by (symmetry; apply Nat.eqb_neq; congruence). cbn [map snd] in H.
    assert (F : forall l : list nout, map snd (filter (fun x : nat * jout => Nat.eqb a (fst x)) (map (fun o => (a, JNext o)) l)) = map JNext l).
    { clear. induction l as [|x l IH]; [reflexivity|]. cbn [map filter fst]. rewrite Nat.eqb_refl. cbn [map snd]. rewrite IH. reflexivity. }
    rewrite F in H. assert (J : map JNext (snd (qrun (S fuel) ops qa) ++ [o3]) = map JNext (map NChunk cs ++ [NChunk c])).
    { rewrite !map_app, map_map. cbn [map]. exact H. }
    clear - J. revert J. generalize (snd (qrun (S fuel) ops qa) ++ [o3]) as l1. generalize (map NChunk cs ++ [NChunk c]) as l2.
    induction l2 as [|y l2 IH]; intros [|x l1] J; try discriminate; [reflexivity|]. cbn [map] in J. injection J as -> J. f_equal. apply IH, J. }
  assert (H2ok : heap_ok h2).
  { intros x. specialize (Hb x). unfold h2, heap_of, set_obj in *. destruct (x =? r); exact Hb. }
  assert (Hm : h2 r = mkMix rowsb true csize).
  { unfold h2, heap_of, set_obj. rewrite Z.eqb_refl. reflexivity. }
  change rowsb with (m_rows (mkMix rowsb true csize)). rewrite <- Hm.
  eapply (C49_installed_partial fuel idxa orda h1 r false (ops ++ [Next h2]) _ (map NChunk cs ++ [NChunk c]) n c (h2 r)); auto.
  - apply Forall_app. split; [|constructor; [exact H2ok|constructor]]. apply Forall_forall. intros o Ho. apply repeat_spec in Ho as ->. exact Ha.
  - exact Hq.
  - rewrite nth_error_app2; rewrite map_length, Hn; [|lia]. rewrite Nat.sub_diag. reflexivity.
  - intros i ->. rewrite nth_error_app1 by (rewrite map_length; lia). rewrite nth_error_map.
    destruct (nth_error cs i) as [x|] eqn:Ex; [exists x; reflexivity|apply nth_error_None in Ex; lia].
  - unfold ops. clear. induction n as [|n IH]; [reflexivity|]. cbn. exact IH.
  - rewrite Hm. exact Hne.
  - rewrite Hm. reflexivity.
Qed.
Print Assumptions C86_shared_refuted.

(** Two queries over the keys ka and kb: job 0 has 10 rows of ka and 6 of kb, job 1 has 2 and 6.  They share an inferring
    mixture of 4 rows per chunk (object 0), or have one each (objects 0 and 1). *)
Definition idxb86 : index := [(ka, [(1, [(1, [(0, 2)])])]); (kb, [(1, [(2, [(0, 6)])])])].
Definition objs86 : ref -> mixture := fun _ => Mixture 4 0 true (KInferring []).
Definition shape86 (o : jout) : option (nat * nat) :=
  match o with JNext (NChunk c) => Some (length (rows_under ka (rc_index c)), length (rows_under kb (rc_index c))) | _ => None end.
Definition hist86 (r : ref) : list jevent := JExecute 0 idx_ex order_ex 0 :: repeat (JAsk 0) 1 ++ [JExecute 1 idxb86 [ka; kb] r; JAsk 0].
Example C86_example :
  infer_rows (fun x => x) 4 idx_ex = Ok [(ka, 3); (kb, 1)] /\ infer_rows (fun x => x) 4 idxb86 = Ok [(ka, 1); (kb, 3)]
  /\ map shape86 (results_of 0 (snd (jrun 30 (fun x => x) (hist86 0) (fresh_client objs86)))) = [None; Some (3%nat, 1%nat); Some (1%nat, 3%nat)]
  /\ map shape86 (results_of 0 (snd (jrun 30 (fun x => x) (hist86 1) (fresh_client objs86)))) = [None; Some (3%nat, 1%nat); Some (3%nat, 1%nat)]
  /\ own_mixture 0 0 (hist86 1).
Proof.
  split; [vm_compute; reflexivity|]. split; [vm_compute; reflexivity|]. split; [vm_compute; reflexivity|]. split; [vm_compute; reflexivity|].
  intros j' idx order r' Hin. cbn in Hin. repeat (destruct Hin as [Hin|Hin]; [try discriminate Hin; injection Hin; intros; subst; split; intros; try lia; reflexivity|]). contradiction.
Qed.
