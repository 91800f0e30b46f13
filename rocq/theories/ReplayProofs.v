(** Replaying a saved query (C11). *)
From Verif Require Import Base MixtureKeyModel MixtureKeyProofs UtilsModel UtilsProofs ChunkGenModel SpecChunk ConcurrentModel ReplayModel
  ChunkGenProofs1 ChunkGenProofs2 ChunkGenProofs3 ChunkGenProofs4 ChunkGenProofs5 ChunkGenProofs6 ChunkGenProofs10 ChunkGenProofs11.
From Coq Require Import ZifyBool ZifyNat.
Open Scope Z_scope.

(** ** States that differ only in the log, the key ids and the references *)
Definition gsim (g g' : gstate) : Prop := ret 0 0 g = ret 0 0 g'.
Definition csim (c c' : rchunk) : Prop :=
  rc_index c = rc_index c' /\ rc_csize c = rc_csize c' /\ rc_mid c = rc_mid c' /\ rc_mix c = rc_mix c' /\ rc_strict c = rc_strict c'.
Definition isim (i i' : it) : Prop :=
  match i, i' with
  | ItChunk g c, ItChunk g' c' => gsim g g' /\ csim c c'
  | ItNone g, ItNone g' => gsim g g'
  | ItStop, ItStop => True
  | ItErr e, ItErr e' => e = e'
  | ItBad, ItBad => True
  | _, _ => False
  end.

Lemma gsim_fields g g' : gsim g g' -> g_keys g = g_keys g' /\ g_comps g = g_comps g' /\ g_cur g = g_cur g' /\ g_mid g = g_mid g'
  /\ g_kidx g = g_kidx g' /\ g_empty g = g_empty g' /\ g_prev g = g_prev g' /\ g_fail g = g_fail g'.
Proof. unfold gsim, ret. intros [= -> -> -> -> -> -> -> ->]. repeat split. Qed.

Lemma iter_sim fuel idx h h' g g' sf sf' : gsim g g' -> h (g_base g) = h' (g_base g') ->
  isim (snd (iter fuel idx h g sf)) (snd (iter fuel idx h' g' sf')).
Proof.
  intros Hg Hm. apply gsim_fields in Hg as (G1 & G2 & G3 & G4 & G5 & G6 & G7 & G8). unfold iter. rewrite <- G8.
  destruct (10 <? g_fail g); [exact I|]. rewrite <- Hm. set (m := h (g_base g)).
  destruct (m_rows m) as [|kv rows] eqn:Er.
  - unfold note_arbitrary. rewrite <- G7, <- G3.
    destruct (_ || _); cbn [g_keys g_comps g_cur g_mid g_kidx g_empty g_prev g_fail]; rewrite <- ?G1, <- ?G2, <- ?G3, <- ?G4, <- ?G5, <- ?G6, <- ?G7, <- ?G8;
    destruct (round_robin _ _ _ _ _ _) as [[[comps' kidx'] empty'] ro]; destruct ro; cbn; auto;
    (split; [unfold gsim, ret; cbn; congruence|repeat split; cbn; congruence]).
  - unfold note_mixture. rewrite <- G7, Er.
    destruct (prev_differs _ _); cbn [g_keys g_comps g_cur g_mid g_kidx g_empty g_prev g_fail]; rewrite <- ?G1, <- ?G2, <- ?G3, <- ?G4, <- ?G5, <- ?G6, <- ?G7, <- ?G8;
    (destruct (run_attempt _ _ _) as [a|e]; [|reflexivity]); destruct (att_success a); cbn;
    try (split; [unfold gsim, ret; cbn; congruence|repeat split; cbn; congruence]); unfold gsim, ret; cbn; congruence.
Qed.

(** The key ids after an iteration. *)
Lemma iter_kid fuel idx h g sf sf' i : iter fuel idx h g sf = (sf', i) ->
  (s_kid sf' = s_kid sf \/ s_kid sf' = update_key_id_map idx (m_rows (h (s_mix sf))) (s_kid sf)) /\ s_replay sf' = s_replay sf
  /\ (forall g' c, i = ItChunk g' c -> rc_kid c = s_kid sf').
Proof.
  unfold iter. destruct (10 <? g_fail g); [intros [= <- <-]; split; [auto|split; [reflexivity|discriminate]]|].
  destruct (m_rows (h (g_base g))) as [|kv rows] eqn:Er.
  - unfold note_arbitrary. destruct (_ || _); cbn [fst snd]; destruct (round_robin _ _ _ _ _ _) as [[[comps' kidx'] empty'] ro];
      destruct ro; intros [= <- <-]; cbn; (split; [auto|split; [reflexivity|]]); try discriminate; intros g' c [= <- <-]; reflexivity.
  - unfold note_mixture. destruct (prev_differs _ _); cbn [fst snd]; (destruct (run_attempt _ _ _) as [a|e]; [destruct (att_success a)|]);
      intros [= <- <-]; cbn; (split; [auto|split; [reflexivity|]]); try discriminate; intros g' c [= <- <-]; reflexivity.
Qed.

Lemma assign_ids_id keys : forall cur kid, (forall k, In k keys -> In k (map fst kid)) -> assign_ids keys cur kid = kid.
Proof.
  induction keys as [|k keys IH]; intros cur kid H; cbn; [reflexivity|].
  destruct (aget_some_in _ mkey_eqb_spec k kid) as [v E]; [apply H; cbn; auto|]. unfold amem. rewrite E. apply IH. intros; apply H; cbn; auto.
Qed.
Lemma update_kid_id idx rows kid : (forall k, In k (map fst rows) -> In k (map fst kid)) -> incl (map fst idx) (map fst kid) ->
  update_key_id_map idx rows kid = kid.
Proof.
  intros H Hi. unfold update_key_id_map. destruct kid as [|x l].
  - cbn in *. assert (E : map fst rows ++ map fst idx = []).
    { destruct (map fst rows ++ map fst idx) as [|k ks] eqn:E; [reflexivity|]. exfalso.
      assert (Hin : In k (map fst rows ++ map fst idx)) by (rewrite E; cbn; auto). apply in_app_or in Hin as [Hin|Hin]; [exact (H k Hin)|exact (Hi k Hin)]. }
    rewrite E. reflexivity.
  - apply assign_ids_id. intros k Hk. rewrite ksort_in, dedup_in in Hk. apply H, Hk.
Qed.

Lemma keys_known_mono c kid kid' : keys_known c kid = true -> incl (map fst kid) (map fst kid') -> keys_known c kid' = true.
Proof.
  intros H Hi. pose proof (keys_known_spec c kid H) as Hk. unfold keys_known. apply forallb_forall. intros k Hin.
  destruct (aget_some_in _ mkey_eqb_spec k kid') as [v E]; [apply Hi, Hk, Hin|]. unfold amem. rewrite E. reflexivity.
Qed.

(** ** The log of a history in which every call delivers *)
(** What the generator records for the requests [ms]; [i] = chunk index, [prev] = previous request. *)
Fixpoint log_of (i : Z) (prev : option mixobj) (ms : list mixobj) : list (Z * mixobj) :=
  match ms with
  | [] => []
  | m :: ms' =>
      (if match prev with None => true | Some p => negb (dict_eqb (m_rows p) (m_rows m)) end then [(i, m)] else [])
      ++ log_of (i + 1) (Some m) ms'
  end.

Definition resolved (h : heap) (q : qr) : list (Z * mixobj) := map (fun e => (fst e, resolve h (snd e))) (s_log (q_self q)).

(** Requests with the same row numbers are the same request. *)
Fixpoint steady (prev : option mixobj) (ms : list mixobj) : Prop :=
  match ms with
  | [] => True
  | m :: ms' => (forall p, prev = Some p -> same_dict (m_rows p) (m_rows m) -> p = m) /\ steady (Some m) ms'
  end.

(** An object that is arbitrary when used is unchanged when the query is saved. *)
Definition frozen (hs : heap) (ops : list qop) : Prop :=
  Forall (fun o => match o with Next h => forall r, m_rows (h r) = [] -> hs r = h r | Update _ _ => True end) ops.

Definition gprev (prev : option mixobj) (g : gstate) : Prop :=
  match prev with
  | None => g_prev g = None /\ g_cur g = 0
  | Some p => g_prev g = to_prev (m_rows p) /\ 0 < g_cur g /\ NoDup (map fst (m_rows p))
  end.

Lemma iter_log fuel idx h g sf sf' g' c prev hs : iter fuel idx h g sf = (sf', ItChunk g' c) -> s_replay sf = false -> heap_ok h ->
  gprev prev g -> (forall p, prev = Some p -> same_dict (m_rows p) (m_rows (h (g_base g))) -> p = h (g_base g)) -> 0 <= g_cur g ->
  (m_rows (h (g_base g)) = [] -> hs (g_base g) = h (g_base g)) ->
  map (fun e => (fst e, resolve hs (snd e))) (s_log sf') =
    map (fun e => (fst e, resolve hs (snd e))) (s_log sf) ++ log_of (g_cur g) prev [h (g_base g)]
  /\ gprev (Some (h (g_base g))) g'.
Proof.
  intros H Hr Hh Hp Hst Hc0 Hfz. pose proof (iter_base _ _ _ _ _ _ _ _ H) as (B1 & B2 & B3).
  set (m := h (g_base g)) in *. destruct (Hh (g_base g)) as [[Hnd _] _]. fold m in Hnd. cbn [log_of]. rewrite app_nil_r.
  unfold iter in H. destruct (10 <? g_fail g); [discriminate|]. fold m in H.
  destruct (m_rows m) as [|kv rows] eqn:Er.
  - unfold note_arbitrary in H.
    assert (Eb : (match g_prev g with Some _ => true | None => false end) || (g_cur g =? 0)
                 = match prev with None => true | Some p => negb (dict_eqb (m_rows p) []) end).
    { destruct prev as [p|]; cbn in Hp.
      - destruct Hp as (P1 & P2 & P3). rewrite P1. unfold to_prev. destruct (m_rows p) as [|x l] eqn:Ep; cbn; [lia|reflexivity].
      - destruct Hp as [P1 P2]. rewrite P1, P2. reflexivity. }
    rewrite Eb in H. destruct (match prev with None => true | Some p => negb (dict_eqb (m_rows p) []) end) eqn:E; cbn [fst snd] in H;
      destruct (round_robin _ _ _ _ _ _) as [[[comps' kidx'] empty'] ro]; destruct ro; try discriminate; injection H as <- <- <-; cbn.
    + rewrite Hr, map_app. cbn. rewrite Hfz by reflexivity. fold m. split; [reflexivity|]. rewrite Er. cbn. split; [reflexivity|]. split; [lia|constructor].
    + rewrite app_nil_r. split; [reflexivity|]. rewrite Er. cbn. split; [|split; [lia|constructor]].
      destruct (g_prev g); [discriminate|reflexivity].
  - rewrite <- Er in *. unfold note_mixture in H.
    assert (Eb : prev_differs (g_prev g) (m_rows m) = match prev with None => true | Some p => negb (dict_eqb (m_rows p) (m_rows m)) end).
    { destruct prev as [p|]; cbn in Hp.
      - destruct Hp as (P1 & P2 & P3). rewrite P1. unfold to_prev. destruct (m_rows p) as [|x l] eqn:Ep; [rewrite Er; reflexivity|reflexivity].
      - destruct Hp as [P1 P2]. rewrite P1. reflexivity. }
    rewrite Eb in H. destruct (match prev with None => true | Some p => negb (dict_eqb (m_rows p) (m_rows m)) end) eqn:E; cbn [fst snd] in H;
      (destruct (run_attempt _ _ _) as [a|e]; [|discriminate]); (destruct (att_success a); [|discriminate]); injection H as <- <- <-; cbn.
    + rewrite Hr, map_app. cbn. split; [reflexivity|]. split; [unfold to_prev; rewrite Er; reflexivity|]. split; [lia|exact Hnd].
    + rewrite app_nil_r. split; [reflexivity|]. destruct prev as [p|]; [|discriminate].
      cbn in Hp. destruct Hp as (P1 & P2 & P3). apply negb_false_iff, dict_eqb_spec in E; [|exact P3|exact Hnd].
      rewrite <- (Hst p eq_refl E). split; [exact P1|]. split; [lia|exact P3].
Qed.

Lemma log_of_app ms : forall i prev ms', log_of i prev (ms ++ ms') =
  log_of i prev ms ++ log_of (i + Z.of_nat (length ms)) (match rev ms with m :: _ => Some m | [] => prev end) ms'.
Proof.
  induction ms as [|m ms IH]; intros i prev ms'; cbn [app log_of length rev].
  - rewrite Z.add_0_r. reflexivity.
  - rewrite IH, <- app_assoc. do 2 f_equal. replace (i + 1 + Z.of_nat (length ms)) with (i + Z.of_nat (S (length ms))) by lia.
    f_equal. destruct (rev ms); reflexivity.
Qed.

(** What the history does to the generator, as a chain of iterations; [K] = keys with an id at the end. *)
Inductive steps (F : nat) (idx : index) (K : list mkey) : gstate -> list mixobj -> gstate -> Prop :=
| steps_nil g g' : gsim g g' -> steps F idx K g [] g'
| steps_cons g m ms g1 g' :
    (forall h r sf, h r = m -> exists sf' gx c, iter (S F) idx h (ret r (g_cur g) g) sf = (sf', ItChunk gx c) /\ gsim g1 gx
                     /\ incl (map fst (rc_index c)) K) ->
    incl (map fst (m_rows m)) K -> g_cur g1 = g_cur g + 1 -> steps F idx K g1 ms g' -> steps F idx K g (m :: ms) g'.

Lemma steps_mono F idx K K' g ms g' : incl K K' -> steps F idx K g ms g' -> steps F idx K' g ms g'.
Proof.
  intros Hi H. induction H as [g g' H|g m ms g1 g' H Hm Hc _ IH]; [apply steps_nil, H|]. eapply steps_cons; eauto.
  - intros h r sf E. destruct (H h r sf E) as (sf' & gx & c & H1 & H2 & H3). exists sf', gx, c. repeat split; auto.
    intros k Hk. apply Hi, H3, Hk.
  - intros k Hk. apply Hi, Hm, Hk.
Qed.

Lemma gsim_sym g g' : gsim g g' -> gsim g' g.
Proof. unfold gsim. congruence. Qed.
Lemma gsim_trans a b c : gsim a b -> gsim b c -> gsim a c.
Proof. unfold gsim. congruence. Qed.
Lemma gsim_ret g g' r t : gsim g g' -> ret r t g = ret r t g'.
Proof. intros H. change (ret r t (ret 0 0 g) = ret r t (ret 0 0 g')). rewrite H. reflexivity. Qed.

Lemma steps_left F idx K g0 g ms g' : gsim g g0 -> steps F idx K g ms g' -> steps F idx K g0 ms g'.
Proof.
  intros Hs H. destruct H as [g g' H|g m ms g1 g' H Hm Hc Hr]; [apply steps_nil; eapply gsim_trans; [apply gsim_sym, Hs|exact H]|].
  pose proof (gsim_fields _ _ Hs) as (_ & _ & Ec & _). eapply steps_cons with (g1 := g1); [|exact Hm|rewrite <- Ec; exact Hc|exact Hr].
  intros h r sf E. rewrite <- Ec, <- (gsim_ret _ _ r (g_cur g) Hs). apply H, E.
Qed.

Lemma kid_keys_update idx rows kid : kid_ok kid -> incl (map fst rows) (map fst (update_key_id_map idx rows kid)).
Proof. intros H. destruct (update_kid_spec idx rows kid H) as (U1 & U2 & U3 & U4). intros k Hk. apply U3, Hk. Qed.

Definition pkeys (prev : option mixobj) (kid : list (mkey * Z)) : Prop :=
  match prev with Some p => incl (map fst (m_rows p)) (map fst kid) | None => True end.

(** After an iteration the keys of the request have ids. *)
Lemma iter_keys fuel idx h g sf sf' g' c prev : iter fuel idx h g sf = (sf', ItChunk g' c) -> g_base g = s_mix sf -> heap_ok h ->
  gprev prev g -> (forall p, prev = Some p -> same_dict (m_rows p) (m_rows (h (g_base g))) -> p = h (g_base g)) ->
  kid_ok (s_kid sf) -> pkeys prev (s_kid sf) -> incl (map fst (m_rows (h (g_base g)))) (map fst (s_kid sf')).
Proof.
  intros H Hb Hh Hp Hst Hk Hpk. set (m := h (g_base g)) in *. destruct (Hh (g_base g)) as [[Hnd _] _]. fold m in Hnd.
  unfold iter in H. destruct (10 <? g_fail g); [discriminate|]. fold m in H.
  destruct (m_rows m) as [|kv rows] eqn:Er; [intros k []|]. rewrite <- Er in *. unfold note_mixture in H.
  destruct (prev_differs (g_prev g) (m_rows m)) eqn:E; cbn [fst snd] in H;
    (destruct (run_attempt _ _ _) as [a|e]; [|discriminate]); (destruct (att_success a); [|discriminate]); injection H as <- <- <-; cbn.
  - rewrite <- Hb. apply kid_keys_update, Hk.
  - destruct prev as [p|]; cbn in Hp; [|destruct Hp as [P1 _]; rewrite P1 in E; discriminate].
    destruct Hp as (P1 & P2 & P3). rewrite P1 in E. unfold to_prev in E. destruct (m_rows p) as [|x l] eqn:Ep; [discriminate|].
    rewrite <- Ep in *. cbn [prev_differs] in E. apply negb_false_iff, dict_eqb_spec in E; [|exact P3|exact Hnd].
    rewrite <- (Hst p eq_refl E). exact Hpk.
Qed.

(** ** The original history *)
Lemma history F idx order hs ops : forall q g r q' os prev,
  ready idx order r q g -> gprev prev g -> 0 <= g_cur g -> pkeys prev (q_kid q) -> kidinv idx q -> s_replay (q_self q) = false ->
  Forall (fun o => heap_ok (op_heap o)) ops -> frozen hs ops ->
  qrun (S F) ops q = (q', os) -> Forall is_chunk os -> steady prev (working ops os r None) ->
  exists g' r', ready idx order r' q' g' /\ steps F idx (map fst (q_kid q')) g (working ops os r None) g'
    /\ resolved hs q' = resolved hs q ++ log_of (g_cur g) prev (working ops os r None)
    /\ q_nret q' = q_nret q + Z.of_nat (length os) /\ q_count q' = q_count q + Z.of_nat (length os)
    /\ length (working ops os r None) = length os /\ kidinv idx q' /\ incl (map fst (q_kid q)) (map fst (q_kid q'))
    /\ s_replay (q_self q') = false /\ q_son q' = q_son q.
Proof.
  induction ops as [|[h|h r1] ops IH]; intros q g r q' os prev Hr Hp Hc0 Hpk Hk Hrep Hh Hfz H Ho Hst; cbn [qrun] in H.
  - injection H as <- <-. exists g, r. cbn. split; [exact Hr|]. split; [apply steps_nil; reflexivity|]. rewrite app_nil_r.
    repeat split; try lia; auto; try apply Hk. apply incl_refl.
  - destruct (qr_next (S F) h q) as [q1 o] eqn:E. destruct (qrun (S F) ops q1) as [q2 os2] eqn:E2. injection H as <- <-.
    inversion Ho as [|? ? Ho1 Ho2]; subst. destruct o as [c| | |]; try destruct Ho1.
    inversion Hh as [|? ? Hh1 Hh2]; subst. inversion Hfz as [|? ? Hf1 Hf2]; subst. cbn in Hh1.
    cbn [working] in *. destruct Hst as [Hst1 Hst2].
    pose proof (kidinv_next idx _ _ _ _ _ E Hk) as Hk1.
    pose proof (qr_next_kid _ _ _ _ _ E (ki_ok _ _ Hk)) as (_ & Hext & _).
    destruct (ready_next _ _ _ _ _ _ _ _ _ Hr E) as (g1 & R1 & R2 & R3 & R4).
    pose proof (rd_mix _ _ _ _ _ Hr) as Hmix.
    pose proof (iter_base _ _ _ _ _ _ _ _ R3) as (B1 & B2 & _). cbn [ret g_cur] in B2.
    pose proof (iter_kid _ _ _ _ _ _ _ R3) as (_ & Hrep1 & Hkc). specialize (Hkc _ _ eq_refl).
    destruct (iter_log (S F) idx h (ret r (g_cur g) g) (q_self q) _ _ _ prev hs R3 Hrep Hh1) as [L1 L2]; cbn [ret g_base g_cur]; auto.
    pose proof (iter_keys (S F) idx h (ret r (g_cur g) g) (q_self q) _ _ _ prev R3) as Hkeys. cbn [ret g_base] in Hkeys.
    specialize (Hkeys (eq_sym Hmix) Hh1 Hp Hst1 (ki_ok _ _ Hk) Hpk).
    destruct (IH q1 g1 r q2 os2 (Some (h r)) R1 L2) as (g' & r' & I1 & I2 & I3 & I4 & I5 & I6 & I7 & I8 & I9 & I10); auto; [lia|congruence|].
    assert (Hnret : q_nret q1 = q_nret q + 1 /\ q_son q1 = q_son q).
    { clear - E Hr. destruct Hr as [X1 X2 X3 X4 X5 X6]. rewrite <- (set_count_same q) in E. rewrite (next_send idx order r) in E by assumption.
      destruct (gen_send _ _ _ _ _ _ _) as [[gn sf] out]. destruct out; injection E as <- _; cbn; auto. }
    exists g', r'. split; [exact I1|]. split.
    { eapply steps_cons with (g1 := g1); [| |lia|exact I2].
      - intros h' r2 sf' Em. pose proof (iter_sim (S F) idx h h' (ret r (g_cur g) g) (ret r2 (g_cur g) g) (q_self q) sf' eq_refl) as Hsim.
        cbn [ret g_base] in Hsim. specialize (Hsim (eq_sym Em)). fold (ret r (g_cur g) g) (ret r2 (g_cur g) g) in Hsim. rewrite R3 in Hsim. cbn [snd] in Hsim.
        destruct (iter (S F) idx h' (ret r2 (g_cur g) g) sf') as [sf2 i2]. cbn [snd] in Hsim. destruct i2 as [gx cx| | | |]; try destruct Hsim.
        destruct H0 as (C1 & _). exists sf2, gx, cx. split; [reflexivity|]. split; [exact H|]. rewrite <- C1.
        intros k Hk'. apply I8. unfold q_kid. rewrite <- Hkc. apply (keys_known_spec _ _ R4 k Hk').
      - intros k Hk'. apply I8, Hkeys, Hk'. }
    split.
    { rewrite I3. unfold resolved at 1. rewrite L1. unfold resolved. rewrite <- app_assoc. f_equal. rewrite B2. cbn [log_of]. rewrite app_nil_r. reflexivity. }
    cbn [length]. repeat split; try lia; auto; try congruence; try apply I7.
    intros k Hk'. apply I8, (kid_ext_keys _ _ Hext), Hk'.
  - inversion Hh as [|? ? Hh1 Hh2]; subst. inversion Hfz as [|? ? Hf1 Hf2]; subst. cbn [working] in *.
    pose proof (update_kid_spec (q_idx q) (m_rows (h r1)) (q_kid q) (ki_ok _ _ Hk)) as (U1 & U2 & U3 & U4).
    destruct (IH (qr_update_mixture h r1 q) g r1 q' os prev) as (g' & r' & I1 & I2 & I3 & I4 & I5 & I6 & I7 & I8 & I9 & I10); auto.
    + destruct Hr as [X1 X2 X3 X4 X5 X6]. constructor; cbn; auto.
    + destruct prev as [p|]; [|exact I]. intros k Hk'. apply (kid_ext_keys _ _ U2), Hpk, Hk'.
    + apply kidinv_update, Hk.
    + exists g', r'. repeat split; auto; try apply I1; try apply I7. intros k Hk'. apply I8, (kid_ext_keys _ _ U2), Hk'.
Qed.

(** ** The replay *)
Lemma dict_eqb_refl m : NoDup (map fst m) -> dict_eqb m m = true.
Proof. intros H. apply dict_eqb_spec; auto. intros k; reflexivity. Qed.

Lemma log_of_idx ms : forall i p j m, nth_error (log_of i p ms) 0 = Some (j, m) -> i <= j.
Proof.
  induction ms as [|m0 ms IH]; intros i p j m H; cbn [log_of] in H; [discriminate|].
  destruct (match p with None => true | Some p0 => negb (dict_eqb (m_rows p0) (m_rows m0)) end); cbn [app] in H.
  - cbn in H. injection H as <- _. lia.
  - apply IH in H. lia.
Qed.

Lemma nth_skipn0 {A} li (l : list A) : nth_error l li = nth_error (skipn li l) 0.
Proof. rewrite nth_error_skipn. f_equal. lia. Qed.

Lemma skipn_S {A} li (l : list A) x t : skipn li l = x :: t -> skipn (S li) l = t.
Proof.
  revert l; induction li as [|li IH]; intros l H; [cbn in H; subst; reflexivity|].
  destruct l as [|y l]; [discriminate|]. cbn [skipn] in *. apply IH in H. exact H.
Qed.

Lemma last_cons {A} (ms : list A) : forall m d, last (m :: ms) d = last ms m.
Proof. induction ms as [|x ms IH]; intros m d; [reflexivity|]. change (last (x :: ms) d = last (x :: ms) m). rewrite !IH. reflexivity. Qed.

Section Replay.
  Variables (F : nat) (idx : index) (order : list mkey) (hl : heap) (L : list (Z * mixobj)) (kid : list (mkey * Z)).
  Hypothesis Hhl : forall j e, nth_error L j = Some e -> hl (Z.of_nat j) = snd e.
  Hypothesis Hidx : incl (map fst idx) (map fst kid).

  Lemma replay_next q r g m g1 : ready idx order r q g -> hl r = m -> s_kid (q_self q) = kid -> s_replay (q_self q) = true ->
    incl (map fst (m_rows m)) (map fst kid) ->
    (forall h r sf, h r = m -> exists sf' gx c, iter (S F) idx h (ret r (g_cur g) g) sf = (sf', ItChunk gx c) /\ gsim g1 gx
                     /\ incl (map fst (rc_index c)) (map fst kid)) ->
    exists q' c g', qr_next (S F) hl q = (q', NChunk c) /\ ready idx order r q' g' /\ gsim g1 g' /\ s_kid (q_self q') = kid
      /\ s_replay (q_self q') = true /\ q_count q' = q_count q + 1 /\ q_nret q' = q_nret q + 1 /\ s_log (q_self q') = s_log (q_self q)
      /\ q_son q' = q_son q.
  Proof.
    intros Hr Hm Hkid Hrep Hkm Hit. destruct (Hit hl r (q_self q) Hm) as (sf' & gx & c & I1 & I2 & I3).
    pose proof (iter_kid _ _ _ _ _ _ _ I1) as (Hk1 & Hrep1 & Hkc). specialize (Hkc _ _ eq_refl).
    destruct Hr as [R1 R2 R3 R4 R5 R6].
    assert (Hk' : s_kid sf' = kid).
    { destruct Hk1 as [-> | ->]; [exact Hkid|]. rewrite R3, Hm, Hkid. apply update_kid_id; auto. }
    assert (Hkn : keys_known (rc_index c) (rc_kid c) = true).
    { rewrite Hkc, Hk'. unfold keys_known. apply forallb_forall. intros k Hk.
      destruct (aget_some_in _ mkey_eqb_spec k kid) as [v E]; [apply I3, Hk|]. unfold amem. rewrite E. reflexivity. }
    assert (Hlog : s_log sf' = s_log (q_self q)).
    { clear - I1 Hrep. unfold iter in I1. destruct (10 <? g_fail _); [discriminate|]. cbn [ret g_base] in I1.
      destruct (m_rows (hl r)) as [|kv rows] eqn:Er.
      - unfold note_arbitrary in I1. destruct (_ || _); cbn [fst snd] in I1; destruct (round_robin _ _ _ _ _ _) as [[[? ?] ?] ro]; destruct ro; try discriminate;
          injection I1 as <- <- <-; cbn; rewrite ?Hrep; reflexivity.
      - unfold note_mixture in I1. destruct (prev_differs _ _); cbn [fst snd] in I1; (destruct (run_attempt _ _ _) as [a|e]; [|discriminate]);
          (destruct (att_success a); [|discriminate]); injection I1 as <- <- <-; cbn; rewrite ?Hrep; reflexivity. }
    pose proof (iter_smix _ _ _ _ _ _ _ I1) as Hsm.
    pose proof (iter_base _ _ _ _ _ _ _ _ I1) as (B1 & B2 & B3). cbn [ret g_cur] in B2.
    pose proof (next_send idx order r q (S F) hl (q_count q) R3 R4 R5 R6) as Hn. rewrite set_count_same, R1 in Hn. cbn [gen_send] in Hn.
    fold (ret r (q_count q) g) in Hn. rewrite <- R2, gen_loop_iter, I1 in Hn. cbn [ret g_cur g_target] in Hn. rewrite Z.eqb_refl, Hkn in Hn. rewrite Hn.
    eexists _, c, gx. split; [reflexivity|]. cbn [q_self q_count q_nret q_son].
    split; [constructor; cbn; auto; try lia; try congruence; discriminate|].
    repeat split; auto; try lia.
  Qed.

  Lemma replay_loop_ok ms : forall li i p q g r gN, ready idx order r q g -> g_cur g = i ->
    steps F idx (map fst kid) g ms gN -> hl r = p -> skipn li L = log_of i (Some p) ms -> steady (Some p) ms ->
    Forall (fun m => NoDup (map fst (m_rows m))) (p :: ms) -> s_kid (q_self q) = kid -> s_replay (q_self q) = true ->
    exists q' g' r', replay_loop (S F) hl L li i (length ms) q = Loaded q' /\ ready idx order r' q' g' /\ gsim gN g'
      /\ hl r' = last ms p /\ s_kid (q_self q') = kid /\ s_log (q_self q') = s_log (q_self q) /\ s_replay (q_self q') = true
      /\ q_count q' = q_count q + Z.of_nat (length ms) /\ q_nret q' = q_nret q + Z.of_nat (length ms) /\ q_son q' = q_son q.
  Proof.
    induction ms as [|m ms IH]; intros li i p q g r gN Hr Hi Hs Hp Hl Hst Hnd Hkid Hrep.
    - inversion Hs as [? ? Hg|]; subst. cbn [length replay_loop]. exists q, g, r. repeat split; auto; try apply Hr; try lia. apply gsim_sym, Hg.
    - inversion Hs as [|? ? ? g1 ? Hit Hkm Hc1 Hrest]; subst g0 m0 ms0 g'. destruct Hst as [Hst1 Hst2].
      pose proof (Forall_inv Hnd) as Hnp. pose proof (Forall_inv_tail Hnd) as Hnd'. pose proof (Forall_inv Hnd') as Hnm. cbn beta in Hnp, Hnm. subst p i.
      cbn [length replay_loop]. rewrite nth_skipn0, Hl. cbn [log_of].
      destruct (negb (dict_eqb (m_rows (hl r)) (m_rows m))) eqn:Ed; cbn [app nth_error].
      + rewrite Z.eqb_refl.
        assert (Hm : hl (Z.of_nat li) = m).
        { rewrite (Hhl li (g_cur g, m)); [reflexivity|]. rewrite nth_skipn0, Hl. cbn [log_of]. rewrite Ed. reflexivity. }
        assert (Hr1 : ready idx order (Z.of_nat li) (qr_update_mixture hl (Z.of_nat li) q) g).
        { destruct Hr as [X1 X2 X3 X4 X5 X6]. constructor; cbn; auto. }
        destruct (replay_next _ _ _ m g1 Hr1 Hm) as (q2 & c & g2 & N1 & N2 & N3 & N4 & N5 & N6 & N7 & N8 & N9); auto.
        { cbn. rewrite Hkid, Hm, (rd_idx _ _ _ _ _ Hr). apply update_kid_id; auto. }
        rewrite N1.
        destruct (IH (S li) (g_cur g + 1) m q2 g2 (Z.of_nat li) gN N2) as (q' & g' & r' & I1 & I2 & I3 & I4 & I5 & I6 & I7 & I8 & I9 & I10); auto.
        { rewrite <- (proj1 (proj2 (proj2 (gsim_fields _ _ N3)))). exact Hc1. }
        { eapply steps_left; eassumption. }
        { eapply skipn_S. rewrite Hl. cbn [log_of]. rewrite Ed. reflexivity. }
        exists q', g', r'. cbn in N6, N7, N8, N9. split; [exact I1|]. repeat split; auto; try apply I2; try lia; try congruence.
        rewrite I4. symmetry. apply last_cons.
      + assert (Hpm : hl r = m) by (apply Hst1; [reflexivity|]; apply dict_eqb_spec; auto; apply negb_false_iff, Ed).
        destruct (replay_next _ _ _ m g1 Hr Hpm) as (q2 & c & g2 & N1 & N2 & N3 & N4 & N5 & N6 & N7 & N8 & N9); auto.
        assert (Hno : match nth_error (log_of (g_cur g + 1) (Some m) ms) 0 with
                      | Some (j, _) => if j =? g_cur g then (qr_update_mixture hl (Z.of_nat li) q, S li) else (q, li)
                      | None => (q, li)
                      end = (q, li)).
        { destruct (nth_error (log_of (g_cur g + 1) (Some m) ms) 0) as [[j mm]|] eqn:En; [|reflexivity].
          apply log_of_idx in En. replace (j =? g_cur g) with false by lia. reflexivity. }
        cbn [nth_error] in Hno. rewrite Hno, N1.
        destruct (IH li (g_cur g + 1) m q2 g2 r gN N2) as (q' & g' & r' & I1 & I2 & I3 & I4 & I5 & I6 & I7 & I8 & I9 & I10); auto.
        { rewrite <- (proj1 (proj2 (proj2 (gsim_fields _ _ N3)))). exact Hc1. }
        { eapply steps_left; eassumption. }
        { rewrite Hl. cbn [log_of]. rewrite Ed. reflexivity. }
        exists q', g', r'. split; [exact I1|]. repeat split; auto; try apply I2; try lia; try congruence.
        rewrite I4. symmetry. apply last_cons.
  Qed.
End Replay.

(** ** Equal futures *)
Record sfsim (a b : qself) : Prop := { ss_kid : s_kid a = s_kid b; ss_mix : s_mix a = s_mix b }.

Lemma iter_sf fuel idx h g a b : sfsim a b ->
  snd (iter fuel idx h g a) = snd (iter fuel idx h g b) /\ sfsim (fst (iter fuel idx h g a)) (fst (iter fuel idx h g b)).
Proof.
  intros [S1 S2]. unfold iter. destruct (10 <? g_fail g); [split; [reflexivity|constructor; auto]|].
  destruct (m_rows (h (g_base g))) as [|kv rows] eqn:Er.
  - unfold note_arbitrary. destruct (_ || _); cbn [fst snd]; destruct (round_robin _ _ _ _ _ _) as [[[comps' kidx'] empty'] ro];
      destruct ro; cbn [fst snd s_kid]; rewrite ?S1; (split; [reflexivity|constructor; cbn; auto]).
  - unfold note_mixture. destruct (prev_differs _ _); cbn [fst snd];
      (destruct (run_attempt _ _ _) as [a0|e]; [destruct (att_success a0)|]); cbn [fst snd s_kid]; rewrite ?S1, ?S2;
      (split; [reflexivity|constructor; cbn; congruence]).
Qed.

Lemma gen_loop_sf fuel idx h : forall g a b, sfsim a b ->
  fst (fst (gen_loop fuel idx h g a)) = fst (fst (gen_loop fuel idx h g b)) /\ snd (gen_loop fuel idx h g a) = snd (gen_loop fuel idx h g b)
  /\ sfsim (snd (fst (gen_loop fuel idx h g a))) (snd (fst (gen_loop fuel idx h g b))).
Proof.
  induction fuel as [|fuel IH]; intros g a b Sf; [cbn; auto|]. rewrite !gen_loop_iter.
  destruct (iter_sf (S fuel) idx h g a b Sf) as [E1 E2].
  destruct (iter (S fuel) idx h g a) as [a' i], (iter (S fuel) idx h g b) as [b' i']. cbn [fst snd] in E1, E2. subst i'.
  destruct i as [g' c|g'| |e|]; cbn; auto. destruct (g_cur g =? g_target g); [destruct (keys_known _ _); cbn; auto|]. apply IH, E2.
Qed.

Record qsim (idx : index) (order : list mkey) (q q' : qr) : Prop := {
  qs_idx : q_idx q = idx /\ q_idx q' = idx;
  qs_order : q_order q = order /\ q_order q' = order;
  qs_sf : sfsim (q_self q) (q_self q');
  qs_count : q_count q = q_count q';
  qs_son : q_son q = q_son q';
  qs_nret : (q_gen q = None -> q_nret q = 0) /\ (q_gen q' = None -> q_nret q' = 0);
  qs_gen : match qgen idx order q, qgen idx order q' with
           | GChunk g, GChunk g' => gsim g g'
           | GNone g, GNone g' => g = g'
           | GDone, GDone => True
           | _, _ => False
           end
}.

Lemma qsim_next idx order fuel h q q' : qsim idx order q q' ->
  snd (qr_next fuel h q) = snd (qr_next fuel h q') /\ qsim idx order (fst (qr_next fuel h q)) (fst (qr_next fuel h q')).
Proof.
  intros [[Q1 Q1'] [Q2 Q2'] Q3 Q4 Q5 [Q6 Q6'] Q7]. pose proof Q3 as [K1 K2].
  rewrite <- (set_count_same q), <- (set_count_same q'). rewrite !(next_send idx order (s_mix (q_self q'))) by auto.
  rewrite Q4, <- Q5.
  assert (Hs : fst (fst (gen_send fuel idx h (qgen idx order q) (q_self q) (s_mix (q_self q')) (q_count q')))
               = fst (fst (gen_send fuel idx h (qgen idx order q') (q_self q') (s_mix (q_self q')) (q_count q')))
               /\ snd (gen_send fuel idx h (qgen idx order q) (q_self q) (s_mix (q_self q')) (q_count q'))
                  = snd (gen_send fuel idx h (qgen idx order q') (q_self q') (s_mix (q_self q')) (q_count q'))
               /\ sfsim (snd (fst (gen_send fuel idx h (qgen idx order q) (q_self q) (s_mix (q_self q')) (q_count q'))))
                        (snd (fst (gen_send fuel idx h (qgen idx order q') (q_self q') (s_mix (q_self q')) (q_count q'))))).
  { destruct (qgen idx order q) as [g|g|], (qgen idx order q') as [g'|g'|]; try (exfalso; exact Q7); cbn [gen_send].
    - fold (ret (s_mix (q_self q')) (q_count q') g) (ret (s_mix (q_self q')) (q_count q') g'). rewrite (gsim_ret _ _ _ _ Q7). apply gen_loop_sf, Q3.
    - rewrite Q7. apply gen_loop_sf, Q3.
    - cbn. auto. }
  destruct (gen_send fuel idx h (qgen idx order q) (q_self q) _ _) as [[gn sf] out].
  destruct (gen_send fuel idx h (qgen idx order q') (q_self q') _ _) as [[gn' sf'] out']. cbn [fst snd] in Hs. destruct Hs as (-> & -> & Hsf).
  assert (Hg : match gn', gn' with GChunk g, GChunk g' => gsim g g' | GNone g, GNone g' => g = g' | GDone, GDone => True | _, _ => False end)
    by (destruct gn'; auto; reflexivity).
  destruct out'; cbn [fst snd]; (split; [reflexivity|]); constructor; cbn; auto; split; discriminate.
Qed.

Lemma qsim_update idx order h r q q' : qsim idx order q q' -> qsim idx order (qr_update_mixture h r q) (qr_update_mixture h r q').
Proof.
  intros [[Q1 Q1'] [Q2 Q2'] [K1 K2] Q4 Q5 [Q6 Q6'] Q7]. constructor; cbn; auto. constructor; cbn; [|reflexivity]. rewrite Q1, Q1', K1. reflexivity.
Qed.

Lemma qsim_run idx order fuel ops : forall q q', qsim idx order q q' -> snd (qrun fuel ops q) = snd (qrun fuel ops q').
Proof.
  induction ops as [|[h|h r] ops IH]; intros q q' Hq; cbn [qrun]; [reflexivity| |apply IH, qsim_update, Hq].
  destruct (qsim_next idx order fuel h q q' Hq) as [E1 E2]. destruct (qr_next fuel h q) as [q1 o], (qr_next fuel h q') as [q1' o'].
  cbn [fst snd] in E1, E2. subst o'. specialize (IH q1 q1' E2). destruct (qrun fuel ops q1) as [q2 os], (qrun fuel ops q1') as [q2' os'].
  cbn [snd] in *. congruence.
Qed.
