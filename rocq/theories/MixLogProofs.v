(** Proofs about the mixture log on disk (C81). *)
From Verif Require Import Base MixtureKeyModel MixtureKeyProofs UtilsModel UtilsProofs ChunkGenModel SpecChunk ReplayModel MixLogModel SpecMixLog
  ChunkGenProofs1 ChunkGenProofs2 ChunkGenProofs3 ChunkGenProofs4 ChunkGenProofs5 ChunkGenProofs6.
From Coq Require Import ZifyBool ZifyNat.
Open Scope Z_scope.

(** ** The writing generator does what the generator does *)
Lemma gen_loop_w_erase fuel idx h cnt : forall g sf, fst (gen_loop_w fuel idx h cnt g sf) = gen_loop fuel idx h g sf.
Proof.
  induction fuel as [|fuel IH]; intros g sf; cbn [gen_loop_w gen_loop]; [reflexivity|].
  destruct (10 <? g_fail g); [reflexivity|].
  destruct (m_rows (h (g_base g))) as [|kv rows] eqn:Er.
  - destruct (note_arbitrary g sf) as [g1 sf1]. cbv zeta.
    destruct (round_robin _ _ _ _ _ _) as [[[comps' kidx'] empty'] ro]. destruct ro; try reflexivity.
    destruct (_ =? _); [destruct (keys_known _ _); reflexivity|].
    match goal with |- context [gen_loop_w fuel idx h cnt ?a ?b] => specialize (IH a b); destruct (gen_loop_w fuel idx h cnt a b) end. exact IH.
  - rewrite <- Er. destruct (note_mixture idx h g sf (h (g_base g))) as [g1 sf1]. cbv zeta.
    destruct (run_attempt _ _ _) as [a|e]; [|reflexivity]. destruct (att_success a); [|reflexivity].
    destruct (_ =? _); [destruct (keys_known _ _); reflexivity|].
    match goal with |- context [gen_loop_w fuel idx h cnt ?a ?b] => specialize (IH a b); destruct (gen_loop_w fuel idx h cnt a b) end. exact IH.
Qed.

Lemma gen_loop_w_once fuel idx h cnt g sf gn' sf' out ws :
  g_cur g = g_target g -> gen_loop_w (S fuel) idx h cnt g sf = (gn', sf', out, ws) ->
  (10 < g_fail g /\ ws = [])
  \/ (g_fail g <= 10 /\ exists w2,
      ws = (if bump g (m_rows (h (g_base g))) then [persist_log h cnt (snd (noted idx h g sf))] else []) ++ w2
      /\ (w2 = [] \/ w2 = [WIdx (g_cur g)]) /\ (forall c, out = YChunk c -> w2 = [WIdx (g_cur g)])
      /\ (w2 <> [] -> (exists c, out = YChunk c) \/ exists e, out = YErr e)).
Proof.
  intros Hct H. cbn [gen_loop_w] in H. destruct (10 <? g_fail g) eqn:Ef.
  { injection H as <- <- <- <-. left. split; [lia|reflexivity]. }
  right. split; [lia|]. unfold noted, bump. set (m := h (g_base g)) in *.
  destruct (m_rows m) as [|kv0 rows0] eqn:Erows.
  - pose proof (note_arbitrary_g g sf) as Hn.
    destruct (note_arbitrary g sf) as [g1 sf1]. destruct Hn as (N1 & N2 & N3 & N4 & N5 & N6 & N7 & N8). cbn [fst snd] in *. cbv zeta in H.
    rewrite N6, N7, Hct, Z.eqb_refl in H. rewrite Hct. destruct (round_robin _ _ _ _ _ _) as [[[comps' kidx'] empty'] ro].
    destruct ro; [destruct (keys_known _ _)| |]; injection H as <- <- <- <-.
    + eexists. split; [reflexivity|]. split; [auto|]. split; [reflexivity|]. intros _. left. eauto.
    + eexists. split; [reflexivity|]. split; [auto|]. split; [reflexivity|]. intros _. right. eauto.
    + exists []. rewrite app_nil_r. split; [reflexivity|]. split; [auto|]. split; [discriminate|]. intros []; reflexivity.
    + exists []. rewrite app_nil_r. split; [reflexivity|]. split; [auto|]. split; [discriminate|]. intros []; reflexivity.
  - rewrite <- Erows in *. pose proof (note_mixture_g idx h g sf m) as Hn.
    destruct (note_mixture idx h g sf m) as [g1 sf1]. destruct Hn as (N1 & N2 & N3 & N4 & N5 & N6 & N7 & N8). cbn [fst snd] in *. cbv zeta in H.
    rewrite N6, N7, Hct, Z.eqb_refl in H. rewrite Hct.
    destruct (run_attempt _ _ _) as [a|e]; [destruct (att_success a); [destruct (keys_known _ _)|]|]; injection H as <- <- <- <-.
    + eexists. split; [reflexivity|]. split; [auto|]. split; [reflexivity|]. intros _. left. eauto.
    + eexists. split; [reflexivity|]. split; [auto|]. split; [reflexivity|]. intros _. right. eauto.
    + exists []. rewrite app_nil_r. split; [reflexivity|]. split; [auto|]. split; [discriminate|]. intros []; reflexivity.
    + exists []. rewrite app_nil_r. split; [reflexivity|]. split; [auto|]. split; [discriminate|]. intros []; reflexivity.
Qed.

(** ** The log as a list of row numbers *)
Definition logged_rows (l : logged) : list (mkey * Z) := match l with LSnap m => m_rows m | LRef _ => [] end.
Definition alog (q : qr) : list (Z * list (mkey * Z)) := map (fun e => (fst e, logged_rows (snd e))) (s_log (q_self q)).
Definition json (l : list (Z * list (mkey * Z))) : list (Z * list (str * Z)) :=
  fold_left (fun d e => aset Z.eqb (fst e) (stringified (snd e)) d) l [].

Definition refs_empty (hs : list heap) (log : list (Z * logged)) : Prop :=
  Forall (fun e => match snd e with LRef r => forall h, In h hs -> m_rows (h r) = [] | LSnap _ => True end) log.

Lemma log_json_json h hs log : refs_empty hs log -> In h hs -> log_json h log = json (map (fun e => (fst e, logged_rows (snd e))) log).
Proof.
  intros Hr Hin. unfold log_json, json. generalize (@nil (Z * list (str * Z))) as d. induction log as [|e log IH]; intros d; cbn [fold_left map]; [reflexivity|].
  inversion Hr as [|? ? He Hr']; subst. destruct e as [i l]. cbn [fst snd] in *.
  assert (E : m_rows (resolve h l) = logged_rows l) by (destruct l; cbn in *; [reflexivity|apply He, Hin]). rewrite E. apply IH, Hr'.
Qed.

Lemma Zeqb_spec' a b : (a =? b) = true <-> a = b.
Proof. apply Z.eqb_eq. Qed.

Lemma aget_fold {A V W} (eqb : A -> A -> bool) (Hs : forall a b, eqb a b = true <-> a = b) (f : V -> W) (l : list (A * V)) : forall d k,
  aget eqb k (fold_left (fun d e => aset eqb (fst e) (f (snd e)) d) l d)
  = match find (fun e => eqb k (fst e)) (rev l) with Some e => Some (f (snd e)) | None => aget eqb k d end.
Proof.
  induction l as [|e l IH] using rev_ind; intros d k; [reflexivity|]. rewrite fold_left_app, rev_app_distr. cbn [fold_left rev app find].
  destruct (eqb k (fst e)) eqn:E.
  - apply Hs in E. subst k. apply (aget_aset_same _ Hs).
  - rewrite (aget_aset_other _ Hs); [apply IH|]. intros Hx. rewrite <- Hx, (proj2 (Hs _ _) eq_refl) in E. discriminate.
Qed.

Definition latest (i : Z) (l : list (Z * list (mkey * Z))) : option (Z * list (mkey * Z)) := find (fun e => fst e <=? i) (rev l).

Fixpoint nondec (l : list (Z * list (mkey * Z))) : Prop :=
  match l with [] => True | e :: l' => Forall (fun e' => fst e <= fst e') l' /\ nondec l' end.

Lemma nondec_app l e : nondec (l ++ [e]) <-> nondec l /\ Forall (fun e' => fst e' <= fst e) l.
Proof.
  induction l as [|x l IH]; cbn [app nondec]; [repeat split; auto; constructor|]. rewrite IH, Forall_app. split.
  - intros [[H1 H2] [H3 H4]]. inversion H2; subst. split; [split; assumption|]. constructor; assumption.
  - intros [[H1 H3] H4]. inversion H4; subst. split; [split; [exact H1|constructor; [assumption|constructor]]|]. split; assumption.
Qed.

Lemma latest_json l : nondec l -> forall i j rows, latest i l = Some (j, rows) ->
  j <= i /\ aget Z.eqb j (json l) = Some (stringified rows) /\ (forall j', j < j' <= i -> aget Z.eqb j' (json l) = None) /\ In (j, rows) l.
Proof.
  intros Hn i j rows H. unfold json. setoid_rewrite (aget_fold Z.eqb Zeqb_spec' stringified). revert Hn H.
  induction l as [|e l IH] using rev_ind; [discriminate|]. intros Hn H. apply nondec_app in Hn as [Hn Hle]. unfold latest in *. rewrite rev_app_distr in *. cbn [rev app find] in *.
  destruct (fst e <=? i) eqn:E.
  - injection H as ->. cbn [fst] in *. split; [lia|]. split; [rewrite Z.eqb_refl; reflexivity|]. split; [|apply in_or_app; cbn; auto].
    intros j' Hj. destruct (j' =? j) eqn:E'; [lia|]. destruct (find (fun e => j' =? fst e) (rev l)) as [x|] eqn:Ef; [|reflexivity].
    apply find_some in Ef as [Hin Hx]. apply in_rev in Hin. rewrite Forall_forall in Hle. specialize (Hle _ Hin). cbn in Hle. lia.
  - destruct (IH Hn H) as (I1 & I2 & I3 & I4). split; [exact I1|]. split; [|split; [|apply in_or_app; auto]].
    + destruct (j =? fst e) eqn:E'; [lia|exact I2].
    + intros j' Hj. destruct (j' =? fst e) eqn:E'; [lia|]. apply I3, Hj.
Qed.

Lemma latest_app l e i : i < fst e -> latest i (l ++ [e]) = latest i l.
Proof. intros H. unfold latest. rewrite rev_app_distr. cbn. destruct (fst e <=? i) eqn:E; [lia|reflexivity]. Qed.
Lemma latest_last l e i : fst e <= i -> latest i (l ++ [e]) = Some e.
Proof. intros H. unfold latest. rewrite rev_app_distr. cbn. destruct (fst e <=? i) eqn:E; [reflexivity|lia]. Qed.

(** ** The JSON form of row numbers *)
Definition rows_fine (rows : list (mkey * Z)) : Prop :=
  NoDup (map fst rows) /\ forall k k' v v', aget mkey_eqb k rows = Some v -> aget mkey_eqb k' rows = Some v' -> key_str k = key_str k' -> k = k'.

Lemma str_eqb_spec'' a b : str_eqb a b = true <-> a = b.
Proof. apply str_eqb_spec. Qed.

Lemma stringified_json rows : rows_fine rows -> json_of rows (stringified rows).
Proof.
  intros [Hnd Ht] s v. unfold stringified.
  assert (E : fold_left (fun d kv => aset str_eqb (key_str (fst kv)) (snd kv) d) rows []
            = fold_left (fun d e => aset str_eqb (fst e) (snd e) d) (map (fun kv => (key_str (fst kv), snd kv)) rows) []).
  { generalize (@nil (str * Z)) as d. clear. induction rows as [|kv rows IH]; intros d; cbn; [reflexivity|apply IH]. }
  rewrite E. clear E. pose proof (aget_fold str_eqb str_eqb_spec'' (fun x : Z => x) (map (fun kv => (key_str (fst kv), snd kv)) rows) [] s) as Ha.
  cbn beta in Ha. rewrite Ha. clear Ha. cbn [aget]. split.
  - destruct (find _ _) as [e|] eqn:Ef; [|discriminate]. intros [= <-]. apply find_some in Ef as [Hin Hs]. apply in_rev, in_map_iff in Hin as ([k x] & <- & Hin).
    cbn in *. apply str_eqb_spec'' in Hs. subst s. exists k. split; [reflexivity|]. apply (in_aget _ mkey_eqb_spec); assumption.
  - intros (k & <- & Hk). destruct (find _ _) as [e|] eqn:Ef.
    + apply find_some in Ef as [Hin Hs]. apply in_rev, in_map_iff in Hin as ([k' x] & <- & Hin). cbn in *. apply str_eqb_spec'' in Hs.
      pose proof (in_aget _ mkey_eqb_spec _ _ _ Hnd Hin) as Hx. assert (k = k') by (eapply Ht; eauto). subst k'. congruence.
    + exfalso. apply (aget_in _ mkey_eqb_spec) in Hk. eapply find_none in Ef; [|apply in_rev; rewrite rev_involutive; apply in_map; exact Hk].
      cbn in Ef. rewrite (proj2 (str_eqb_spec'' _ _) eq_refl) in Ef. discriminate.
Qed.

Lemma json_of_same rows rows' e : same_dict rows rows' -> json_of rows e -> json_of rows' e.
Proof. intros Hs H s v. rewrite (H s v). split; intros (k & K1 & K2); exists k; (split; [exact K1|]); [rewrite <- Hs|rewrite Hs]; exact K2. Qed.

(** ** Invariant *)
Definition alive_ok (al : list (Z * list (mkey * Z))) (n : nat) (g : gstate) : Prop :=
  g_cur g = Z.of_nat n /\ (al = [] -> g_prev g = None /\ g_cur g = 0) /\ (forall l e, al = l ++ [e] -> g_prev g = to_prev (snd e)).

Record linv (idx : index) (order : list mkey) (hs : list heap) (q : qr) (ws : list wr) (ms : list mixobj) (os : list nout) : Prop := {
  li_refs : refs_empty hs (s_log (q_self q));
  li_replay : s_replay (q_self q) = false;
  li_file : match alog q with [] => ld_log (disk ws) = None
             | e0 :: _ => ld_log (disk ws) = Some (mkLogfile (json (alog q)) (fst (last (alog q) e0) + 1)) end;
  li_nondec : nondec (alog q) /\ Forall (fun e => fst e <= Z.of_nat (length ms)) (alog q);
  li_fine : Forall (fun e => rows_fine (snd e)) (alog q);
  li_says : forall i m, nth_error ms i = Some m -> exists e, latest (Z.of_nat i) (alog q) = Some e /\ same_dict (snd e) (m_rows m);
  li_gen : match qgen idx order q with GDone => True | GChunk g | GNone g => alive_ok (alog q) (length ms) g end;
  li_idx : ld_idx (disk ws) = last_index ms \/ (~ no_error os /\ qgen idx order q = GDone /\ ld_idx (disk ws) = Some (Z.of_nat (length ms)))
}.

Lemma disk_app ws ws' : disk (ws ++ ws') = fold_left apply_wr ws' (disk ws).
Proof. apply fold_left_app. Qed.

Lemma linv_right idx order hs q ws ms os : linv idx order hs q ws ms os -> log_right (ld_log (disk ws)) ms.
Proof.
  intros [L1 L2 L3 [L4 L4'] L5 L6 L7 L8] i m Hi. destruct (L6 _ _ Hi) as ([j rows] & E & Hs).
  destruct (alog q) as [|x al] eqn:Ea; [discriminate|]. rewrite <- Ea in *. eexists. split; [exact L3|].
  destruct (latest_json _ L4 _ _ _ E) as (J1 & J2 & J3 & J4). exists j, (stringified rows). split; [exact J1|]. split; [exact J2|]. split; [exact J3|].
  cbn [snd] in Hs. apply (json_of_same rows); [exact Hs|]. apply stringified_json. rewrite Forall_forall in L5. exact (L5 _ J4).
Qed.

(** What one call notes. *)
Lemma noted_log idx h g sf : s_replay sf = false ->
  s_log (snd (noted idx h g sf)) = s_log sf ++
    (if bump g (m_rows (h (g_base g))) then [(g_cur g, match m_rows (h (g_base g)) with [] => LRef (g_base g) | _ => LSnap (h (g_base g)) end)] else []).
Proof.
  intros Hr. unfold noted, bump. destruct (m_rows (h (g_base g))) as [|kv rows] eqn:E.
  - unfold note_arbitrary. destruct (_ || _); cbn; [rewrite Hr; reflexivity|rewrite app_nil_r; reflexivity].
  - unfold note_mixture. rewrite E. destruct (prev_differs _ _); cbn; [rewrite Hr; reflexivity|rewrite app_nil_r; reflexivity].
Qed.

(** The generator state a call starts its attempt from. *)
Definition started (q : qr) (gn : gen) : option gstate :=
  match gn with
  | GChunk g => Some (mkG (g_keys g) (g_comps g) (g_cur g) (g_mid g) (g_kidx g) (g_empty g) (g_prev g) (g_fail g) (s_mix (q_self q)) (q_count q))
  | GNone g => Some g
  | GDone => None
  end.

Lemma next_shape idx order fuel h q inst held prev id q' o :
  hist idx order q inst held prev id -> qr_next (S fuel) h q = (q', o) ->
  (q_self q' = q_self q /\ (forall c, o <> NChunk c) /\ next_writes (S fuel) h q = [] /\ qgen idx order q' = GDone)
  \/ exists g, started q (qgen idx order q) = Some g /\ g_base g = held_of inst held /\ g_cur g = q_count q /\ g_fail g <= 10
     /\ q_self q' = snd (noted idx h g (q_self q))
     /\ exists w2, next_writes (S fuel) h q =
          (if bump g (m_rows (h (g_base g))) then [persist_log h (q_count q + 1) (q_self q')] else []) ++ w2
        /\ (w2 = [] \/ w2 = [WIdx (g_cur g)]) /\ (forall c, o = NChunk c -> w2 = [WIdx (g_cur g)])
        /\ (w2 <> [] -> (exists c, o = NChunk c) \/ ((exists e, o = NErr e) /\ qgen idx order q' = GDone))
        /\ match qgen idx order q' with
           | GDone => forall c, o <> NChunk c
           | GChunk g' => (exists c, o = NChunk c) /\ g_cur g' = g_cur g + 1
                /\ g_prev g' = (if bump g (m_rows (h (g_base g))) then to_prev (m_rows (h (g_base g))) else g_prev g)
           | GNone g' => (forall c, o <> NChunk c) /\ g_cur g' = g_cur g
                /\ g_prev g' = (if bump g (m_rows (h (g_base g))) then to_prev (m_rows (h (g_base g))) else g_prev g)
           end.
Proof.
  intros [H1 H2 H3 H4 H5] H. unfold qr_next in H. unfold next_writes. rewrite H2, H3 in *.
  change (match q_gen q with Some g => g | None => gen_init idx order end) with (qgen idx order q) in *.
  assert (Hb : (match q_gen q with None => true | Some _ => false end) && negb (q_nret q =? 0) = false).
  { destruct (q_gen q); [reflexivity|]. rewrite H4 by reflexivity. reflexivity. }
  rewrite Hb in *. clear Hb.
  destruct (qgen idx order q) as [g|g|] eqn:Eg.
  3:{ left. cbn in *. injection H as <- <-. repeat split; discriminate. }
  - destruct H5 as (-> & Hcur & Hgh & Hf). cbn [gen_send gen_send_w started] in *.
    set (g0 := mkG (g_keys g) (g_comps g) (g_cur g) (g_mid g) (g_kidx g) (g_empty g) (g_prev g) (g_fail g) (s_mix (q_self q)) (q_count q)) in *.
    pose proof (gen_loop_w_erase (S fuel) idx h (q_count q + 1) g0 (q_self q)) as He.
    destruct (gen_loop_w (S fuel) idx h (q_count q + 1) g0 (q_self q)) as [[[gn' sf'] out] ws] eqn:Ew. cbn [fst snd] in *. rewrite <- He in H. symmetry in He.
    apply gen_loop_w_once in Ew; [|exact Hcur]. apply gen_loop_once in He; [|exact Hcur].
    destruct He as [(Hf1 & -> & -> & ->)|(Hf1 & -> & Honce)].
    + left. injection H as <- <-. destruct Ew as [[_ ->]|[Hx _]]; [|cbn in *; lia]. repeat split; discriminate.
    + right. destruct Ew as [[Hx _]|(_ & w2 & -> & W1 & W2 & W3)]; [cbn in *; lia|]. exists g0. split; [reflexivity|]. split; [exact H1|]. split; [exact Hcur|]. split; [exact Hf1|].
      assert (Hs : q_self q' = snd (noted idx h g0 (q_self q))).
      { destruct out; injection H as <- _; reflexivity. }
      split; [exact Hs|]. exists w2. rewrite Hs. split; [reflexivity|]. split; [exact W1|].
      destruct Honce as [g' c C1 C2 C3 C4 C5 C6 C7 C8|g' C0 C1 C2 C3 C4 C5 C6| |e]; injection H as <- <-.
      * split; [intros; eapply W2; reflexivity|]. split; [intros _; left; eauto|]. cbn. split; [eauto|]. split; [exact C1|exact C2].
      * split; [destruct (q_son q); discriminate|]. split.
        { intros Hw. destruct (W3 Hw) as [[? ?]|[? ?]]; discriminate. }
        cbn. split; [destruct (q_son q); discriminate|]. split; [exact C1|exact C5].
      * split; [discriminate|]. split; [intros Hw; destruct (W3 Hw) as [[? ?]|[? ?]]; discriminate|]. cbn. discriminate.
      * split; [discriminate|]. split; [intros _; right; split; [eauto|reflexivity]|]. cbn. discriminate.
  - destruct H5 as (-> & Hcur & Htgt & Hgh & Hf). cbn [gen_send gen_send_w started] in *.
    pose proof (gen_loop_w_erase (S fuel) idx h (q_count q + 1) g (q_self q)) as He.
    destruct (gen_loop_w (S fuel) idx h (q_count q + 1) g (q_self q)) as [[[gn' sf'] out] ws] eqn:Ew. cbn [fst snd] in *. rewrite <- He in H. symmetry in He.
    apply gen_loop_w_once in Ew; [|congruence]. apply gen_loop_once in He; [|congruence].
    destruct He as [(Hf1 & -> & -> & ->)|(Hf1 & -> & Honce)].
    + left. injection H as <- <-. destruct Ew as [[_ ->]|[Hx _]]; [|lia]. repeat split; discriminate.
    + right. destruct Ew as [[Hx _]|(_ & w2 & -> & W1 & W2 & W3)]; [lia|]. exists g. split; [reflexivity|]. split; [reflexivity|]. split; [exact Hcur|]. split; [exact Hf1|].
      assert (Hs : q_self q' = snd (noted idx h g (q_self q))).
      { destruct out; injection H as <- _; reflexivity. }
      split; [exact Hs|]. exists w2. rewrite Hs. split; [reflexivity|]. split; [exact W1|].
      destruct Honce as [g' c C1 C2 C3 C4 C5 C6 C7 C8|g' C0 C1 C2 C3 C4 C5 C6| |e]; injection H as <- <-.
      * split; [intros; eapply W2; reflexivity|]. split; [intros _; left; eauto|]. cbn. split; [eauto|]. split; [exact C1|exact C2].
      * split; [destruct (q_son q); discriminate|]. split.
        { intros Hw. destruct (W3 Hw) as [[? ?]|[? ?]]; discriminate. }
        cbn. split; [destruct (q_son q); discriminate|]. split; [exact C1|exact C5].
      * split; [discriminate|]. split; [intros Hw; destruct (W3 Hw) as [[? ?]|[? ?]]; discriminate|]. cbn. discriminate.
      * split; [discriminate|]. split; [intros _; right; split; [eauto|reflexivity]|]. cbn. discriminate.
Qed.

Lemma refs_empty_tail h hs log : refs_empty (h :: hs) log -> refs_empty hs log.
Proof. intros H. eapply Forall_impl; [|exact H]. intros [i [m|r]]; cbn; auto. Qed.

Lemma no_error_app os os' : no_error (os ++ os') <-> no_error os /\ no_error os'.
Proof. apply Forall_app. Qed.

Lemma linv_next idx order hs fuel h q ws ms os inst held prev id q' o :
  heap_ok h -> texts_differ h -> (forall r, m_rows (h r) = [] -> forall h', In h' hs -> m_rows (h' r) = []) ->
  hist idx order q inst held prev id -> linv idx order (h :: hs) q ws ms os -> qr_next (S fuel) h q = (q', o) ->
  linv idx order hs q' (ws ++ next_writes (S fuel) h q)
       (ms ++ match o with NChunk _ => [h (held_of inst held)] | _ => [] end) (os ++ [o]).
Proof.
  intros Hh Ht Hst Hi HL E. pose proof HL as [L1 L2 L3 [L4 L4'] L5 L6 L7 L8].
  destruct (next_shape _ _ _ _ _ _ _ _ _ _ _ Hi E) as [(S1 & S2 & S3 & S4)|(g & G1 & G2 & G3 & G4 & G5 & w2 & W1 & W2 & W3 & W4 & W5)].
  - rewrite S3, app_nil_r. assert (Em : match o with NChunk _ => [h (held_of inst held)] | _ => [] end = []) by (destruct o; [destruct (S2 c); reflexivity|..]; reflexivity).
    rewrite Em, app_nil_r. assert (Ea : alog q' = alog q) by (unfold alog; rewrite S1; reflexivity).
    constructor; rewrite ?Ea, ?S1, ?S4; auto.
    + eapply refs_empty_tail, L1.
    + destruct L8 as [L8|(X1 & X2 & X3)]; [left; exact L8|right]. split; [|auto]. intros Hx. apply X1. apply no_error_app in Hx. apply Hx.
  - set (m := h (held_of inst held)) in *. rewrite G2 in *. fold m in W1, W5. set (rows := m_rows m) in *.
    assert (Hal : alive_ok (alog q) (length ms) g).
    { destruct (qgen idx order q) as [g1|g1|]; cbn in G1; [|injection G1 as <-; exact L7|discriminate]. injection G1 as <-. exact L7. }
    destruct Hal as (A1 & A2 & A3).
    assert (Hlog : s_log (q_self q') = s_log (q_self q) ++ (if bump g rows then [(g_cur g, match rows with [] => LRef (held_of inst held) | _ => LSnap m end)] else [])).
    { rewrite G5. rewrite (noted_log idx h g (q_self q) L2). rewrite G2. reflexivity. }
    assert (Ea : alog q' = alog q ++ (if bump g rows then [(g_cur g, rows)] else [])).
    { unfold alog. rewrite Hlog, map_app. f_equal. destruct (bump g rows); [|reflexivity]. cbn [map fst snd]. do 2 f_equal. unfold rows. destruct (m_rows m) eqn:Em; [reflexivity|cbn; rewrite Em; reflexivity]. }
    assert (Hnd : NoDup (map fst rows)) by (unfold rows, m; apply Hh).
    assert (Hfine : rows_fine rows) by (split; [exact Hnd|intros; eapply (Ht (held_of inst held)); eauto]).
    assert (Hrefs : refs_empty (h :: hs) (s_log (q_self q'))).
    { rewrite Hlog. apply Forall_app. split; [exact L1|]. destruct (bump g rows); [|constructor]. constructor; [|constructor]. cbn.
      unfold rows. destruct (m_rows m) eqn:Er; [|exact I]. intros h' [<-|Hin]; [exact Er|apply (Hst (held_of inst held) Er _ Hin)]. }
    assert (Hnd' : nondec (alog q') /\ Forall (fun e => fst e <= Z.of_nat (length ms)) (alog q')).
    { rewrite Ea. destruct (bump g rows); [|rewrite app_nil_r; auto]. rewrite nondec_app. cbn [fst]. rewrite A1. split; [split; assumption|].
      apply Forall_app. split; [exact L4'|]. constructor; [cbn; lia|constructor]. }
    assert (Hlast : exists e, latest (Z.of_nat (length ms)) (alog q') = Some e /\ same_dict (snd e) rows).
    { rewrite Ea. destruct (bump g rows) eqn:Eb.
      - exists (g_cur g, rows). split; [apply latest_last; cbn; lia|]. intros k; reflexivity.
      - rewrite app_nil_r. destruct (alog q) as [|x al _] eqn:Eal using rev_ind.
        + exfalso. destruct (A2 eq_refl) as [P1 P2]. unfold bump in Eb. rewrite P1, P2 in Eb. destruct rows; discriminate.
        + specialize (A3 _ _ eq_refl). exists x. split.
          * apply latest_last. apply Forall_app in L4' as [_ Hx]. inversion Hx; subst; assumption.
          * unfold bump in Eb. rewrite A3 in Eb. unfold to_prev in Eb. destruct (snd x) as [|y l'] eqn:Ex.
            -- destruct rows; [intros k; reflexivity|discriminate].
            -- destruct rows as [|z l2] eqn:Er2; [discriminate|]. cbn [prev_differs] in Eb. apply negb_false_iff in Eb.
               apply dict_eqb_spec in Eb; [exact Eb| |exact Hnd]. apply Forall_app in L5 as [_ Hx]. inversion Hx as [|? ? Hx1 _]; subst. rewrite Ex in Hx1. apply Hx1. }
    assert (Hsays : forall i m0, nth_error (ms ++ match o with NChunk _ => [m] | _ => [] end) i = Some m0 ->
              exists e, latest (Z.of_nat i) (alog q') = Some e /\ same_dict (snd e) (m_rows m0)).
    { intros i m0 Hn. destruct (Nat.lt_ge_cases i (length ms)) as [Hlt|Hge].
      - rewrite nth_error_app1 in Hn by exact Hlt. destruct (L6 _ _ Hn) as (e & X1 & X2). exists e. split; [|exact X2].
        rewrite Ea. destruct (bump g rows); [|rewrite app_nil_r; exact X1]. rewrite latest_app; [exact X1|]. cbn. lia.
      - rewrite nth_error_app2 in Hn by exact Hge. destruct o; try (destruct (i - length ms)%nat; discriminate).
        destruct (i - length ms)%nat as [|x] eqn:Ei; [|destruct x; discriminate]. cbn in Hn. injection Hn as <-.
        replace i with (length ms) by lia. exact Hlast. }
    assert (Hne : bump g rows = true -> alog q' <> []).
    { intros Hb. rewrite Ea, Hb. destruct (alog q); discriminate. }
    assert (Hdisk : disk (ws ++ next_writes (S fuel) h q) =
              mkDir (if bump g rows then Some (mkLogfile (json (alog q')) (q_count q + 1)) else ld_log (disk ws))
                    (match w2 with [] => ld_idx (disk ws) | _ => Some (g_cur g) end)).
    { rewrite disk_app, W1. pose proof (log_json_json h (h :: hs) _ Hrefs (or_introl eq_refl)) as Hj. unfold alog. rewrite <- Hj.
      destruct (bump g rows); destruct W2 as [->| ->]; cbn; destruct (disk ws); reflexivity. }
    constructor.
    + eapply refs_empty_tail, Hrefs.
    + rewrite G5, (proj2 (noted_mix idx h g (q_self q))). exact L2.
    + rewrite Hdisk. cbn [ld_log]. destruct (bump g rows) eqn:Eb.
      * destruct (alog q') eqn:E'; [destruct (Hne eq_refl); reflexivity|]. rewrite Ea, last_last. cbn [fst]. rewrite G3. reflexivity.
      * rewrite app_nil_r in Ea. rewrite Ea. exact L3.
    + destruct Hnd' as [N1 N2]. split; [exact N1|]. eapply Forall_impl; [|exact N2]. cbn. intros a Ha. rewrite app_length. lia.
    + rewrite Ea. apply Forall_app. split; [exact L5|]. destruct (bump g rows); constructor; [exact Hfine|constructor].
    + exact Hsays.
    + assert (Hlen : forall c0, o = NChunk c0 -> length (ms ++ match o with NChunk _ => [m] | _ => [] end) = S (length ms)).
      { intros c0 ->. rewrite app_length. cbn. lia. }
      assert (Hlen' : (forall c0, o <> NChunk c0) -> length (ms ++ match o with NChunk _ => [m] | _ => [] end) = length ms).
      { intros Hx. destruct o; [destruct (Hx c eq_refl)|..]; rewrite app_nil_r; reflexivity. }
      assert (Hp : forall g', g_prev g' = (if bump g rows then to_prev rows else g_prev g) -> 0 <= g_cur g' ->
                (alog q' = [] -> g_prev g' = None /\ g_cur g' = 0) /\ (forall l e, alog q' = l ++ [e] -> g_prev g' = to_prev (snd e))).
      { intros g' Hg Hc. split.
        - intros Hx. exfalso. destruct Hlast as (e & X1 & _). rewrite Hx in X1. discriminate.
        - intros l e Hx. rewrite Hg. rewrite Ea in Hx. destruct (bump g rows).
          + apply app_inj_tail in Hx as [_ <-]. reflexivity.
          + rewrite app_nil_r in Hx. apply (A3 _ _ Hx). }
      destruct (qgen idx order q') as [g'|g'|]; [| |exact I].
      * destruct W5 as ([c Hc] & C1 & C2). unfold alive_ok. rewrite (Hlen c Hc). split; [lia|]. apply Hp; [exact C2|lia].
      * destruct W5 as (Hc & C1 & C2). unfold alive_ok. rewrite (Hlen' Hc). split; [lia|]. apply Hp; [exact C2|lia].
    + rewrite Hdisk. cbn [ld_idx].
      assert (L8' : ld_idx (disk ws) = last_index ms).
      { destruct L8 as [L8|(_ & X & _)]; [exact L8|]. rewrite X in G1. discriminate. }
      destruct o as [c| | |e].
      * left. rewrite (W3 c eq_refl). unfold last_index. destruct (ms ++ [m]) eqn:Ex; [destruct ms; discriminate|]. rewrite <- Ex, app_length. cbn. f_equal. lia.
      * left. rewrite app_nil_r. destruct w2 as [|w w2']; [exact L8'|]. exfalso. destruct (W4 ltac:(discriminate)) as [[? ?]|[[? ?] _]]; discriminate.
      * left. rewrite app_nil_r. destruct w2 as [|w w2']; [exact L8'|]. exfalso. destruct (W4 ltac:(discriminate)) as [[? ?]|[[? ?] _]]; discriminate.
      * rewrite app_nil_r. destruct w2 as [|w w2']; [left; exact L8'|]. right. destruct (W4 ltac:(discriminate)) as [[? ?]|[_ Hd]]; [discriminate|].
        split; [|split; [exact Hd|f_equal; lia]]. intros Hx. apply no_error_app in Hx as [_ Hx]. inversion Hx; contradiction.
Qed.

Lemma linv_update idx order hs h r q ws ms os : linv idx order hs q ws ms os -> linv idx order hs (qr_update_mixture h r q) ws ms os.
Proof. intros [L1 L2 L3 L4 L5 L6 L7 L8]. constructor; auto. Qed.

Lemma linv_tail idx order h hs q ws ms os : linv idx order (h :: hs) q ws ms os -> linv idx order hs q ws ms os.
Proof. intros [L1 L2 L3 L4 L5 L6 L7 L8]. constructor; auto. eapply refs_empty_tail, L1. Qed.

Lemma stay_tail h hs : stay_arbitrary (h :: hs) -> stay_arbitrary hs /\ forall r, m_rows (h r) = [] -> forall h', In h' hs -> m_rows (h' r) = [].
Proof.
  intros H. split.
  - intros i j a b r Hij Ha Hb. apply (H (S i) (S j)); [lia|exact Ha|exact Hb].
  - intros r Hr h' Hin. apply In_nth_error in Hin as [n Hn]. apply (H 0%nat (S n) h h' r); [lia|reflexivity|exact Hn|exact Hr].
Qed.

Lemma hist_update' idx order h r q inst held prev id : hist idx order q inst held prev id -> hist idx order (qr_update_mixture h r q) r held prev id.
Proof. intros [H1 H2 H3 H4 H5]. constructor; auto. Qed.

Lemma linv_run fuel idx order ops : forall hs q ws ms os inst held prev id q' os',
  Forall (fun o => heap_ok (op_heap o) /\ texts_differ (op_heap o)) ops -> stay_arbitrary (map op_heap ops ++ hs) ->
  hist idx order q inst held prev id -> linv idx order (map op_heap ops ++ hs) q ws ms os -> qrun (S fuel) ops q = (q', os') ->
  linv idx order hs q' (ws ++ all_writes (S fuel) ops q) (ms ++ delivered (working ops os' inst held) os') (os ++ os')
  /\ exists inst' held' prev' id', hist idx order q' inst' held' prev' id'.
Proof.
  induction ops as [|[h|h r] ops IH]; intros hs q ws ms os inst held prev id q' os' Hok Hst Hi HL H; cbn [qrun] in H.
  - injection H as <- <-. cbn. rewrite !app_nil_r. split; [exact HL|eauto].
  - destruct (qr_next (S fuel) h q) as [q1 o] eqn:E. destruct (qrun (S fuel) ops q1) as [q2 os2] eqn:E2. injection H as <- <-.
    inversion Hok as [|? ? [Hh Ht] Hok']; subst. cbn [op_heap map app] in *. destruct (stay_tail _ _ Hst) as [Hst' Hst1].
    pose proof (hist_next _ _ _ _ _ _ _ _ _ _ _ Hh Hi E) as (Hi' & _).
    pose proof (linv_next _ _ _ _ _ _ _ _ _ _ _ _ _ _ _ Hh Ht Hst1 Hi HL E) as HL'.
    destruct (IH _ _ _ _ _ _ _ _ _ _ _ Hok' Hst' Hi' HL' E2) as [I1 I2]. split; [|exact I2].
    cbn [all_writes working delivered]. rewrite E. cbn [fst].
    assert (Ew : (ms ++ match o with NChunk _ => [h (held_of inst held)] | _ => [] end) ++ delivered (working ops os2 inst (new_held inst held o)) os2
               = ms ++ delivered (h (held_of inst held) :: working ops os2 inst (new_held inst held o)) (o :: os2)).
    { rewrite <- app_assoc. f_equal. destruct o; reflexivity. }
    rewrite Ew, <- !app_assoc in I1. exact I1.
  - inversion Hok as [|? ? [Hh Ht] Hok']; subst. cbn [op_heap map app] in *. destruct (stay_tail _ _ Hst) as [Hst' Hst1].
    cbn [all_writes working]. eapply IH; eauto using hist_update', linv_update, linv_tail.
Qed.

Lemma linv_init idx order hs h0 r0 son : linv idx order hs (qr_init idx order h0 r0 son) [] [] [].
Proof.
  constructor.
  - constructor.
  - reflexivity.
  - reflexivity.
  - split; [exact I|constructor].
  - constructor.
  - intros i m H. destruct i; discriminate.
  - cbn. split; [reflexivity|]. split; [auto|]. intros l e H. destruct l; discriminate.
  - left. reflexivity.
Qed.

Lemma linv_nextright idx order hs q ws ms os : linv idx order hs q ws ms os -> next_right (ld_log (disk ws)).
Proof.
  intros [L1 L2 L3 [L4 L4'] L5 L6 L7 L8] f Hf. destruct (alog q) as [|x al] eqn:Ea; [congruence|]. rewrite <- Ea in *. rewrite L3 in Hf. injection Hf as <-. cbn [lf_log lf_next].
  destruct (exists_last (l := alog q)) as (l & e & El); [congruence|]. rewrite El, last_last. rewrite El in L4.
  assert (Hl : latest (fst e) (l ++ [e]) = Some (fst e, snd e)) by (rewrite latest_last by lia; destruct e; reflexivity).
  destruct (latest_json _ L4 _ _ _ Hl) as (_ & J2 & _). exists (fst e), (stringified (snd e)). split; [exact J2|]. split; [|reflexivity].
  intros j' Hj. unfold json. rewrite (aget_fold Z.eqb Zeqb_spec' stringified). destruct (find _ _) as [y|] eqn:Ef; [|reflexivity]. exfalso.
  apply find_some in Ef as [Hin Hx]. apply in_rev in Hin. apply nondec_app in L4 as [_ Hle]. apply in_app_or in Hin as [Hin|[<-|[]]]; [|lia].
  rewrite Forall_forall in Hle. specialize (Hle _ Hin). lia.
Qed.

(** In the middle of a call: at most one of its writes is the log. *)
Lemma next_writes_prefix idx order fuel h q inst held prev id q' o ws k :
  hist idx order q inst held prev id -> qr_next (S fuel) h q = (q', o) ->
  let w := next_writes (S fuel) h q in
  (ld_log (disk (ws ++ firstn k w)) = ld_log (disk ws) \/ ld_log (disk (ws ++ firstn k w)) = ld_log (disk (ws ++ w)))
  /\ (ld_idx (disk (ws ++ firstn k w)) = ld_idx (disk ws)
      \/ (ld_idx (disk (ws ++ firstn k w)) = Some (q_count q) /\ qgen idx order q <> GDone)).
Proof.
  intros Hi E. cbv zeta. destruct (next_shape _ _ _ _ _ _ _ _ _ _ _ Hi E) as [(S1 & S2 & S3 & S4)|(g & G1 & G2 & G3 & G4 & G5 & w2 & W1 & W2 & W3 & W4 & W5)].
  - rewrite S3, firstn_nil, app_nil_r. auto.
  - assert (Hng : qgen idx order q <> GDone) by (intros Hx; rewrite Hx in G1; discriminate).
    rewrite W1, <- G3. destruct (bump g _); destruct W2 as [-> | ->]; destruct k as [|[|k]]; cbn [app firstn]; rewrite ?firstn_nil, ?app_nil_r, ?disk_app; cbn; auto.
Qed.
