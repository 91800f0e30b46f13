(** Single consumer: one attempt per call; key ids, mixture ids, give-up. *)
From Verif Require Import Base MixtureKeyModel MixtureKeyProofs UtilsModel UtilsProofs ChunkGenModel SpecChunk ChunkGenProofs1
  ChunkGenProofs2 ChunkGenProofs3 ChunkGenProofs4 ChunkGenProofs5.
From Coq Require Import ZifyBool ZifyNat.
Open Scope Z_scope.

Definition noted (idx : index) (h : heap) (g : gstate) (sf : qself) : gstate * qself :=
  match m_rows (h (g_base g)) with [] => note_arbitrary g sf | _ => note_mixture idx h g sf (h (g_base g)) end.

Definition bump (g : gstate) (rows : list (mkey * Z)) : bool :=
  match rows with
  | [] => (match g_prev g with Some _ => true | None => false end) || (g_cur g =? 0)
  | _ => prev_differs (g_prev g) rows
  end.
Definition to_prev (rows : list (mkey * Z)) : option (list (mkey * Z)) := match rows with [] => None | _ => Some rows end.

Inductive once (idx : index) (h : heap) (g : gstate) (sf sf1 : qself) (mid' : Z) (prev' : option (list (mkey * Z))) : gen -> gout -> Prop :=
| once_chunk g' c : g_cur g' = g_cur g + 1 -> g_prev g' = prev' -> g_mid g' = mid' -> rc_mid c = mid' -> rc_kid c = s_kid sf1 ->
    g_base g' = g_base g -> (m_rows (h (g_base g)) <> [] -> g_fail g' = 0) -> (m_rows (h (g_base g)) = [] -> g_fail g' = g_fail g) ->
    once idx h g sf sf1 mid' prev' (GChunk g') (YChunk c)
| once_none g' : m_rows (h (g_base g)) <> [] -> g_cur g' = g_cur g -> g_target g' = g_target g -> g_base g' = g_base g ->
    g_fail g' = g_fail g + 1 -> g_prev g' = prev' -> g_mid g' = mid' -> once idx h g sf sf1 mid' prev' (GNone g') YNone
| once_stop : once idx h g sf sf1 mid' prev' GDone YStop
| once_err e : once idx h g sf sf1 mid' prev' GDone (YErr e).

Lemma gen_loop_once fuel idx h g sf gn' sf' out :
  g_cur g = g_target g -> gen_loop (S fuel) idx h g sf = (gn', sf', out) ->
  (10 < g_fail g /\ gn' = GDone /\ sf' = sf /\ out = YStop)
  \/ (g_fail g <= 10 /\ sf' = snd (noted idx h g sf)
      /\ once idx h g sf (snd (noted idx h g sf))
           (g_mid g + (if bump g (m_rows (h (g_base g))) then 1 else 0))
           (if bump g (m_rows (h (g_base g))) then to_prev (m_rows (h (g_base g))) else g_prev g) gn' out).
Proof.
  intros Hct H. cbn [gen_loop] in H. destruct (10 <? g_fail g) eqn:Ef.
  { injection H as <- <- <-. left. repeat split; lia. }
  right. split; [lia|]. unfold noted. set (m := h (g_base g)) in *.
  destruct (m_rows m) as [|kv0 rows0] eqn:Erows.
  - pose proof (note_arbitrary_g g sf) as Hn.
    assert (Hb : g_mid (fst (note_arbitrary g sf)) = g_mid g + (if bump g [] then 1 else 0)
                 /\ g_prev (fst (note_arbitrary g sf)) = (if bump g [] then to_prev [] else g_prev g)).
    { unfold note_arbitrary, bump. destruct (_ || _); cbn; split; auto; lia. }
    destruct (note_arbitrary g sf) as [g1 sf1]. destruct Hn as (N1 & N2 & N3 & N4 & N5 & N6 & N7 & N8). cbn [fst snd] in *.
    destruct Hb as [Hb1 Hb2]. rewrite N6, N7, Hct, Z.eqb_refl in H.
    match type of H with context [round_robin ?fu ?a ?b ?c ?d ?e] =>
      destruct (round_robin fu a b c d e) as [[[comps' kidx'] empty'] ro] end.
    destruct ro.
    + destruct (keys_known _ _); injection H as <- <- <-; (split; [reflexivity|]).
      * apply once_chunk; cbn; auto; try lia; try congruence.
        intros Hx; exfalso; apply Hx; exact Erows.
      * apply once_err.
    + injection H as <- <- <-. split; [reflexivity|]. apply once_stop.
    + injection H as <- <- <-. split; [reflexivity|]. apply once_err.
  - rewrite <- Erows in *.
    pose proof (note_mixture_g idx h g sf m) as Hn.
    assert (Hb : g_mid (fst (note_mixture idx h g sf m)) = g_mid g + (if bump g (m_rows m) then 1 else 0)
                 /\ g_prev (fst (note_mixture idx h g sf m)) = (if bump g (m_rows m) then to_prev (m_rows m) else g_prev g)).
    { unfold note_mixture, bump. rewrite Erows. rewrite <- Erows. destruct (prev_differs _ _); cbn; split; auto; try lia.
      unfold to_prev. rewrite Erows. reflexivity. }
    destruct (note_mixture idx h g sf m) as [g1 sf1]. destruct Hn as (N1 & N2 & N3 & N4 & N5 & N6 & N7 & N8). cbn [fst snd] in *.
    destruct Hb as [Hb1 Hb2]. rewrite N6, N7, Hct, Z.eqb_refl in H.
    assert (Hne : m_rows m <> []) by congruence.
    destruct (run_attempt _ _ _) as [a|e].
    + destruct (att_success a).
      * destruct (keys_known _ _); injection H as <- <- <-; (split; [reflexivity|]).
        -- apply once_chunk; cbn; auto; try lia. intros; contradiction.
        -- apply once_err.
      * injection H as <- <- <-. split; [reflexivity|]. apply once_none; cbn; auto; lia.
    + injection H as <- <- <-. split; [reflexivity|]. apply once_err.
Qed.

Lemma noted_kid idx h g sf : s_kid (snd (noted idx h g sf)) = s_kid sf \/
  (m_rows (h (g_base g)) <> [] /\
   s_kid (snd (noted idx h g sf)) = update_key_id_map idx (m_rows (h (s_mix sf))) (s_kid sf)).
Proof.
  unfold noted. destruct (m_rows (h (g_base g))) eqn:E.
  - left. unfold note_arbitrary. destruct (_ || _); reflexivity.
  - unfold note_mixture. destruct (prev_differs _ _); cbn; [right; split; [discriminate|reflexivity]|left; reflexivity].
Qed.
Lemma noted_mix idx h g sf : s_mix (snd (noted idx h g sf)) = s_mix sf /\ s_replay (snd (noted idx h g sf)) = s_replay sf.
Proof.
  unfold noted. destruct (m_rows (h (g_base g))) eqn:E.
  - unfold note_arbitrary. destruct (_ || _); split; reflexivity.
  - unfold note_mixture. destruct (prev_differs _ _); split; reflexivity.
Qed.

(** ** Key ids *)
Record kid_ok (kid : list (mkey * Z)) : Prop := {
  ko_keys : NoDup (map fst kid);
  ko_ids : NoDup (map snd kid);
  ko_pos : Forall (fun v => 0 <= v) (map snd kid)
}.
Definition kid_ext (a b : list (mkey * Z)) : Prop := forall k v, aget mkey_eqb k a = Some v -> aget mkey_eqb k b = Some v.

Lemma kid_ext_refl a : kid_ext a a.
Proof. intros k v H; exact H. Qed.
Lemma kid_ext_trans a b c : kid_ext a b -> kid_ext b c -> kid_ext a c.
Proof. intros H1 H2 k v H. apply H2, H1, H. Qed.
Lemma kid_ext_keys a b : kid_ext a b -> incl (map fst a) (map fst b).
Proof.
  intros H k Hk. destruct (aget_some_in _ mkey_eqb_spec k a Hk) as [v E]. apply H in E.
  apply (aget_in _ mkey_eqb_spec), (in_map fst) in E. exact E.
Qed.

Lemma assign_ids_spec keys : forall cur kid,
  kid_ok kid -> 0 <= cur -> Forall (fun v => v < cur) (map snd kid) ->
  kid_ok (assign_ids keys cur kid) /\ kid_ext kid (assign_ids keys cur kid) /\ incl keys (map fst (assign_ids keys cur kid)).
Proof.
  induction keys as [|k keys IH]; intros cur kid Hk Hc Hlt; cbn [assign_ids].
  - split; [exact Hk|]. split; [apply kid_ext_refl|intros x []].
  - unfold amem. destruct (aget mkey_eqb k kid) as [v|] eqn:E.
    + destruct (IH cur kid Hk Hc Hlt) as (I1 & I2 & I3). split; [exact I1|]. split; [exact I2|].
      intros x [<-|Hx]; [|apply I3, Hx]. apply I2 in E. apply (aget_in _ mkey_eqb_spec), (in_map fst) in E. exact E.
    + destruct (IH (cur + 1) (aset mkey_eqb k cur kid)) as (I1 & I2 & I3).
      * destruct Hk as [K1 K2 K3]. constructor.
        -- apply NoDup_akeys_aset; [apply mkey_eqb_spec|exact K1].
        -- rewrite (aset_perm_new _ _ _ _ E), map_app. cbn. apply NoDup_app_iff. split; [exact K2|]. split; [constructor; [intros []|constructor]|].
           intros x Hx [<-|[]]. rewrite Forall_forall in Hlt. specialize (Hlt _ Hx). lia.
        -- rewrite (aset_perm_new _ _ _ _ E), map_app. apply Forall_app. split; [exact K3|]. constructor; [exact Hc|constructor].
      * lia.
      * rewrite (aset_perm_new _ _ _ _ E), map_app. apply Forall_app. split; [|constructor; [cbn; lia|constructor]].
        eapply Forall_impl; [|exact Hlt]. cbn; intros; lia.
      * split; [exact I1|]. assert (He : kid_ext kid (aset mkey_eqb k cur kid)).
        { intros k' v' H'. rewrite (aget_aset_other _ mkey_eqb_spec); [exact H'|]. intros <-. congruence. }
        split; [eapply kid_ext_trans; eassumption|]. intros x [<-|Hx]; [|apply I3, Hx].
        assert (Ek : aget mkey_eqb k (aset mkey_eqb k cur kid) = Some cur) by apply (aget_aset_same _ mkey_eqb_spec).
        apply I2 in Ek. apply (aget_in _ mkey_eqb_spec), (in_map fst) in Ek. exact Ek.
Qed.

Lemma dedup_in x l : In x (dedup l) <-> In x l.
Proof.
  induction l as [|y l IH]; cbn; [tauto|]. destruct (existsb (mkey_eqb y) l) eqn:E.
  - rewrite IH. split; [auto|]. intros [<-|H]; [|exact H]. apply existsb_exists in E as (z & Hz & Ez).
    apply mkey_eqb_spec in Ez. subst. exact Hz.
  - cbn. rewrite IH. reflexivity.
Qed.

Lemma ksort_in x l : In x (ksort l) <-> In x l.
Proof. split; apply Permutation_in; [|symmetry]; apply ksort_perm. Qed.

Lemma zmax_list_ge l : Forall (fun v => v <= zmax_list l) l /\ -1 <= zmax_list l.
Proof.
  unfold zmax_list. induction l as [|x l [IH1 IH2]]; cbn; [split; [constructor|lia]|]. split; [|lia].
  constructor; [lia|]. eapply Forall_impl; [|exact IH1]. cbn; intros; lia.
Qed.

Lemma kid_ok_nil : kid_ok [].
Proof. constructor; constructor. Qed.

Lemma update_kid_spec idx rows kid : kid_ok kid ->
  kid_ok (update_key_id_map idx rows kid) /\ kid_ext kid (update_key_id_map idx rows kid)
  /\ incl (map fst rows) (map fst (update_key_id_map idx rows kid))
  /\ (kid = [] -> incl (map fst idx) (map fst (update_key_id_map idx rows kid))).
Proof.
  intros Hk. unfold update_key_id_map. destruct kid as [|kv kid'] eqn:E.
  - destruct (assign_ids_spec (ksort (dedup (map fst rows ++ map fst idx))) 0 [] kid_ok_nil ltac:(lia) ltac:(constructor)) as (I1 & I2 & I3).
    split; [exact I1|]. split; [exact I2|].
    split; [|intros _]; intros x Hx; apply I3, ksort_in, dedup_in, in_or_app; auto.
  - rewrite <- E in *. destruct (zmax_list_ge (map snd kid)) as [Z1 Z2].
    destruct (assign_ids_spec (ksort (dedup (map fst rows))) (zmax_list (map snd kid) + 1) kid Hk) as (I1 & I2 & I3).
    { lia. }
    { eapply Forall_impl; [|exact Z1]. cbn; intros; lia. }
    split; [exact I1|]. split; [exact I2|]. split; [|congruence].
    intros x Hx. apply I3, ksort_in, dedup_in, Hx.
Qed.

Lemma gen_loop_kid fuel idx h : forall g sf gn' sf' out, gen_loop fuel idx h g sf = (gn', sf', out) -> kid_ok (s_kid sf) ->
  kid_ok (s_kid sf') /\ kid_ext (s_kid sf) (s_kid sf') /\ s_mix sf' = s_mix sf /\ (forall c, out = YChunk c -> rc_kid c = s_kid sf').
Proof.
  induction fuel as [|fuel IH]; intros g sf gn' sf' out H Hk; cbn [gen_loop] in H.
  { injection H as <- <- <-. split; [exact Hk|]. split; [apply kid_ext_refl|]. split; [reflexivity|discriminate]. }
  destruct (10 <? g_fail g).
  { injection H as <- <- <-. split; [exact Hk|]. split; [apply kid_ext_refl|]. split; [reflexivity|discriminate]. }
  assert (Hnoted : kid_ok (s_kid (snd (noted idx h g sf))) /\ kid_ext (s_kid sf) (s_kid (snd (noted idx h g sf)))
                   /\ s_mix (snd (noted idx h g sf)) = s_mix sf).
  { destruct (noted_mix idx h g sf) as [-> _]. destruct (noted_kid idx h g sf) as [-> |[_ ->]].
    - split; [exact Hk|]. split; [apply kid_ext_refl|reflexivity].
    - destruct (update_kid_spec idx (m_rows (h (s_mix sf))) (s_kid sf) Hk) as (U1 & U2 & _). auto. }
  unfold noted in Hnoted.
  destruct (m_rows (h (g_base g))) as [|kv0 rows0] eqn:Erows.
  - destruct (note_arbitrary g sf) as [g1 sf1]. cbn [snd] in Hnoted. destruct Hnoted as (K1 & K2 & K3).
    match type of H with context [round_robin ?fu ?a ?b ?c ?d ?e] =>
      destruct (round_robin fu a b c d e) as [[[comps' kidx'] empty'] ro] end.
    destruct ro; try (injection H as <- <- <-; repeat split; auto; discriminate).
    + destruct (_ =? _).
      * destruct (keys_known _ _); injection H as <- <- <-; repeat split; auto; try discriminate; try apply K1.
        intros c [= <-]. reflexivity.
      * apply IH in H as (I1 & I2 & I3 & I4); [|exact K1]. split; [exact I1|]. split; [eapply kid_ext_trans; eassumption|]. split; [congruence|exact I4].
    + injection H as <- <- <-. split; [exact K1|]. split; [exact K2|]. split; [exact K3|discriminate].
    + injection H as <- <- <-. split; [exact K1|]. split; [exact K2|]. split; [exact K3|discriminate].
  - rewrite <- Erows in *. destruct (note_mixture idx h g sf (h (g_base g))) as [g1 sf1]. cbn [snd] in Hnoted. destruct Hnoted as (K1 & K2 & K3).
    destruct (run_attempt _ _ _) as [a|e].
    2:{ injection H as <- <- <-. split; [exact K1|]. split; [exact K2|]. split; [exact K3|discriminate]. }
    destruct (att_success a).
    2:{ injection H as <- <- <-. split; [exact K1|]. split; [exact K2|]. split; [exact K3|discriminate]. }
    destruct (_ =? _).
    + destruct (keys_known _ _); injection H as <- <- <-; (split; [exact K1|]; split; [exact K2|]; split; [exact K3|]).
      * intros c [= <-]. reflexivity.
      * discriminate.
    + apply IH in H as (I1 & I2 & I3 & I4); [|exact K1]. split; [exact I1|]. split; [eapply kid_ext_trans; eassumption|]. split; [congruence|exact I4].
Qed.

Definition q_kid (q : qr) := s_kid (q_self q).

Lemma qr_next_kid fuel h q q' o : qr_next fuel h q = (q', o) -> kid_ok (q_kid q) ->
  kid_ok (q_kid q') /\ kid_ext (q_kid q) (q_kid q') /\ q_idx q' = q_idx q /\ s_mix (q_self q') = s_mix (q_self q)
  /\ (forall c, o = NChunk c -> rc_kid c = q_kid q').
Proof.
  intros H Hk. unfold qr_next in H.
  destruct ((match q_gen q with None => true | Some _ => false end) && negb (q_nret q =? 0)).
  { injection H as <- <-. cbn. split; [exact Hk|]. split; [apply kid_ext_refl|]. repeat split; auto. discriminate. }
  destruct (gen_send fuel (q_idx q) h _ (q_self q) (s_mix (q_self q)) (q_count q)) as [[gn' sf'] out] eqn:Es.
  assert (Hs : kid_ok (s_kid sf') /\ kid_ext (q_kid q) (s_kid sf') /\ s_mix sf' = s_mix (q_self q)
               /\ (forall c, out = YChunk c -> rc_kid c = s_kid sf')).
  { unfold gen_send in Es. destruct (match q_gen q with Some g => g | None => _ end).
    - apply gen_loop_kid in Es; [exact Es|exact Hk].
    - apply gen_loop_kid in Es; [exact Es|exact Hk].
    - injection Es as <- <- <-. split; [exact Hk|]. split; [apply kid_ext_refl|]. split; [reflexivity|discriminate]. }
  destruct Hs as (S1 & S2 & S3 & S4).
  destruct out; injection H as <- <-; cbn; (split; [exact S1|]; split; [exact S2|]; split; [reflexivity|]; split; [exact S3|]);
    intros c' E; try discriminate.
  - injection E as <-. apply S4. reflexivity.
  - destruct (q_son q); discriminate.
Qed.

Record kidinv (idx : index) (q : qr) : Prop := {
  ki_idx : q_idx q = idx;
  ki_ok : kid_ok (q_kid q);
  ki_cover : incl (map fst idx) (map fst (q_kid q))
}.

Lemma kidinv_init idx order h r son : kidinv idx (qr_init idx order h r son).
Proof.
  unfold qr_init. destruct (update_kid_spec idx (m_rows (h r)) [] kid_ok_nil) as (U1 & U2 & U3 & U4).
  constructor; cbn; auto.
Qed.
Lemma kidinv_next idx fuel h q q' o : qr_next fuel h q = (q', o) -> kidinv idx q -> kidinv idx q'.
Proof.
  intros H [K1 K2 K3]. destruct (qr_next_kid _ _ _ _ _ H K2) as (N1 & N2 & N3 & N4 & N5).
  constructor; [congruence|exact N1|]. intros k Hk. apply (kid_ext_keys _ _ N2), K3, Hk.
Qed.
Lemma kidinv_update idx h r q : kidinv idx q -> kidinv idx (qr_update_mixture h r q).
Proof.
  intros [K1 K2 K3]. destruct (update_kid_spec (q_idx q) (m_rows (h r)) (q_kid q) K2) as (U1 & U2 & U3 & U4).
  constructor; [exact K1|exact U1|]. intros k Hk. apply (kid_ext_keys _ _ U2), K3, Hk.
Qed.
Lemma kidinv_run idx fuel ops : forall q q' os, qrun fuel ops q = (q', os) -> kidinv idx q ->
  kidinv idx q' /\ kid_ext (q_kid q) (q_kid q').
Proof.
  induction ops as [|[h|h r] ops IH]; intros q q' os H Hq; cbn in H.
  - injection H as <- <-. split; [exact Hq|apply kid_ext_refl].
  - destruct (qr_next fuel h q) as [q1 o] eqn:E. destruct (qrun fuel ops q1) as [q2 os2] eqn:E2. injection H as <- <-.
    destruct (IH _ _ _ E2 (kidinv_next _ _ _ _ _ _ E Hq)) as [I1 I2]. split; [exact I1|].
    destruct (qr_next_kid _ _ _ _ _ E (ki_ok _ _ Hq)) as (_ & N2 & _). eapply kid_ext_trans; eassumption.
  - destruct (IH _ _ _ H (kidinv_update _ _ _ _ Hq)) as [I1 I2]. split; [exact I1|].
    destruct (update_kid_spec (q_idx q) (m_rows (h r)) (q_kid q) (ki_ok _ _ Hq)) as (_ & U2 & _). eapply kid_ext_trans; [exact U2|exact I2].
Qed.

(** ** Synchronisation with the counter, failures in a row, mixture ids *)
Lemma dict_eqb_spec a b : NoDup (map fst a) -> NoDup (map fst b) -> (dict_eqb a b = true <-> same_dict a b).
Proof.
  intros Ha Hb. unfold dict_eqb, same_dict. rewrite andb_true_iff, forallb_forall, Nat.eqb_eq. split.
  - intros [Hl H].
    assert (Hincl : incl (map fst a) (map fst b)).
    { intros k Hk. apply in_map_iff in Hk as ([k' v] & <- & Hin). specialize (H _ Hin). cbn in *.
      destruct (aget mkey_eqb k' b) as [v'|] eqn:E; [|discriminate]. apply (aget_in _ mkey_eqb_spec), (in_map fst) in E. exact E. }
    assert (Hincl2 : incl (map fst b) (map fst a)).
    { apply NoDup_length_incl; [exact Ha|rewrite !map_length; lia|exact Hincl]. }
    intros k. destruct (aget mkey_eqb k a) as [v|] eqn:E.
    + apply (aget_in _ mkey_eqb_spec) in E. specialize (H _ E). cbn in H. destruct (aget mkey_eqb k b) as [v'|]; [|discriminate].
      f_equal. lia.
    + symmetry. apply (aget_none _ mkey_eqb_spec). apply (aget_none _ mkey_eqb_spec) in E. intros Hk. apply E, Hincl2, Hk.
  - intros H. split.
    + assert (Hp : Permutation (map fst a) (map fst b)).
      { apply NoDup_Permutation; auto. intros k. split; intros Hk.
        - destruct (aget_some_in _ mkey_eqb_spec k a Hk) as [v E]. rewrite H in E. apply (aget_in _ mkey_eqb_spec), (in_map fst) in E. exact E.
        - destruct (aget_some_in _ mkey_eqb_spec k b Hk) as [v E]. rewrite <- H in E. apply (aget_in _ mkey_eqb_spec), (in_map fst) in E. exact E. }
      apply Permutation_length in Hp. rewrite !map_length in Hp. exact Hp.
    + intros [k v] Hin. cbn. rewrite <- H, (in_aget _ mkey_eqb_spec k v a Ha Hin). apply Z.eqb_refl.
Qed.

Fixpoint ids_from (prev : option (list (mkey * Z))) (id : Z) (l : list (list (mkey * Z))) : list Z :=
  match l with
  | [] => []
  | m :: l' => let id' := match prev with None => 0 | Some p => if dict_eqb p m then id else id + 1 end in
               id' :: ids_from (Some m) id' l'
  end.

Definition ghost (prev : option (list (mkey * Z))) (id : Z) (g : gstate) : Prop :=
  0 <= g_cur g /\
  match prev with
  | None => g_mid g = -1 /\ g_prev g = None /\ g_cur g = 0
  | Some rows => g_mid g = id /\ (rows = [] -> 0 < g_cur g) /\ NoDup (map fst rows)
                 /\ exists p0, g_prev g = to_prev p0 /\ same_dict p0 rows /\ NoDup (map fst p0)
  end.

Definition next_id (prev : option (list (mkey * Z))) (id : Z) (rows : list (mkey * Z)) : Z :=
  match prev with None => 0 | Some p => if dict_eqb p rows then id else id + 1 end.

Lemma same_dict_nil p : same_dict p [] -> p = [].
Proof.
  intros H. destruct p as [|[k v] p]; [reflexivity|]. specialize (H k). cbn in H. rewrite mkey_eqb_refl in H. discriminate.
Qed.

Lemma ghost_step prev id g rows cur' g' : ghost prev id g -> NoDup (map fst rows) ->
  g_cur g' = cur' -> 0 <= cur' -> (rows = [] -> 0 < cur') ->
  g_mid g' = g_mid g + (if bump g rows then 1 else 0) ->
  g_prev g' = (if bump g rows then to_prev rows else g_prev g) ->
  ghost (Some rows) (next_id prev id rows) g'.
Proof.
  intros [Hc Hg] Hnd Hcur Hcur0 Hrows Hmid Hprev. unfold ghost. rewrite Hcur. split; [exact Hcur0|].
  destruct prev as [p|].
  - destruct Hg as (G1 & G3 & Gn & p0 & G2 & G4 & G5). unfold bump in *. rewrite G2 in *. cbn [next_id].
    assert (Hd : dict_eqb p rows = dict_eqb p0 rows).
    { apply Bool.eq_true_iff_eq. rewrite !dict_eqb_spec by assumption. unfold same_dict in *. split; intros H k; [rewrite G4|rewrite <- G4]; apply H. }
    rewrite Hd. destruct rows as [|kv rows]; destruct p0 as [|kv0 p0].
    + cbn in Hmid, Hprev. assert (p = []) by (apply same_dict_nil; intros k; rewrite <- G4; reflexivity). subst p.
      specialize (G3 eq_refl). destruct (g_cur g =? 0) eqn:E; [lia|]. cbn in Hmid, Hprev.
      split; [cbn; lia|]. split; [exact Hrows|]. split; [exact Hnd|]. exists []. repeat split; auto.
    + cbn in Hmid, Hprev. split; [cbn; lia|]. split; [exact Hrows|]. split; [exact Hnd|]. exists []. repeat split; auto.
    + cbn in Hmid, Hprev. split; [cbn; lia|]. split; [exact Hrows|]. split; [exact Hnd|]. exists (kv :: rows). repeat split; auto.
    + cbn [prev_differs to_prev] in Hmid, Hprev. destruct (dict_eqb (kv0 :: p0) (kv :: rows)) eqn:E; cbn [negb] in Hmid, Hprev.
      * split; [lia|]. split; [exact Hrows|]. split; [exact Hnd|]. exists (kv0 :: p0). split; [exact Hprev|]. split; [|exact G5].
        apply dict_eqb_spec; assumption.
      * split; [lia|]. split; [exact Hrows|]. split; [exact Hnd|]. exists (kv :: rows). repeat split; auto.
  - destruct Hg as (G1 & G2 & G3). unfold bump in *. rewrite G1, G2, G3 in *. cbn [next_id].
    assert (Hb : (match rows with [] => false || (0 =? 0) | _ :: _ => prev_differs None rows end) = true) by (destruct rows; reflexivity).
    rewrite Hb in *. split; [lia|]. split; [exact Hrows|]. split; [exact Hnd|]. exists rows. repeat split; auto.
Qed.

Record hist (idx : index) (order : list mkey) (q : qr) (inst : ref) (held : option ref)
            (prev : option (list (mkey * Z))) (id : Z) : Prop := {
  hi_mix : s_mix (q_self q) = inst;
  hi_idx : q_idx q = idx;
  hi_order : q_order q = order;
  hi_gen : q_gen q = None -> q_nret q = 0;
  hi_st : match qgen idx order q with
          | GDone => True
          | GChunk g => held = None /\ g_cur g = q_count q /\ ghost prev id g /\ 0 <= g_fail g
          | GNone g => held = Some (g_base g) /\ g_cur g = q_count q /\ g_target g = g_cur g /\ ghost prev id g /\ 0 <= g_fail g
          end
}.

Definition held_of (inst : ref) (held : option ref) : ref := match held with Some r => r | None => inst end.
Definition new_held (inst : ref) (held : option ref) (o : nout) : option ref :=
  match o with NChunk _ => None | _ => Some (held_of inst held) end.

(** One [next()] of a single consumer. *)
Lemma hist_next idx order fuel h q inst held prev id q' o :
  heap_ok h -> hist idx order q inst held prev id -> qr_next (S fuel) h q = (q', o) ->
  let rows := m_rows (h (held_of inst held)) in
  hist idx order q' inst (new_held inst held o) (Some rows) (next_id prev id rows)
  /\ (forall c, o = NChunk c -> rc_mid c = next_id prev id rows)
  /\ (o = NNone -> exists g', qgen idx order q' = GNone g' /\
        match qgen idx order q with GNone g => g_fail g' = g_fail g + 1 | GChunk g => g_fail g' = g_fail g + 1 | GDone => False end)
  /\ (forall g, qgen idx order q = GNone g -> 10 < g_fail g -> o = NStop).
Proof.
  intros Hh [H1 H2 H3 H4 H5] H rows. unfold qr_next in H. rewrite H2, H3 in H.
  change (match q_gen q with Some g => g | None => gen_init idx order end) with (qgen idx order q) in H.
  assert (Hb : (match q_gen q with None => true | Some _ => false end) && negb (q_nret q =? 0) = false).
  { destruct (q_gen q); [reflexivity|]. rewrite H4 by reflexivity. reflexivity. }
  rewrite Hb in H. clear Hb.
  destruct (gen_send (S fuel) idx h (qgen idx order q) (q_self q) (s_mix (q_self q)) (q_count q)) as [[gn' sf'] out] eqn:Es.
  destruct (qgen idx order q) as [g|g|] eqn:Eg.
  3:{ cbn in Es. injection Es as <- <- <-. injection H as <- <-. split; [|split; [discriminate|split; discriminate]].
      constructor; cbn; auto. discriminate. }
  - destruct H5 as (Hh5 & Hcur & Hgh & Hf). subst held. cbn [held_of] in rows. cbn [gen_send] in Es.
    set (g0 := mkG (g_keys g) (g_comps g) (g_cur g) (g_mid g) (g_kidx g) (g_empty g) (g_prev g) (g_fail g) (s_mix (q_self q)) (q_count q)) in Es.
    assert (Hgh0 : ghost prev id g0) by exact Hgh.
    assert (Er : m_rows (h (g_base g0)) = rows) by (cbn; rewrite H1; reflexivity).
    assert (Hnd : NoDup (map fst rows)) by (unfold rows; apply Hh).
    assert (Hkid : s_mix sf' = inst).
    { apply gen_loop_once in Es as [(_ & _ & -> & _)|(_ & -> & _)]; [exact H1| |exact Hcur].
      rewrite (proj1 (noted_mix idx h g0 (q_self q))). exact H1. }
    apply gen_loop_once in Es as [(Hf1 & -> & -> & ->)|(Hf1 & -> & Honce)]; [| |exact Hcur].
    + injection H as <- <-. split; [|split; [discriminate|split; discriminate]]. constructor; cbn; auto. discriminate.
    + rewrite Er in Honce. destruct Honce as [g' c C1 C2 C3 C4 C5 C6 C7 C8|g' C0 C1 C2 C3 C4 C5 C6| |e].
      * injection H as <- <-. assert (Hg' : ghost (Some rows) (next_id prev id rows) g').
        { eapply (ghost_step prev id g0 rows (g_cur g0 + 1) g'); auto; try (cbn; destruct Hgh; lia). }
        split; [|split; [|split; discriminate]].
        -- constructor; cbn; auto; [discriminate|]. split; [reflexivity|]. split; [cbn in C1; lia|]. split; [exact Hg'|].
           destruct rows eqn:Ern; [rewrite C8; [exact Hf|exact Er]|rewrite C7; [lia|rewrite Er; discriminate]].
        -- intros c' [= <-]. rewrite C4, <- C3. destruct Hg' as [_ [Hm _]]. exact Hm.
      * assert (Hg' : ghost (Some rows) (next_id prev id rows) g').
        { eapply (ghost_step prev id g0 rows (g_cur g0) g'); auto; try (cbn; destruct Hgh; lia). rewrite <- Er. intros; contradiction. }
        assert (Hq : hist idx order (mkQR idx order (snd (noted idx h g0 (q_self q))) (q_count q + 1 - 1) (Some (GNone g')) (q_nret q + 1) (q_son q)) inst
                       (Some inst) (Some rows) (next_id prev id rows)).
        { constructor; cbn; auto; [discriminate|]. split; [rewrite C3; cbn; congruence|]. split; [cbn in C1; lia|].
          split; [rewrite C2, C1; cbn; lia|]. split; [exact Hg'|]. cbn in C4. lia. }
        injection H as <- <-. split; [|split; [|split]].
        -- destruct (q_son q); exact Hq.
        -- destruct (q_son q); discriminate.
        -- intros _. exists g'. split; [reflexivity|]. exact C4.
        -- discriminate.
      * injection H as <- <-. split; [|split; [discriminate|split; discriminate]]. constructor; cbn; auto. discriminate.
      * injection H as <- <-. split; [|split; [discriminate|split; discriminate]]. constructor; cbn; auto. discriminate.
  - destruct H5 as (Hh5 & Hcur & Htgt & Hgh & Hf). subst held. cbn [held_of] in rows. cbn [gen_send] in Es.
    assert (Hnd : NoDup (map fst rows)) by (unfold rows; apply Hh).
    assert (Hkid : s_mix sf' = inst).
    { apply gen_loop_once in Es as [(_ & _ & -> & _)|(_ & -> & _)]; [exact H1| |congruence].
      rewrite (proj1 (noted_mix idx h g (q_self q))). exact H1. }
    apply gen_loop_once in Es as [(Hf1 & -> & -> & ->)|(Hf1 & -> & Honce)]; [| |congruence].
    + injection H as <- <-. split; [|split; [discriminate|split; [discriminate|auto]]]. constructor; cbn; auto. discriminate.
    + fold rows in Honce. destruct Honce as [g' c C1 C2 C3 C4 C5 C6 C7 C8|g' C0 C1 C2 C3 C4 C5 C6| |e].
      * injection H as <- <-. assert (Hg' : ghost (Some rows) (next_id prev id rows) g').
        { eapply (ghost_step prev id g rows (g_cur g + 1) g'); auto; try (destruct Hgh; lia). }
        split; [|split; [|split; [discriminate|]]].
        -- constructor; cbn; auto; [discriminate|]. split; [reflexivity|]. split; [lia|]. split; [exact Hg'|].
           destruct rows eqn:Ern; [rewrite C8; [exact Hf|exact Ern]|rewrite C7; [lia|fold rows; rewrite Ern; discriminate]].
        -- intros c' [= <-]. rewrite C4, <- C3. destruct Hg' as [_ [Hm _]]. exact Hm.
        -- intros g1 [= <-] Hl. lia.
      * assert (Hg' : ghost (Some rows) (next_id prev id rows) g').
        { eapply (ghost_step prev id g rows (g_cur g) g'); auto; try (destruct Hgh; lia). intros; contradiction. }
        assert (Hq : hist idx order (mkQR idx order (snd (noted idx h g (q_self q))) (q_count q + 1 - 1) (Some (GNone g')) (q_nret q + 1) (q_son q)) inst
                       (Some (g_base g)) (Some rows) (next_id prev id rows)).
        { constructor; cbn; auto; [discriminate|]. split; [rewrite C3; reflexivity|]. split; [lia|].
          split; [lia|]. split; [exact Hg'|]. lia. }
        injection H as <- <-. split; [|split; [|split]].
        -- destruct (q_son q); exact Hq.
        -- destruct (q_son q); discriminate.
        -- intros _. exists g'. split; [reflexivity|]. exact C4.
        -- intros g1 [= <-] Hl. lia.
      * injection H as <- <-. split; [|split; [discriminate|split; [discriminate|auto]]]. constructor; cbn; auto. discriminate.
      * injection H as <- <-. split; [|split; [discriminate|split; [discriminate|]]].
        -- constructor; cbn; auto. discriminate.
        -- intros g1 [= <-] Hl. lia.
Qed.

Lemma hist_update idx order h r q inst held prev id :
  hist idx order q inst held prev id -> hist idx order (qr_update_mixture h r q) r held prev id.
Proof. intros [H1 H2 H3 H4 H5]. constructor; cbn; auto. Qed.

Lemma hist_init idx order h r son : hist idx order (qr_init idx order h r son) r None None 0.
Proof. constructor; try reflexivity. cbn. unfold ghost; cbn. repeat split; lia. Qed.

Lemma requests_cons h ops o os inst held :
  requests (Next h :: ops) (o :: os) inst held = m_rows (h (held_of inst held)) :: requests ops os inst (new_held inst held o).
Proof. reflexivity. Qed.

Lemma hist_run idx order fuel ops : forall q inst held prev id q' os,
  Forall (fun o => heap_ok (op_heap o)) ops -> hist idx order q inst held prev id -> qrun (S fuel) ops q = (q', os) ->
  length (requests ops os inst held) = length os
  /\ Forall (fun m => NoDup (map fst m)) (requests ops os inst held)
  /\ forall i c, nth_error os i = Some (NChunk c) -> nth_error (ids_from prev id (requests ops os inst held)) i = Some (rc_mid c).
Proof.
  induction ops as [|[h|h r] ops IH]; intros q inst held prev id q' os Hh Hq H; cbn [qrun] in H.
  - injection H as <- <-. cbn. repeat split; auto. intros [|i] c; discriminate.
  - inversion Hh as [|? ? Hh1 Hh2]; subst. destruct (qr_next (S fuel) h q) as [q1 o] eqn:E. destruct (qrun (S fuel) ops q1) as [q2 os2] eqn:E2.
    injection H as <- <-. destruct (hist_next idx order fuel h q inst held prev id q1 o Hh1 Hq E) as (N1 & N2 & _).
    rewrite requests_cons. destruct (IH _ _ _ _ _ _ _ Hh2 N1 E2) as (I1 & I2 & I3).
    cbn [length]. split; [lia|]. split; [constructor; [apply Hh1|exact I2]|].
    intros [|i] c Hn; cbn [nth_error ids_from] in *.
    + injection Hn as ->. f_equal. symmetry. apply N2. reflexivity.
    + apply I3, Hn.
  - inversion Hh as [|? ? Hh1 Hh2]; subst. unfold requests. cbn [working]. eapply IH; [exact Hh2| |exact H]. apply hist_update with (inst := inst), Hq.
Qed.

Lemma ids_from_spec l : forall prev id, Forall (fun m => NoDup (map fst m)) l -> (forall p, prev = Some p -> NoDup (map fst p)) ->
  length (ids_from prev id l) = length l
  /\ forall i m m' a b, nth_error l i = Some m -> nth_error l (S i) = Some m' ->
       nth_error (ids_from prev id l) i = Some a -> nth_error (ids_from prev id l) (S i) = Some b ->
       (same_dict m m' -> b = a) /\ (~ same_dict m m' -> b = a + 1).
Proof.
  induction l as [|m l IH]; intros prev id Hnd Hp; [split; [reflexivity|]; intros [|i]; discriminate|].
  inversion Hnd as [|? ? Hm Hl]; subst. cbn [ids_from].
  set (id' := match prev with None => 0 | Some p => if dict_eqb p m then id else id + 1 end).
  destruct (IH (Some m) id' Hl) as [I1 I2]; [intros p [= <-]; exact Hm|].
  split; [cbn; lia|]. intros [|i] m0 m' a b H0 H1 H2 H3.
  - cbn in H0, H2. injection H0 as <-. injection H2 as <-. cbn in H1, H3. destruct l as [|m1 l]; [discriminate|].
    cbn in H1, H3. injection H1 as ->. injection H3 as <-. inversion Hl as [|? ? Hm' _]; subst.
    pose proof (dict_eqb_spec m m' Hm Hm') as Hd. destruct (dict_eqb m m') eqn:E; split; intros Hs; auto.
    + exfalso. apply Hs, Hd. reflexivity.
    + apply Hd in Hs. discriminate.
  - eapply I2; eauto.
Qed.

(** ** Failures in a row *)
Lemma hist_run_state idx order fuel ops : forall q inst held prev id q' os,
  Forall (fun o => heap_ok (op_heap o)) ops -> hist idx order q inst held prev id -> qrun (S fuel) ops q = (q', os) ->
  exists inst' held' prev' id', hist idx order q' inst' held' prev' id'.
Proof.
  induction ops as [|[h|h r] ops IH]; intros q inst held prev id q' os Hh Hq H; cbn [qrun] in H.
  - injection H as <- <-. eauto.
  - inversion Hh as [|? ? Hh1 Hh2]; subst. destruct (qr_next (S fuel) h q) as [q1 o] eqn:E. destruct (qrun (S fuel) ops q1) as [q2 os2] eqn:E2.
    injection H as <- <-. destruct (hist_next idx order fuel h q inst held prev id q1 o Hh1 Hq E) as (N1 & _). eapply IH; eauto.
  - inversion Hh as [|? ? Hh1 Hh2]; subst. eapply IH; [exact Hh2| |exact H]. apply hist_update with (inst := inst), Hq.
Qed.

(** [nones q] : at least that many failures in a row are recorded in the state. *)
Definition failed (idx : index) (order : list mkey) (q : qr) (k : Z) : Prop :=
  k = 0 \/ exists g, qgen idx order q = GNone g /\ k <= g_fail g.

Fixpoint trailing (os : list nout) (acc : Z) : Z :=
  match os with [] => acc | NNone :: os' => trailing os' (acc + 1) | _ :: os' => trailing os' 0 end.

Lemma failed_run idx order fuel ops : forall q inst held prev id q' os k,
  Forall (fun o => heap_ok (op_heap o)) ops -> hist idx order q inst held prev id -> failed idx order q k -> 0 <= k ->
  qrun (S fuel) ops q = (q', os) -> failed idx order q' (trailing os k).
Proof.
  induction ops as [|[h|h r] ops IH]; intros q inst held prev id q' os k Hh Hq Hk Hk0 H; cbn [qrun] in H.
  - injection H as <- <-. exact Hk.
  - inversion Hh as [|? ? Hh1 Hh2]; subst. destruct (qr_next (S fuel) h q) as [q1 o] eqn:E. destruct (qrun (S fuel) ops q1) as [q2 os2] eqn:E2.
    injection H as <- <-. destruct (hist_next idx order fuel h q inst held prev id q1 o Hh1 Hq E) as (N1 & _ & N3 & _).
    destruct o; cbn [trailing]; try (eapply IH; [exact Hh2|exact N1|left; reflexivity|lia|exact E2]).
    eapply IH; [exact Hh2|exact N1| |lia|exact E2]. right. destruct (N3 eq_refl) as (g' & Eg' & Hf). exists g'. split; [exact Eg'|].
    pose proof (hi_st _ _ _ _ _ _ _ Hq) as Hst. destruct (qgen idx order q) as [g|g|] eqn:Eg; [| |contradiction].
    + destruct Hk as [-> |(g1 & E1 & _)]; [|rewrite Eg in E1; discriminate]. destruct Hst as (_ & _ & _ & Hst). lia.
    + destruct Hst as (_ & _ & _ & _ & Hst). destruct Hk as [-> |(g1 & E1 & Hle)]; [lia|]. rewrite Eg in E1. injection E1 as <-. lia.
  - inversion Hh as [|? ? Hh1 Hh2]; subst. eapply (IH (qr_update_mixture h r q)); [exact Hh2| | |exact Hk0|exact H].
    + apply hist_update with (inst := inst), Hq.
    + exact Hk.
Qed.

Lemma trailing_repeat n : forall a, trailing (repeat NNone n) a = a + Z.of_nat n.
Proof. induction n as [|n IH]; intros a; cbn [repeat trailing]; [lia|]. rewrite IH. lia. Qed.
Lemma trailing_app os n : forall a, 0 <= a -> Z.of_nat n <= trailing (os ++ repeat NNone n) a.
Proof.
  induction os as [|o os IH]; intros a Ha; cbn [app].
  - rewrite trailing_repeat. lia.
  - destruct o; cbn [trailing]; apply IH; lia.
Qed.

Lemma gives_up idx order fuel q os h q' o :
  reachable (S fuel) idx order q (os ++ repeat NNone 11) -> heap_ok h -> qr_next (S fuel) h q = (q', o) -> o = NStop.
Proof.
  intros (h0 & r0 & son & ops & Hh0 & Hops & Hrun) Hh H.
  pose proof (hist_init idx order h0 r0 son) as Hi.
  destruct (hist_run_state _ _ _ _ _ _ _ _ _ _ _ Hops Hi Hrun) as (inst & held & prev & id & Hq).
  assert (Hf : failed idx order q (trailing (os ++ repeat NNone 11) 0)).
  { eapply failed_run; [exact Hops|exact Hi|left; reflexivity|lia|exact Hrun]. }
  pose proof (trailing_app os 11 0 ltac:(lia)) as Ht.
  destruct Hf as [E|(g & Eg & Hle)]; [lia|].
  destruct (hist_next idx order fuel h q inst held prev id q' o Hh Hq H) as (_ & _ & _ & N4).
  apply (N4 g Eg). lia.
Qed.
