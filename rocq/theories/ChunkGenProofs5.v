(** The generator: one [send], then whole histories. *)
From Verif Require Import Base MixtureKeyModel MixtureKeyProofs UtilsModel UtilsProofs ChunkGenModel SpecChunk ChunkGenProofs1
  ChunkGenProofs2 ChunkGenProofs3 ChunkGenProofs4.
From Coq Require Import ZifyBool ZifyNat.
Open Scope Z_scope.

(** ** Sums over dicts with the same entries *)
Lemma chunk_total (c : index) mix : NoDup (map fst c) -> NoDup (map fst mix) -> (forall k, ksize k c = lookup0 k mix) ->
  Z.of_nat (length (all_rows c)) = zsum (map snd mix).
Proof.
  intros Hc Hm H. rewrite all_rows_length. apply zsum_dict_eq; [|exact Hm|].
  - rewrite map_map. exact Hc.
  - intros k. rewrite lookup0_sizes. apply H.
Qed.

Lemma perm_swap3 {A} (a b c : list A) : Permutation (a ++ b ++ c) (b ++ a ++ c).
Proof. rewrite !app_assoc. apply Permutation_app_tail, Permutation_app_comm. Qed.

(** ** Round robin *)
Definition rr_inv (keys : list mkey) (comps : list (mkey * list frange)) (empty : list Z) : Prop :=
  NoDup empty /\ forall i, In i empty -> 0 <= i < Z.of_nat (length keys)
     /\ forall key, nth_key i keys = Some key -> exhausted key comps.

Inductive rr_res (keys : list mkey) (csize : Z) (comps : list (mkey * list frange)) :
  list (mkey * list frange) -> rr_out -> Prop :=
| rr_found key p st st' : In key keys -> aget mkey_eqb key comps = Some st -> comp_send st csize = Some (p, st') ->
    rr_res keys csize comps (aset mkey_eqb key st' comps) (RFound key p)
| rr_exh : (forall key, In key keys -> exhausted key comps) -> rr_res keys csize comps comps RExhausted
| rr_err : rr_res keys csize comps comps (RErr OutOfFuel).

Lemma zmem_spec x l : zmem x l = true <-> In x l.
Proof.
  unfold zmem. rewrite existsb_exists. split.
  - intros (y & Hy & E). apply Z.eqb_eq in E. subst. exact Hy.
  - intros H. exists x. split; [exact H|apply Z.eqb_refl].
Qed.

Lemma exhausted_aset key ck st st' n p comps : 0 <= n -> aget mkey_eqb key comps = Some st -> comp_send st n = Some (p, st') ->
  exhausted ck comps -> exhausted ck (aset mkey_eqb key st' comps).
Proof.
  intros Hn Hg Hs He st1 E. rewrite (aget_aset _ mkey_eqb_spec) in E. destruct (mkey_eqb key ck) eqn:Ek; [|apply He, E].
  apply mkey_eqb_spec in Ek. subst. injection E as <-. specialize (He _ Hg).
  destruct (comp_send_spec _ _ _ _ Hs Hn) as (tk & Htk & _). rewrite He in Htk. symmetry in Htk. apply app_eq_nil in Htk. tauto.
Qed.

Lemma nodup_full (l : list Z) n : NoDup l -> (forall i, In i l -> 0 <= i < Z.of_nat n) -> (n <= length l)%nat ->
  forall i, 0 <= i < Z.of_nat n -> In i l.
Proof.
  intros Hnd Hr Hl i Hi.
  assert (Hincl : incl (zrange 0 (Z.of_nat n)) l).
  { apply NoDup_length_incl.
    - exact Hnd.
    - pose proof (zrange_length 0 (Z.of_nat n)). lia.
    - intros x Hx. apply in_zrange. apply Hr in Hx. lia. }
  apply Hincl, in_zrange. lia.
Qed.

Lemma round_robin_spec fuel keys csize comps : forall kidx empty comps' kidx' empty' out,
  round_robin fuel keys csize comps kidx empty = (comps', kidx', empty', out) ->
  0 <= csize -> map fst comps = keys -> rr_inv keys comps empty -> 0 <= kidx ->
  rr_res keys csize comps comps' out /\ rr_inv keys comps' empty' /\ 0 <= kidx'.
Proof.
  induction fuel as [|fuel IH]; intros kidx empty comps' kidx' empty' out H Hc Hk Hi Hkx; cbn [round_robin] in H;
    destruct (Nat.ltb (length empty) (length keys)) eqn:El.
  - injection H as <- <- <- <-. split; [constructor|auto].
  - injection H as <- <- <- <-. split; [|auto]. apply rr_exh. intros key Hkey.
    apply In_nth_error in Hkey as (i & Hn). assert (Hil : (i < length keys)%nat) by (apply nth_error_Some; congruence).
    destruct Hi as [Hnd Hi]. apply Nat.ltb_ge in El.
    assert (Hin : In (Z.of_nat i) empty).
    { eapply nodup_full; [exact Hnd| |exact El|lia]. intros j Hj. apply Hi, Hj. }
    apply (Hi _ Hin). unfold nth_key. rewrite Nat2Z.id. exact Hn.
  - set (n := Z.of_nat (length keys)) in *. apply Nat.ltb_lt in El.
    assert (Hn : 0 < n) by lia. pose proof (Z.mod_pos_bound (kidx + 1) n Hn) as Hm.
    destruct (zmem ((kidx + 1) mod n) empty) eqn:Ez.
    + eapply IH; eauto. apply Z.mod_pos_bound. exact Hn.
    + unfold nth_key in H. destruct (nth_error keys (Z.to_nat ((kidx + 1) mod n))) as [key|] eqn:En.
      2:{ apply nth_error_None in En. lia. }
      assert (Hkin : In key keys) by (eapply nth_error_In; exact En).
      destruct (aget_some_in _ mkey_eqb_spec key comps) as [st Est]; [rewrite Hk; exact Hkin|]. rewrite Est in H.
      destruct (comp_send st csize) as [[p st']|] eqn:Es.
      * injection H as <- <- <- <-. split; [econstructor; eauto|]. split; [|lia].
        destruct Hi as [Hnd Hi]. split; [exact Hnd|]. intros i Hin. destruct (Hi i Hin) as [H1 H2]. split; [exact H1|].
        intros key' Hk'. eapply exhausted_aset; [exact Hc|exact Est|exact Es|apply H2, Hk'].
      * eapply IH; eauto; [|lia]. destruct Hi as [Hnd Hi]. split.
        -- constructor; [|exact Hnd]. intros Hin. apply zmem_spec in Hin. congruence.
        -- intros i [<-|Hin]; [|apply Hi, Hin]. split; [lia|]. intros key' Hk'. unfold nth_key in Hk'. rewrite En in Hk'. injection Hk' as <-.
           intros st1 E1. rewrite Est in E1. injection E1 as <-. apply (comp_send_none _ _ Es).
  - injection H as <- <- <- <-. split; [|auto]. apply rr_exh. intros key Hkey.
    apply In_nth_error in Hkey as (i & Hn). assert (Hil : (i < length keys)%nat) by (apply nth_error_Some; congruence).
    destruct Hi as [Hnd Hi]. apply Nat.ltb_ge in El.
    assert (Hin : In (Z.of_nat i) empty).
    { eapply nodup_full; [exact Hnd| |exact El|lia]. intros j Hj. apply Hi, Hj. }
    apply (Hi _ Hin). unfold nth_key. rewrite Nat2Z.id. exact Hn.
Qed.

(** ** Rows of index keys *)
Definition idx_rows (idx : index) (ck : mkey) (x : row) : Prop := exists p, In (ck, p) idx /\ In x (rows_of p).

Lemma idx_rows_disj idx : index_ok idx -> forall ck ck' x, idx_rows idx ck x -> idx_rows idx ck' x -> ck = ck'.
Proof.
  intros Hix ck ck' x (p & Hp & Hx) (p' & Hp' & Hx'). pose proof (ix_rows _ Hix) as Hnd.
  destruct (mkey_eq_dec ck ck') as [|Hne]; [assumption|exfalso].
  apply in_split in Hp as (l1 & l2 & ->). unfold all_rows in Hnd. rewrite flat_map_app in Hnd. cbn in Hnd.
  apply NoDup_app_iff in Hnd as (_ & Hnd & H1). apply NoDup_app_iff in Hnd as (_ & _ & H2).
  apply in_app_or in Hp' as [Hp'|[E|Hp']].
  - apply (H1 x); [apply in_flat_map; exists (ck', p'); auto|apply in_or_app; auto].
  - congruence.
  - apply (H2 x Hx). apply in_flat_map. exists (ck', p'). auto.
Qed.

(** ** Facts about a delivered chunk *)
Definition chunk_sorted (c : index) : Prop :=
  forall k p d fs f rs, In (k, p) c -> In (d, fs) p -> In (f, rs) fs -> ranges_sorted rs.
Definition chunk_match (idx c : index) : Prop :=
  forall k p x, In (k, p) c -> In x (rows_of p) ->
    exists ck p', In (ck, p') idx /\ key_eq k ck = true /\ In x (rows_of p').
(** Every range starts at a row of the index, even an empty one. *)
Definition chunk_starts (idx c : index) : Prop :=
  forall k p d fs f rs r, In (k, p) c -> In (d, fs) p -> In (f, rs) fs -> In r rs -> exists ck, idx_rows idx ck (d, f, fst r).
Definition chunk_mix (m : mixobj) (c : rchunk) : Prop :=
  match m_rows m with
  | [] => exists k p, rc_index c = [(k, p)] /\ Z.of_nat (length (rows_of p)) <= m_csize m
                      /\ rc_mix c = None /\ rc_strict c = true
  | _ => rc_strict c = m_strict m /\ exists mix, rc_mix c = Some mix
         /\ (forall k, Z.of_nat (length (rows_under k (rc_index c))) = asked mix k)
         /\ Z.of_nat (length (all_rows (rc_index c))) = zsum (map snd (m_rows m))
         /\ NoDup (map fst mix) /\ incl (map fst mix) (map fst (m_rows m))
         /\ incl (map fst (rc_index c)) (map fst (m_rows m))
         /\ (m_strict m = true -> mix = m_rows m)
  end.
Record chunk_facts (idx : index) (m : mixobj) (c : rchunk) : Prop := {
  cf_nd : NoDup (map fst (rc_index c));
  cf_sorted : chunk_sorted (rc_index c);
  cf_match : chunk_match idx (rc_index c);
  cf_csize : rc_csize c = m_csize m;
  cf_known : forall k, In k (map fst (rc_index c)) -> In k (map fst (rc_kid c));
  cf_mix : chunk_mix m c;
  cf_starts : chunk_starts idx (rc_index c);
  cf_full : chunk_full (rc_index c)
}.

Section Gen.
  Variables (idx : index) (order : list mkey).
  Hypothesis Hix : index_ok idx.
  Hypothesis Hord : Permutation order (map fst idx).

  Let R := idx_rows idx.

  Record ginv (g : gstate) : Prop := {
    gi_keys : g_keys g = order;
    gi_comps : map fst (g_comps g) = order;
    gi_sorted : comps_sorted R (g_comps g);
    gi_rr : rr_inv order (g_comps g) (g_empty g);
    gi_kidx : 0 <= g_kidx g
  }.

  Definition gen_inv (gn : gen) : Prop := match gn with GChunk g => ginv g | GNone g => ginv g | GDone => True end.
  Definition gen_rows (gn : gen) : list row :=
    match gn with GChunk g => comps_rows (g_comps g) | GNone g => comps_rows (g_comps g) | GDone => [] end.
  Definition out_rows (o : gout) : list row := match o with YChunk c => all_rows (rc_index c) | _ => [] end.

  Lemma keys_known_spec c kid : keys_known c kid = true -> forall k, In k (map fst c) -> In k (map fst kid).
  Proof.
    unfold keys_known. rewrite forallb_forall. intros H k Hk. specialize (H k Hk). unfold amem in H.
    destruct (aget mkey_eqb k kid) as [v|] eqn:E; [|discriminate]. apply (aget_in _ mkey_eqb_spec), (in_map fst) in E. exact E.
  Qed.

  Lemma takes_sorted mks cs x : comps_sorted R cs -> takes mks (cs, []) x ->
    comps_sorted R (fst x) /\ chunk_sorted (snd x)
    /\ (forall k p y, In (k, p) (snd x) -> In y (rows_of p) -> exists ck p', In (ck, p') idx /\ key_eq k ck = true /\ In y (rows_of p'))
    /\ chunk_starts idx (snd x).
  Proof.
    intros Hc Ht. assert (Hs : sinv R (cs, [])) by (split; [exact Hc|intros mk p []]).
    apply (takes_sinv R (idx_rows_disj idx Hix) _ _ _ Ht) in Hs as [H1 H2]. split; [exact H1|]. split; [|split].
    - intros k p d fs f rs Hk Hd Hf. apply (H2 k p Hk d f rs). exists fs; auto.
    - intros k p y Hk Hy. unfold rows_of in Hy. apply in_flat_map in Hy as ([d fs] & Hd & Hy).
      apply in_flat_map in Hy as ([f rs] & Hf & Hy). cbn in Hf, Hy. apply in_flat_map in Hy as (r & Hr & Hy).
      destruct (H2 k p Hk d f rs) as [_ H3]; [exists fs; auto|]. destruct (H3 r Hr) as (ck & Hkc & _ & Ho & _).
      destruct (Ho y Hy) as (p' & Hp' & Hy'). eauto.
    - intros k p d fs f rs r Hk Hd Hf Hr. destruct (H2 k p Hk d f rs) as [_ H3]; [exists fs; auto|].
      destruct (H3 r Hr) as (ck & _ & Ho & _). exists ck. exact Ho.
  Qed.

  Lemma note_mixture_g h g sf m : let '(g1, _) := note_mixture idx h g sf m in
    g_keys g1 = g_keys g /\ g_comps g1 = g_comps g /\ g_empty g1 = g_empty g /\ g_kidx g1 = g_kidx g
    /\ g_base g1 = g_base g /\ g_target g1 = g_target g /\ g_cur g1 = g_cur g /\ g_fail g1 = g_fail g.
  Proof. unfold note_mixture. destruct (prev_differs _ _); cbn; repeat split. Qed.
  Lemma note_arbitrary_g g sf : let '(g1, _) := note_arbitrary g sf in
    g_keys g1 = g_keys g /\ g_comps g1 = g_comps g /\ g_empty g1 = g_empty g /\ g_kidx g1 = g_kidx g
    /\ g_base g1 = g_base g /\ g_target g1 = g_target g /\ g_cur g1 = g_cur g /\ g_fail g1 = g_fail g.
  Proof. unfold note_arbitrary. destruct (_ || _); cbn; repeat split. Qed.

  (** One run of the loop body up to the next suspension. *)
  Lemma gen_loop_spec h fuel : heap_ok h -> forall g sf gn' sf' out,
    gen_loop fuel idx h g sf = (gn', sf', out) -> ginv g ->
    gen_inv gn'
    /\ (exists lost, Permutation (comps_rows (g_comps g)) (out_rows out ++ lost ++ gen_rows gn')
                     /\ (g_cur g = g_target g -> forall c, out = YChunk c -> lost = []))
    /\ (forall c, out = YChunk c -> chunk_facts idx (h (g_base g)) c).
  Proof.
    intros Hh. induction fuel as [|fuel IH]; intros g sf gn' sf' out H Hg; cbn [gen_loop] in H.
    { injection H as <- <- <-. split; [exact I|]. split; [|discriminate].
      exists (comps_rows (g_comps g)). cbn. rewrite app_nil_r. split; [reflexivity|discriminate]. }
    destruct (10 <? g_fail g).
    { injection H as <- <- <-. split; [exact I|]. split; [|discriminate].
      exists (comps_rows (g_comps g)). cbn. rewrite app_nil_r. split; [reflexivity|discriminate]. }
    set (m := h (g_base g)) in *. destruct (Hh (g_base g)) as [Hmok Hcs]. fold m in Hmok, Hcs.
    destruct (m_rows m) as [|kv0 rows0] eqn:Erows.
    - (* arbitrary *)
      pose proof (note_arbitrary_g g sf) as Hn. destruct (note_arbitrary g sf) as [g1 sf1].
      destruct Hn as (N1 & N2 & N3 & N4 & N5 & N6 & N7 & N8). rewrite N1, N2, N3, N4, N6, N7 in H.
      destruct Hg as [G1 G2 G3 G4 G5]. rewrite G1 in H.
      match type of H with context [round_robin ?fu ?a ?b ?c ?d ?e] =>
        destruct (round_robin fu a b c d e) as [[[comps' kidx'] empty'] ro] eqn:Err end.
      apply round_robin_spec in Err as (Hres & Hrr & Hkx); auto.
      inversion Hres as [key p st st' Hkin Hget Hsend E1 E2|Hexh E1 E2|E1 E2]; subst.
      + destruct (comp_send_spec _ _ _ _ Hsend Hcs) as (tk & Htk & Hp & Hok & Hlen).
        assert (Hperm : Permutation (comps_rows (g_comps g)) (rows_of p ++ comps_rows (aset mkey_eqb key st' (g_comps g)))).
        { destruct (flat_map_kset frows key st' st (g_comps g) Hget) as (rest & Q1 & Q2). unfold comps_rows.
          rewrite Q1, Q2, Htk, Hp, <- app_assoc. reflexivity. }
        destruct (G3 _ _ Hget) as [Hst HstR].
        destruct (comp_send_sorted (R key) st (m_csize m) p st' Hsend Hcs Hst HstR) as (Hps & Hst' & Hpnd & Hx0).
        assert (Hsorted' : comps_sorted R (aset mkey_eqb key st' (g_comps g))).
        { intros c st1 E. rewrite (aget_aset _ mkey_eqb_spec) in E. destruct (mkey_eqb key c) eqn:Ec; [|apply G3, E].
          apply mkey_eqb_spec in Ec. subst. injection E as <-. split; [exact Hst'|].
          intros x Hx. apply HstR. rewrite Htk. apply in_or_app; auto. }
        assert (Hkeys' : map fst (aset mkey_eqb key st' (g_comps g)) = map fst (g_comps g)).
        { rewrite akeys_aset. unfold amem. rewrite Hget. reflexivity. }
        assert (Hginv' : forall cur mid prev fail base target,
                    ginv (mkG order (aset mkey_eqb key st' (g_comps g)) cur mid kidx' empty' prev fail base target)).
        { intros. constructor; cbn [g_keys g_comps g_empty g_kidx]; auto; try congruence. }
        assert (Hsz : Z.of_nat (length (rows_of p)) <= m_csize m).
        { rewrite (Permutation_length Hp). lia. }
        destruct (g_cur g =? g_target g) eqn:Ect.
        * destruct (keys_known [(key, p)] (s_kid sf1)) eqn:Ekn.
          -- injection H as <- <- <-. split; [apply Hginv'|]. split.
             { exists []. cbn. rewrite app_nil_r. split; [exact Hperm|auto]. }
             intros c [= <-]. constructor; cbn [rc_index rc_csize rc_kid].
             ++ constructor; [intros []|constructor].
             ++ intros k p1 d fs f rs [E|[]] Hd Hf. injection E as <- <-. apply (Hps d f rs). exists fs; auto.
             ++ intros k p1 x [E|[]] Hx. injection E as <- <-. destruct (HstR x) as (p' & Hp' & Hx').
                { rewrite Htk. apply in_or_app. left. eapply Permutation_in; [exact Hp|exact Hx]. }
                exists key, p'. split; [exact Hp'|]. split; [|exact Hx']. apply key_eq_refl. eapply ix_dict; eauto.
             ++ reflexivity.
             ++ intros k Hk. apply (keys_known_spec _ _ Ekn k). exact Hk.
             ++ unfold chunk_mix. rewrite Erows. exists key, p. repeat split. exact Hsz.
             ++ intros k p1 d fs f rs r [E|[]] Hd Hf Hr. injection E as <- <-. destruct (Hps d f rs) as [_ H3]; [exists fs; auto|].
                exists key. exact (proj1 (H3 r Hr)).
             ++ intros k p1 [E|[]]. injection E as <- <-. apply (comp_send_full _ _ _ _ Hsend).
          -- injection H as <- <- <-. split; [exact I|]. split; [|discriminate].
             exists (comps_rows (g_comps g)). cbn. rewrite app_nil_r. split; [reflexivity|discriminate].
        * apply IH in H as (I1 & (lost & I2 & I3) & I4); [|apply Hginv'].
          split; [exact I1|]. cbn [g_comps g_base] in *. rewrite N5 in I4. split; [|exact I4].
          exists (rows_of p ++ lost). split.
          -- rewrite Hperm, I2, <- (app_assoc (rows_of p) lost). apply perm_swap3.
          -- intros E. lia.
      + injection H as <- <- <-. split; [exact I|]. split; [|discriminate].
        eexists. cbn. rewrite app_nil_r. split; [reflexivity|discriminate].
      + injection H as <- <- <-. split; [exact I|]. split; [|discriminate].
        eexists. cbn. rewrite app_nil_r. split; [reflexivity|discriminate].
    - (* mixture *)
      rewrite <- Erows in *.
      pose proof (note_mixture_g h g sf m) as Hn. destruct (note_mixture idx h g sf m) as [g1 sf1].
      destruct Hn as (N1 & N2 & N3 & N4 & N5 & N6 & N7 & N8). destruct Hg as [G1 G2 G3 G4 G5].
      rewrite N1, N2, N3, N4, N6, N7, G1 in H.
      pose proof (run_attempt_out (m_strict m) (g_comps g) (m_rows m) Hmok) as Hout.
      destruct (run_attempt (m_strict m) (g_comps g) (m_rows m)) as [a|e] eqn:Eat.
      2:{ injection H as <- <- <-. split; [exact I|]. split; [|discriminate].
          eexists. cbn. rewrite app_nil_r. split; [reflexivity|discriminate]. }
      assert (Ht : takes (map fst (m_rows m)) (g_comps g, []) (a_comps a, a_chunk a)).
      { inversion Hout; assumption. }
      destruct (takes_sorted _ _ _ G3 Ht) as (S1 & S2 & S3 & S4). cbn [fst snd] in S1, S2, S3, S4.
      pose proof (takes_conserve _ _ _ Ht) as Hcons. cbn [fst snd] in Hcons. cbn [all_rows flat_map app] in Hcons.
      pose proof (takes_keys _ _ _ Ht) as Hkeys. cbn [fst] in Hkeys.
      assert (Hginv' : forall cur mid prev fail base target,
                ginv (mkG order (a_comps a) cur mid (g_kidx g) (g_empty g) prev fail base target)).
      { intros. constructor; cbn [g_keys g_comps g_empty g_kidx]; auto; try congruence.
        destruct G4 as [Hnd Hi]. split; [exact Hnd|]. intros i Hin. destruct (Hi i Hin) as [H1 H2]. split; [exact H1|].
        intros key Hkey. change (a_comps a) with (fst (a_comps a, a_chunk a)). eapply takes_exhausted; [exact Ht|]. apply H2, Hkey. }
      destruct (att_success a) eqn:Esucc.
      + assert (Hok : ainv (m_rows m) a /\ (forall k, lookup0 k (a_rem a) = 0)
                      /\ (m_strict m = true -> a_mix a = m_rows m)).
        { inversion Hout as [a' T A S Z C Nn E|a' mk T A S In_ P D M R' E|a' T S R' D Sz E|S ZZ E]; subst a'.
          - split; [exact A|]. split; [exact Z|]. intros Hs. apply S, Hs.
          - exfalso. apply att_success_spec in Esucc; [|apply (ai_rem _ _ A)]. destruct Esucc as [_ Hz]. rewrite Hz in P. lia.
          - exfalso. unfold att_success in Esucc. rewrite R' in Esucc. discriminate. }
        destruct Hok as (A & Hz & Hst).
        destruct (g_cur g =? g_target g) eqn:Ect.
        * destruct (keys_known (a_chunk a) (s_kid sf1)) eqn:Ekn.
          -- injection H as <- <- <-. split; [apply Hginv'|]. split.
             { exists []. cbn [out_rows rc_index gen_rows g_comps app]. split; [exact Hcons|auto]. }
             intros c [= <-].
             assert (Hcnt : forall k, ksize k (a_chunk a) = lookup0 k (a_mix a)).
             { intros k. pose proof (ai_cnt _ _ A k) as E. rewrite Hz in E. lia. }
             constructor; cbn [rc_index rc_csize rc_kid].
             ++ apply (ai_ch _ _ A).
             ++ exact S2.
             ++ exact S3.
             ++ reflexivity.
             ++ apply keys_known_spec, Ekn.
             ++ unfold chunk_mix. rewrite Erows. rewrite <- Erows. cbn [rc_index rc_mix rc_strict].
                split; [reflexivity|]. exists (a_mix a). split; [reflexivity|]. split.
                { intros k. rewrite rows_under_kpart by apply (ai_ch _ _ A). fold (ksize k (a_chunk a)).
                  rewrite Hcnt. reflexivity. }
                split. { rewrite <- (ai_sum _ _ A). apply chunk_total; [apply (ai_ch _ _ A)|apply (ai_mix _ _ A)|exact Hcnt]. }
                split; [apply (ai_mix _ _ A)|]. split; [apply (ai_m0 _ _ A)|]. split; [apply (ai_c0 _ _ A)|]. exact Hst.
             ++ exact S4.
             ++ apply (takes_full _ _ _ Ht). intros k p [].
          -- injection H as <- <- <-. split; [exact I|]. split; [|discriminate].
             eexists. cbn. rewrite app_nil_r. split; [reflexivity|discriminate].
        * apply IH in H as (I1 & (lost & I2 & I3) & I4); [|apply Hginv'].
          split; [exact I1|]. cbn [g_comps g_base] in *. rewrite N5 in I4. split; [|exact I4].
          exists (all_rows (a_chunk a) ++ lost). split.
          -- rewrite Hcons, I2, <- (app_assoc (all_rows (a_chunk a)) lost). apply perm_swap3.
          -- intros E. lia.
      + injection H as <- <- <-. split; [apply Hginv'|]. split; [|discriminate].
        exists (all_rows (a_chunk a)). cbn [out_rows gen_rows g_comps app]. split; [exact Hcons|discriminate].
  Qed.

  (** ** Creation *)
  Lemma init_comps_sorted : comps_sorted R
    (map (fun k => (k, match aget mkey_eqb k idx with Some p => flatten p | None => [] end)) order).
  Proof.
    intros ck st E. apply (aget_in _ mkey_eqb_spec) in E. apply in_map_iff in E as (k & E & Hk). injection E as -> <-.
    assert (Hin : In ck (map fst idx)) by (eapply Permutation_in; [exact Hord|exact Hk]).
    destruct (aget_some_in _ mkey_eqb_spec ck idx Hin) as [p Ep]. rewrite Ep.
    apply (aget_in _ mkey_eqb_spec) in Ep. split.
    - apply flatten_sorted.
      + split; [eapply ix_ds; eauto|]. apply Forall_forall. intros [d fs] Hd. cbn. eapply ix_files; eauto.
      + intros d f rs (fs & H1 & H2). eapply ix_ranges; eauto.
    - intros x Hx. exists p. split; [exact Ep|]. eapply Permutation_in; [apply flatten_rows|exact Hx].
  Qed.

  Lemma gen_init_inv : gen_inv (gen_init idx order).
  Proof.
    unfold gen_init. constructor; cbn [g_keys g_comps g_empty g_kidx].
    - reflexivity.
    - rewrite map_map. cbn. apply map_id.
    - apply init_comps_sorted.
    - split; [constructor|intros i []].
    - lia.
  Qed.

  Lemma gen_init_rows : Permutation (all_rows idx) (gen_rows (gen_init idx order)).
  Proof.
    unfold gen_init, gen_rows, comps_rows. cbn [g_comps]. rewrite flat_map_map. cbn.
    rewrite (flat_map_perm _ _ _ Hord). rewrite flat_map_map. unfold all_rows.
    pose proof (ix_keys _ Hix) as Hnd. apply flat_map_ext_perm. intros [k p] Hin. cbn.
    rewrite (in_aget _ mkey_eqb_spec k p idx Hnd Hin). symmetry. apply flatten_rows.
  Qed.

  Lemma gen_send_spec h fuel gn sf r target gn' sf' out : heap_ok h ->
    gen_send fuel idx h gn sf r target = (gn', sf', out) -> gen_inv gn ->
    gen_inv gn'
    /\ (exists lost, Permutation (gen_rows gn) (out_rows out ++ lost ++ gen_rows gn'))
    /\ (forall g c, gn = GChunk g -> out = YChunk c -> chunk_facts idx (h r) c)
    /\ (forall c, out = YChunk c -> exists r', chunk_facts idx (h r') c).
  Proof.
    intros Hh H Hg. destruct gn as [g|g|]; cbn in H, Hg.
    - apply gen_loop_spec in H as (H1 & (lost & H2 & _) & H3); [|exact Hh|].
      + split; [exact H1|]. split; [exists lost; exact H2|]. cbn in H3. split; [intros g' c _; apply H3|].
        intros c Hc. exists r. auto.
      + destruct Hg as [G1 G2 G3 G4 G5]. constructor; assumption.
    - apply gen_loop_spec in H as (H1 & (lost & H2 & _) & H3); [|exact Hh|exact Hg].
      split; [exact H1|]. split; [exists lost; exact H2|]. split; [discriminate|]. intros c Hc. eauto.
    - injection H as <- <- <-. split; [exact I|]. split; [exists []; reflexivity|]. split; discriminate.
  Qed.

  (** ** Histories *)
  Definition qgen (q : qr) : gen := match q_gen q with Some g => g | None => gen_init idx order end.

  Definition is_chunk (o : nout) : Prop := match o with NChunk _ => True | _ => False end.

  (** [os]: results so far, oldest first. *)
  Record qinv (q : qr) (os : list nout) : Prop := {
    qi_idx : q_idx q = idx;
    qi_order : q_order q = order;
    qi_gen : gen_inv (qgen q);
    qi_rows : exists lost, Permutation (all_rows idx) (flat_map (fun c => all_rows (rc_index c)) (chunks os) ++ lost ++ gen_rows (qgen q));
    qi_facts : forall c, In c (chunks os) -> exists h r, heap_ok h /\ chunk_facts idx (h r) c;
    qi_last : forall os' o, os = os' ++ [o] -> is_chunk o -> exists g, qgen q = GChunk g
  }.

  Lemma chunks_app a b : chunks (a ++ b) = chunks a ++ chunks b.
  Proof. apply flat_map_app. Qed.

  Lemma qnext_inv fuel h q os q' o : heap_ok h -> qinv q os -> qr_next fuel h q = (q', o) ->
    qinv q' (os ++ [o])
    /\ (forall c, o = NChunk c -> (exists g, qgen q = GChunk g) -> chunk_facts idx (h (s_mix (q_self q))) c).
  Proof.
    intros Hh [Q1 Q2 Q3 (lost & Q4) Q5 Q6] H. unfold qr_next in H. rewrite Q1, Q2 in H.
    change (match q_gen q with Some g => g | None => gen_init idx order end) with (qgen q) in H.
    destruct ((match q_gen q with None => true | Some _ => false end) && negb (q_nret q =? 0)).
    { injection H as <- <-. split; [|discriminate]. constructor; cbn [q_idx q_order]; auto.
      - exists lost. rewrite chunks_app. cbn [chunks flat_map]. rewrite app_nil_r. exact Q4.
      - intros c Hc. apply Q5. rewrite chunks_app in Hc. cbn in Hc. rewrite app_nil_r in Hc. exact Hc.
      - intros os' o' E Hch. apply app_inj_tail in E as [_ <-]. destruct Hch. }
    destruct (gen_send fuel idx h (qgen q) (q_self q) (s_mix (q_self q)) (q_count q)) as [[gn' sf'] out] eqn:Es.
    pose proof Es as Es0.
    apply gen_send_spec in Es as (S1 & (lost2 & S2) & S3 & S4); [|exact Hh|exact Q3].
    assert (Hgk : forall c, out = YChunk c -> exists g, gn' = GChunk g).
    { intros c ->. clear - Es0. unfold gen_send in Es0. destruct (qgen q) as [g|g|]; [| |discriminate].
      - revert Es0. generalize (mkG (g_keys g) (g_comps g) (g_cur g) (g_mid g) (g_kidx g) (g_empty g) (g_prev g) (g_fail g)
                                     (s_mix (q_self q)) (q_count q)) as g0. intros g0.
        revert g0. generalize (q_self q) as sf. induction fuel as [|fuel IH]; intros sf g0 H; cbn [gen_loop] in H; [discriminate|].
        destruct (10 <? g_fail g0); [discriminate|]. destruct (m_rows (h (g_base g0))).
        + destruct (note_arbitrary g0 sf) as [g1 sf1].
          match type of H with context [round_robin ?fu ?a ?b ?c ?d ?e] =>
            destruct (round_robin fu a b c d e) as [[[comps' kidx'] empty'] ro] end.
          destruct ro; try discriminate. destruct (_ =? _); [|eapply IH, H].
          destruct (keys_known _ _); [|discriminate]. injection H as <- _ _. eauto.
        + destruct (note_mixture idx h g0 sf (h (g_base g0))) as [g1 sf1].
          destruct (run_attempt _ _ _); [|discriminate]. destruct (att_success _); [|discriminate].
          destruct (_ =? _); [|eapply IH, H]. destruct (keys_known _ _); [|discriminate]. injection H as <- _ _. eauto.
      - revert Es0. revert g. generalize (q_self q) as sf. induction fuel as [|fuel IH]; intros sf g0 H; cbn [gen_loop] in H; [discriminate|].
        destruct (10 <? g_fail g0); [discriminate|]. destruct (m_rows (h (g_base g0))).
        + destruct (note_arbitrary g0 sf) as [g1 sf1].
          match type of H with context [round_robin ?fu ?a ?b ?c ?d ?e] =>
            destruct (round_robin fu a b c d e) as [[[comps' kidx'] empty'] ro] end.
          destruct ro; try discriminate. destruct (_ =? _); [|eapply IH, H].
          destruct (keys_known _ _); [|discriminate]. injection H as <- _ _. eauto.
        + destruct (note_mixture idx h g0 sf (h (g_base g0))) as [g1 sf1].
          destruct (run_attempt _ _ _); [|discriminate]. destruct (att_success _); [|discriminate].
          destruct (_ =? _); [|eapply IH, H]. destruct (keys_known _ _); [|discriminate]. injection H as <- _ _. eauto. }
    assert (Hq : forall cnt o', (forall c, o' = NChunk c <-> out = YChunk c) ->
       qinv (mkQR idx order sf' cnt (Some gn') (q_nret q + 1) (q_son q)) (os ++ [o'])).
    { intros cnt o' Ho. constructor; cbn [q_idx q_order]; auto.
      - exists (lost ++ lost2). rewrite chunks_app, flat_map_app.
        assert (Eo : flat_map (fun c => all_rows (rc_index c)) (chunks [o']) = out_rows out).
        { destruct o' as [c| | |]; cbn.
          - rewrite (proj1 (Ho c) eq_refl). cbn. apply app_nil_r.
          - destruct out as [c| | |]; try reflexivity. specialize (Ho c). destruct Ho as [_ Ho]. specialize (Ho eq_refl). discriminate.
          - destruct out as [c| | |]; try reflexivity. specialize (Ho c). destruct Ho as [_ Ho]. specialize (Ho eq_refl). discriminate.
          - destruct out as [c| | |]; try reflexivity. specialize (Ho c). destruct Ho as [_ Ho]. specialize (Ho eq_refl). discriminate. }
        rewrite Eo, Q4, S2. cbn [qgen q_gen]. rewrite <- !app_assoc. apply Permutation_app_head.
        apply perm_swap3.
      - intros c Hc. rewrite chunks_app in Hc. apply in_app_or in Hc as [Hc|Hc]; [apply Q5, Hc|].
        destruct o' as [c'| | |]; cbn in Hc; try contradiction. destruct Hc as [->|[]].
        destruct (S4 c) as [r Hr]; [apply Ho; reflexivity|]. eauto.
      - intros os' o'' E Hch. apply app_inj_tail in E as [_ <-]. cbn [qgen q_gen].
        destruct o' as [c| | |]; try destruct Hch. apply (Hgk c). apply Ho. reflexivity. }
    split.
    - destruct out; injection H as <- <-; apply Hq; intros c'; split; intros E; try discriminate; try congruence;
        destruct (q_son q); discriminate.
    - intros c -> [g Eg]. destruct out as [c0| | |]; [|destruct (q_son q); discriminate|discriminate|discriminate].
      injection H as _ <-. rewrite Eg in S3. eapply S3; reflexivity.
  Qed.

  Lemma qupdate_inv h r q os : qinv q os -> qinv (qr_update_mixture h r q) os.
  Proof. intros [Q1 Q2 Q3 Q4 Q5 Q6]. constructor; cbn; auto. Qed.

  Lemma qinit_inv h r son : qinv (qr_init idx order h r son) [].
  Proof.
    constructor; cbn [q_idx q_order qr_init]; auto.
    - apply gen_init_inv.
    - exists []. cbn. apply gen_init_rows.
    - intros c [].
    - intros os' o E. destruct os'; discriminate.
  Qed.

  Lemma qrun_inv fuel ops : forall q os q' os', Forall (fun o => heap_ok (op_heap o)) ops -> qinv q os ->
    qrun fuel ops q = (q', os') -> qinv q' (os ++ os').
  Proof.
    induction ops as [|[h|h r] ops IH]; intros q os q' os' Hh Hq H; cbn in H.
    - injection H as <- <-. rewrite app_nil_r. exact Hq.
    - inversion Hh as [|? ? H1 H2]; subst. destruct (qr_next fuel h q) as [q1 o] eqn:E. destruct (qrun fuel ops q1) as [q2 os2] eqn:E2.
      injection H as <- <-. change (o :: os2) with ([o] ++ os2). rewrite app_assoc. eapply IH; [exact H2| |exact E2].
      apply (qnext_inv fuel h q os q1 o H1 Hq E).
    - inversion Hh as [|? ? H1 H2]; subst. eapply IH; [exact H2| |exact H]. apply qupdate_inv, Hq.
  Qed.

  Lemma reachable_inv fuel q os : reachable fuel idx order q os -> qinv q os.
  Proof.
    intros (h0 & r0 & son & ops & H0 & H1 & H2). change os with ([] ++ os). eapply qrun_inv; [exact H1|apply qinit_inv|exact H2].
  Qed.
End Gen.
