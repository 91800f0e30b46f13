(** Concurrent consumers (C12). *)
From Verif Require Import Base MixtureKeyModel MixtureKeyProofs UtilsModel UtilsProofs ChunkGenModel SpecChunk ConcurrentModel
  ChunkGenProofs1 ChunkGenProofs2 ChunkGenProofs3 ChunkGenProofs4 ChunkGenProofs5 ChunkGenProofs6.
From Coq Require Import ZifyBool ZifyNat.
Open Scope Z_scope.

(** ** More fuel does not change a result *)
Lemma round_robin_mono fuel keys cs : forall comps kidx empty comps' kidx' empty' o fuel',
  round_robin fuel keys cs comps kidx empty = (comps', kidx', empty', o) -> o <> RErr OutOfFuel -> (fuel <= fuel')%nat ->
  round_robin fuel' keys cs comps kidx empty = (comps', kidx', empty', o).
Proof.
  induction fuel as [|fuel IH]; intros comps kidx empty comps' kidx' empty' o fuel' H Ho Hf.
  - cbn [round_robin] in H. destruct fuel'; cbn [round_robin]; destruct (Nat.ltb (length empty) (length keys)); auto; injection H as <- <- <- <-; contradiction.
  - destruct fuel' as [|fuel']; [lia|]. cbn [round_robin] in *. destruct (Nat.ltb _ _); [|exact H].
    destruct (zmem _ _); [apply IH; auto; lia|].
    destruct (nth_key _ _); [|exact H]. destruct (aget _ _ _); [|exact H]. destruct (comp_send _ _) as [[p st']|]; [exact H|].
    apply IH; auto; lia.
Qed.

Definition ret (r : ref) (t : Z) (g : gstate) : gstate :=
  mkG (g_keys g) (g_comps g) (g_cur g) (g_mid g) (g_kidx g) (g_empty g) (g_prev g) (g_fail g) r t.
Definition gret (r : ref) (t : Z) (gn : gen) : gen :=
  match gn with GChunk g => GChunk (ret r t g) | GNone g => GNone (ret r t g) | GDone => GDone end.

Lemma ret_ret r t r' t' g : ret r t (ret r' t' g) = ret r t g.
Proof. reflexivity. Qed.

(** One iteration of the loop, without looking at the target. *)
Inductive it := ItChunk (g : gstate) (c : rchunk) | ItNone (g : gstate) | ItStop | ItErr (e : exn) | ItBad.
Definition iter (fuel : nat) (idx : index) (h : heap) (g : gstate) (sf : qself) : qself * it :=
  if 10 <? g_fail g then (sf, ItStop)
  else
    let m := h (g_base g) in
    match m_rows m with
    | _ :: _ =>
        let '(g1, sf1) := note_mixture idx h g sf m in
        match run_attempt (m_strict m) (g_comps g1) (m_rows m) with
        | Err e => (sf1, ItErr e)
        | Ok a =>
            let mk fail cur :=
              mkG (g_keys g1) (a_comps a) cur (g_mid g1) (g_kidx g1) (g_empty g1) (g_prev g1) fail (g_base g1) (g_target g1) in
            if att_success a then
              (sf1, ItChunk (mk 0 (g_cur g1 + 1)) (mkChunk (a_chunk a) (m_csize m) (s_kid sf1) (g_mid g1) (Some (a_mix a)) (m_strict m)))
            else (sf1, ItNone (mk (g_fail g1 + 1) (g_cur g1)))
        end
    | [] =>
        let '(g1, sf1) := note_arbitrary g sf in
        let '(comps', kidx', empty', out) := round_robin fuel (g_keys g1) (m_csize m) (g_comps g1) (g_kidx g1) (g_empty g1) in
        let mk cur := mkG (g_keys g1) comps' cur (g_mid g1) kidx' empty' (g_prev g1) (g_fail g1) (g_base g1) (g_target g1) in
        match out with
        | RErr e => (sf1, ItErr e)
        | RExhausted => (sf1, ItStop)
        | RFound key p => (sf1, ItChunk (mk (g_cur g1 + 1)) (mkChunk [(key, p)] (m_csize m) (s_kid sf1) (g_mid g1) None true))
        end
    end.

Lemma gen_loop_iter fuel idx h g sf :
  gen_loop (S fuel) idx h g sf =
  match iter (S fuel) idx h g sf with
  | (sf', ItStop) => (GDone, sf', YStop)
  | (sf', ItErr e) => (GDone, sf', YErr e)
  | (sf', ItBad) => (GDone, sf', YErr AssertionError)
  | (sf', ItNone g') => (GNone g', sf', YNone)
  | (sf', ItChunk g' c) =>
      if g_cur g =? g_target g then
        if keys_known (rc_index c) (rc_kid c) then (GChunk g', sf', YChunk c) else (GDone, sf', YErr AssertionError)
      else gen_loop fuel idx h g' sf'
  end.
Proof.
  cbn [gen_loop]. unfold iter. destruct (10 <? g_fail g); [reflexivity|].
  destruct (m_rows (h (g_base g))) as [|kv rows] eqn:Er.
  - pose proof (note_arbitrary_g g sf) as Hn. destruct (note_arbitrary g sf) as [g1 sf1].
    destruct Hn as (N1 & N2 & N3 & N4 & N5 & N6 & N7 & N8).
    destruct (round_robin _ _ _ _ _ _) as [[[comps' kidx'] empty'] ro].
    destruct ro; try reflexivity. rewrite N6, N7. cbn [rc_index rc_kid]. reflexivity.
  - rewrite <- Er. pose proof (note_mixture_g idx h g sf (h (g_base g))) as Hn. destruct (note_mixture idx h g sf (h (g_base g))) as [g1 sf1].
    destruct Hn as (N1 & N2 & N3 & N4 & N5 & N6 & N7 & N8). destruct (run_attempt _ _ _) as [a|e]; [|reflexivity].
    destruct (att_success a); [|reflexivity]. rewrite N6, N7. reflexivity.
Qed.

Definition it_ret (r : ref) (t : Z) (i : it) : it :=
  match i with ItChunk g c => ItChunk (ret r t g) c | ItNone g => ItNone (ret r t g) | _ => i end.

(** The target does not influence the iteration. *)
Lemma iter_ret fuel idx h g sf t : 
  iter fuel idx h (ret (g_base g) t g) sf = (fst (iter fuel idx h g sf), it_ret (g_base g) t (snd (iter fuel idx h g sf))).
Proof.
  unfold iter. cbn [ret g_fail g_base]. destruct (10 <? g_fail g); [reflexivity|].
  destruct (m_rows (h (g_base g))) as [|kv rows] eqn:Er.
  - unfold note_arbitrary. cbn [ret g_prev g_cur].
    destruct (_ || _); cbn [ret g_prev g_cur g_keys g_comps g_mid g_kidx g_empty g_fail g_base g_target];
    destruct (round_robin _ _ _ _ _ _) as [[[comps' kidx'] empty'] ro]; destruct ro; reflexivity.
  - unfold note_mixture. cbn [ret g_prev g_cur].
    destruct (prev_differs _ _); cbn [ret g_prev g_cur g_keys g_comps g_mid g_kidx g_empty g_fail g_base g_target];
    (destruct (run_attempt _ _ _) as [a|e]; [|reflexivity]); destruct (att_success a); reflexivity.
Qed.

Lemma iter_mono fuel fuel' idx h g sf sf' i :
  iter fuel idx h g sf = (sf', i) -> i <> ItErr OutOfFuel -> (fuel <= fuel')%nat -> iter fuel' idx h g sf = (sf', i).
Proof.
  intros H Hi Hf. unfold iter in *. destruct (10 <? g_fail g); [exact H|].
  destruct (m_rows (h (g_base g))) as [|kv rows]; [|exact H].
  destruct (note_arbitrary g sf) as [g1 sf1].
  destruct (round_robin fuel _ _ _ _ _) as [[[comps' kidx'] empty'] ro] eqn:E.
  assert (Hro : ro <> RErr OutOfFuel) by (intros ->; injection H as <- <-; contradiction).
  rewrite (round_robin_mono _ _ _ _ _ _ _ _ _ _ _ E Hro Hf). exact H.
Qed.

Lemma iter_base fuel idx h g sf sf' g' c : iter fuel idx h g sf = (sf', ItChunk g' c) ->
  g_base g' = g_base g /\ g_cur g' = g_cur g + 1 /\ g_target g' = g_target g.
Proof.
  unfold iter. destruct (10 <? g_fail g); [discriminate|].
  destruct (m_rows (h (g_base g))) as [|kv rows] eqn:Er.
  - pose proof (note_arbitrary_g g sf) as Hn. destruct (note_arbitrary g sf) as [g1 sf1].
    destruct Hn as (N1 & N2 & N3 & N4 & N5 & N6 & N7 & N8).
    destruct (round_robin _ _ _ _ _ _) as [[[comps' kidx'] empty'] ro]. destruct ro; intros [= <- <- <-]. cbn. repeat split; congruence.
  - pose proof (note_mixture_g idx h g sf (h (g_base g))) as Hn. destruct (note_mixture idx h g sf (h (g_base g))) as [g1 sf1].
    destruct Hn as (N1 & N2 & N3 & N4 & N5 & N6 & N7 & N8). destruct (run_attempt _ _ _) as [a|e]; [|discriminate].
    destruct (att_success a); [|discriminate]. intros [= <- <- <-]. cbn. repeat split; congruence.
Qed.

(** ** A chain of deliveries of a single consumer *)
Section Chain.
  Variables (F : nat) (idx : index) (h : heap) (r : ref) (gN : gstate) (sfN : qself).

  Inductive chain : gstate -> qself -> list rchunk -> Prop :=
  | chain_nil g : ret r 0 g = ret r 0 gN -> chain g sfN []
  | chain_cons g sf g1 sf1 c cs : iter (S F) idx h (ret r (g_cur g) g) sf = (sf1, ItChunk g1 c) ->
      keys_known (rc_index c) (rc_kid c) = true -> chain g1 sf1 cs -> chain g sf (c :: cs).

  Lemma chain_ret g sf cs t : chain g sf cs -> chain (ret r t g) sf cs.
  Proof. intros H. destruct H as [g H|g sf g1 sf1 c cs Hi Hk H]; [apply chain_nil, H|eapply chain_cons; eauto]. Qed.

  Lemma iter_retarget fuel g sf t sf1 g1 c : iter (S F) idx h (ret r (g_cur g) g) sf = (sf1, ItChunk g1 c) ->
    (S F <= fuel)%nat -> iter fuel idx h (ret r t g) sf = (sf1, ItChunk (ret r t g1) c).
  Proof.
    intros H Hf. apply (iter_mono _ fuel) in H; [|discriminate|exact Hf].
    change (ret r t g) with (ret (g_base (ret r (g_cur g) g)) t (ret r (g_cur g) g)). rewrite iter_ret, H. reflexivity.
  Qed.

  Lemma chain_jump cs : forall g sf fuel t, chain g sf cs -> g_cur g <= t < g_cur g + Z.of_nat (length cs) ->
    (F + length cs <= fuel)%nat ->
    exists g' sf' c, gen_loop (S fuel) idx h (ret r t g) sf = (GChunk g', sf', YChunk c)
      /\ nth_error cs (Z.to_nat (t - g_cur g)) = Some c
      /\ g_cur g' = t + 1 /\ chain g' sf' (skipn (Z.to_nat (t + 1 - g_cur g)) cs).
  Proof.
    induction cs as [|c cs IH]; intros g sf fuel t H Ht Hf; cbn [length] in *; [lia|].
    inversion H as [|g0 sf0 g1 sf1 c0 cs0 Hi Hk Hc]; subst. destruct (iter_base _ _ _ _ _ _ _ _ Hi) as (B1 & B2 & B3).
    rewrite gen_loop_iter, (iter_retarget (S fuel) g sf t sf1 g1 c Hi) by lia. cbn [g_cur g_target ret] in *. rewrite Hk.
    destruct (g_cur g =? t) eqn:E.
    - assert (t = g_cur g) by lia. subst t. exists (ret r (g_cur g) g1), sf1, c. cbn [g_cur ret].
      replace (Z.to_nat (g_cur g - g_cur g)) with 0%nat by lia. replace (Z.to_nat (g_cur g + 1 - g_cur g)) with 1%nat by lia.
      repeat split; [lia|]. cbn. apply chain_ret, Hc.
    - destruct fuel as [|fuel]; [lia|].
      destruct (IH g1 sf1 fuel t Hc) as (g' & sf' & c' & I1 & I2 & I3 & I4); [lia|lia|].
      exists g', sf', c'. split; [exact I1|]. rewrite B2 in *.
      replace (Z.to_nat (t - g_cur g)) with (S (Z.to_nat (t - (g_cur g + 1)))) by lia.
      replace (Z.to_nat (t + 1 - g_cur g)) with (S (Z.to_nat (t + 1 - (g_cur g + 1)))) by lia. cbn. auto.
  Qed.

  (** Beyond the end of the chain: as if started from its end. *)
  Lemma chain_end cs : forall g sf fuel t, chain g sf cs -> g_cur g + Z.of_nat (length cs) <= t ->
    gen_loop (S (fuel + length cs)) idx h (ret r t g) sf = gen_loop (S fuel) idx h (ret r t gN) sfN \/ (fuel < F)%nat.
  Proof.
    induction cs as [|c cs IH]; intros g sf fuel t H Ht; cbn [length] in *.
    - inversion H as [g0 Hg|]; subst. left. rewrite Nat.add_0_r.
      assert (E : ret r t g = ret r t gN) by (change (ret r t (ret r 0 g) = ret r t (ret r 0 gN)); rewrite Hg; reflexivity).
      rewrite E. reflexivity.
    - inversion H as [|g0 sf0 g1 sf1 c0 cs0 Hi Hk Hc]; subst. destruct (iter_base _ _ _ _ _ _ _ _ Hi) as (B1 & B2 & B3).
      destruct (Nat.lt_ge_cases fuel F) as [Hlt|Hge]; [auto|].
      rewrite gen_loop_iter, (iter_retarget _ g sf t sf1 g1 c Hi) by lia. cbn [g_cur g_target ret] in *.
      replace (g_cur g =? t) with false by lia.
      replace (fuel + S (length cs))%nat with (S (fuel + length cs)) by lia.
      apply IH; [exact Hc|lia].
  Qed.
End Chain.

(** ** Permanent failure *)
Definition stuck (m : mixobj) (cs : list (mkey * list frange)) : Prop :=
  m_rows m <> [] /\
  if m_strict m then exists mk, 0 < lookup0 mk (m_rows m) /\ dry mk cs
  else 0 < zsum (map snd (m_rows m)) /\ forall mk, In mk (map fst (m_rows m)) -> dry mk cs.

Lemma takes_dry_ksize mks x y mk : takes mks x y -> dry mk (fst x) -> ksize mk (snd y) = ksize mk (snd x).
Proof.
  induction 1 as [|x y z T IH H]; [auto|]. intros Hd. rewrite <- (IH Hd). pose proof (takes_dry _ _ _ _ T Hd) as Hd1. clear IH T Hd.
  destruct H as [mk0 ck cs ch st n p st' Hin Hk Hg Hn Hs]. cbn in *. rewrite ksize_merge.
  destruct (mkey_eqb mk0 mk) eqn:E; [|lia]. apply mkey_eqb_spec in E. subst mk0.
  destruct (comp_send_spec _ _ _ _ Hs Hn) as (tk & Htk & Hp & _).
  assert (Ef : frows st = []).
  { apply (Hd1 ck); [|exact Hk|exact Hg]. apply (aget_in _ mkey_eqb_spec), (in_map fst) in Hg. exact Hg. }
  rewrite Ef in Htk. symmetry in Htk. apply app_eq_nil in Htk as [-> _]. rewrite (Permutation_length Hp). cbn. lia.
Qed.

Lemma zsum_lookup_zero l : NoDup (map fst l) -> (forall k, lookup0 k l = 0) -> zsum (map snd l) = 0.
Proof.
  intros Hnd H. induction l as [|[k v] l IH]; [reflexivity|]. cbn [map fst snd] in *. rewrite zsum_cons. inversion Hnd as [|? ? Hn Hnd']; subst.
  assert (Hv : v = 0) by (specialize (H k); unfold lookup0 in H; cbn in H; rewrite mkey_eqb_refl in H; exact H).
  rewrite IH; [lia|exact Hnd'|]. intros k'. specialize (H k'). unfold lookup0 in *. cbn in H.
  destruct (mkey_eqb k' k) eqn:E; [|exact H]. apply mkey_eqb_spec in E. subst k'.
  destruct (aget mkey_eqb k l) eqn:E; [|reflexivity]. apply (aget_in _ mkey_eqb_spec), (in_map fst) in E. contradiction.
Qed.

Lemma run_attempt_fail m cs a : mixture_ok (m_rows m) -> m_rows m <> [] -> run_attempt (m_strict m) cs (m_rows m) = Ok a ->
  att_success a = false -> stuck m (a_comps a).
Proof.
  intros Hm Hne H Hs. split; [exact Hne|]. pose proof (run_attempt_out (m_strict m) cs (m_rows m) Hm) as Ho. rewrite H in Ho.
  assert (Hpos : 0 < zsum (map snd (m_rows m))).
  { destruct (existsb (fun kv => negb (snd kv =? 0)) (m_rows m)) eqn:Ee.
    - apply existsb_exists in Ee as ([k v] & Hin & Hv). destruct Hm as [_ Hp]. clear - Hin Hv Hp. cbn in Hv.
      induction (m_rows m) as [|[k' v'] l IH]; [destruct Hin|]. inversion Hp as [|? ? H1 H2]; subst. cbn [map fst snd In] in *. rewrite zsum_cons.
      assert (0 <= zsum (map snd l)).
      { clear - H2. induction H2 as [|x l Hx _ IH]; cbn [map]; rewrite ?zsum_cons; [cbn|]; lia. }
      destruct Hin as [[= -> ->]|Hin]; [lia|]. specialize (IH H2 Hin). lia.
    - exfalso. unfold run_attempt in H. cbn [attempt_loop a_rem a_prog] in H. rewrite Ee, andb_false_r in H. injection H as <-.
      unfold att_success in Hs. cbn [a_rem] in Hs. apply existsb_rem_false in Ee. destruct (m_rows m) as [|kv l]; [contradiction|].
      assert (Ha : forallb (fun kv0 => snd kv0 =? 0) (kv :: l) = true).
      { apply forallb_forall. intros x Hx. rewrite Forall_forall in Ee. specialize (Ee x Hx). lia. }
      congruence. }
  inversion Ho as [a' T A S Z C Nn E|a' mk T A S In_ P D M R' E|a' T S R' D Sz E|S ZZ E]; subst a'.
  - assert (Hr : a_rem a = []).
    { destruct (a_rem a) eqn:Er; [reflexivity|]. exfalso. assert (Ht : att_success a = true) by (apply att_success_spec; [apply (ai_rem _ _ A)|split; [congruence|rewrite Er; exact Z]]). congruence. }
    destruct (m_strict m).
    + exfalso. destruct (S eq_refl) as [_ S2]. rewrite Hr in S2. cbn in S2. destruct (m_rows m); [contradiction|discriminate].
    + split; [exact Hpos|]. intros k Hk. destruct (C eq_refl k Hk) as [Hc|Hc]; [rewrite Hr in Hc; destruct Hc|exact Hc].
  - rewrite S. exists mk. split; [|exact D]. pose proof (ai_cnt _ _ A mk) as Hc. rewrite M in Hc. cbn [a_mix] in Hc.
    unfold ksize in Hc. lia.
  - rewrite S. split; [exact Hpos|exact D].
Qed.

Lemma stuck_fails m cs a : mixture_ok (m_rows m) -> stuck m cs -> run_attempt (m_strict m) cs (m_rows m) = Ok a ->
  att_success a = false.
Proof.
  intros Hm [Hne Hst] H. destruct (att_success a) eqn:Es; [|reflexivity]. exfalso.
  pose proof (run_attempt_out (m_strict m) cs (m_rows m) Hm) as Ho. rewrite H in Ho.
  assert (Hk : forall mk, dry mk cs -> ksize mk (a_chunk a) = 0).
  { intros mk Hd. assert (T : takes (map fst (m_rows m)) (cs, []) (acc_ a)) by (inversion Ho; assumption).
    change (a_chunk a) with (snd (acc_ a)). rewrite (takes_dry_ksize _ _ _ mk T Hd). reflexivity. }
  inversion Ho as [a' T A S Z C Nn E|a' mk T A S In_ P D M R' E|a' T S R' D Sz E|S ZZ E]; subst a'.
  - destruct (m_strict m).
    + destruct Hst as (mk & Hp & Hd). destruct (S eq_refl) as [S1 _]. pose proof (ai_cnt _ _ A mk) as Hc.
      rewrite (Hk mk Hd), Z, S1 in Hc. cbn [a_mix] in Hc. lia.
    + destruct Hst as [Hp Hd]. pose proof (ai_sum _ _ A) as Hsum. rewrite (zsum_lookup_zero (a_mix a)) in Hsum; [lia|apply (ai_mix _ _ A)|].
      intros k. pose proof (ai_cnt _ _ A k) as Hc. rewrite Z in Hc.
      destruct (in_dec mkey_eq_dec k (map fst (m_rows m))) as [Hin|Hn]; [rewrite (Hk k (Hd k Hin)) in Hc; lia|].
      apply lookup0_notin. intros Hin. apply Hn, (ai_m0 _ _ A), Hin.
  - apply att_success_spec in Es as [_ Hz]; [|apply (ai_rem _ _ A)]. rewrite Hz in P. lia.
  - unfold att_success in Es. rewrite R' in Es. discriminate.
Qed.

Lemma stuck_loop fuel idx h g sf gn' sf' out : heap_ok h -> stuck (h (g_base g)) (g_comps g) ->
  gen_loop (S fuel) idx h g sf = (gn', sf', out) ->
  (gn' = GDone /\ (out = YStop \/ exists e, out = YErr e)) \/
  (out = YNone /\ exists g', gn' = GNone g' /\ g_base g' = g_base g /\ stuck (h (g_base g)) (g_comps g')).
Proof.
  intros Hh Hst H. pose proof Hst as [Hne _]. rewrite gen_loop_iter in H. unfold iter in H.
  destruct (10 <? g_fail g); [injection H as <- <- <-; left; auto|].
  destruct (m_rows (h (g_base g))) as [|kv rows] eqn:Er; [contradiction|]. rewrite <- Er in *.
  pose proof (note_mixture_g idx h g sf (h (g_base g))) as Hn. destruct (note_mixture idx h g sf (h (g_base g))) as [g1 sf1].
  destruct Hn as (N1 & N2 & N3 & N4 & N5 & N6 & N7 & N8). rewrite N2 in H.
  destruct (run_attempt _ _ _) as [a|e] eqn:Ea; [|injection H as <- <- <-; left; eauto].
  rewrite (stuck_fails _ _ _ (proj1 (Hh (g_base g))) Hst Ea) in H. injection H as <- <- <-. right. split; [reflexivity|].
  eexists. split; [reflexivity|]. cbn. split; [exact N5|].
  eapply run_attempt_fail; [apply Hh|exact Hne|exact Ea|]. eapply stuck_fails; [apply Hh|exact Hst|exact Ea].
Qed.

(** When the single consumer's next call gives nothing, so does the same state with any later target. *)
Lemma end_out F idx h r g sf gn sf' out fuel t : heap_ok h ->
  gen_loop (S F) idx h (ret r (g_cur g) g) sf = (gn, sf', out) -> out = YNone \/ out = YStop -> (F <= fuel)%nat ->
  exists gn2, gen_loop (S fuel) idx h (ret r t g) sf = (gn2, sf', out) /\
    (gn2 = GDone \/ exists g', gn2 = GNone g' /\ g_base g' = r /\ stuck (h r) (g_comps g')).
Proof.
  intros Hh H Ho Hf. rewrite gen_loop_iter in H. destruct (iter (S F) idx h (ret r (g_cur g) g) sf) as [sf1 i] eqn:Ei.
  assert (Hi : i <> ItErr OutOfFuel).
  { intros ->. injection H as <- <- <-. destruct Ho; discriminate. }
  apply (iter_mono _ (S fuel)) in Ei; [|exact Hi|lia].
  pose proof (iter_ret (S fuel) idx h (ret r (g_cur g) g) sf t) as Hr. cbn [ret g_base] in Hr. unfold ret in Hr at 1. cbn in Hr.
  rewrite gen_loop_iter. unfold ret at 1. rewrite Hr, Ei. cbn [fst snd].
  destruct i as [g' c|g'| |e|]; cbn [it_ret] in *.
  - cbn [ret g_cur g_target] in H. rewrite Z.eqb_refl in H. destruct (keys_known _ _); injection H as <- <- <-; destruct Ho; discriminate.
  - injection H as <- <- <-. eexists. split; [reflexivity|]. right. eexists. split; [reflexivity|]. split; [reflexivity|]. cbn [ret g_comps].
    unfold iter in Ei. cbn [ret g_fail g_base] in Ei. destruct (10 <? g_fail g); [discriminate|].
    destruct (m_rows (h r)) as [|kv rows] eqn:Er.
    + destruct (note_arbitrary _ _) as [g1 sf2]. destruct (round_robin _ _ _ _ _ _) as [[[? ?] ?] ro]. destruct ro; discriminate.
    + rewrite <- Er in *. pose proof (note_mixture_g idx h (ret r (g_cur g) g) sf (h r)) as Hn.
      unfold ret in Hn, Ei. destruct (note_mixture idx h _ sf (h r)) as [g1 sf2].
      destruct (run_attempt _ _ _) as [a|e] eqn:Ea; [|discriminate]. destruct (att_success a) eqn:Es; [discriminate|].
      injection Ei as <- <-. cbn. eapply run_attempt_fail; [apply Hh|congruence|exact Ea|exact Es].
  - injection H as <- <- <-. eexists. split; [reflexivity|]. auto.
  - injection H as <- <- <-. destruct Ho; discriminate.
  - injection H as <- <- <-. destruct Ho; discriminate.
Qed.

Lemma iter_smix fuel idx h g sf sf' i : iter fuel idx h g sf = (sf', i) -> s_mix sf' = s_mix sf.
Proof.
  unfold iter. destruct (10 <? g_fail g); [intros [= <- <-]; reflexivity|].
  destruct (m_rows (h (g_base g))) as [|kv rows] eqn:Er.
  - unfold note_arbitrary. destruct (_ || _); cbn; destruct (round_robin _ _ _ _ _ _) as [[[comps' kidx'] empty'] ro];
      destruct ro; intros [= <- <-]; reflexivity.
  - unfold note_mixture. destruct (prev_differs _ _); cbn [fst snd]; (destruct (run_attempt _ _ _) as [a|e]; [destruct (att_success a)|]);
      intros [= <- <-]; reflexivity.
Qed.

Lemma gen_loop_smix fuel idx h : forall g sf gn' sf' out, gen_loop fuel idx h g sf = (gn', sf', out) -> s_mix sf' = s_mix sf.
Proof.
  induction fuel as [|fuel IH]; intros g sf gn' sf' out H; [cbn in H; injection H as <- <- <-; reflexivity|].
  rewrite gen_loop_iter in H. destruct (iter (S fuel) idx h g sf) as [sf1 i] eqn:Ei. apply iter_smix in Ei.
  destruct i as [g' c|g'| |e|]; try (injection H as <- <- <-; exact Ei).
  destruct (g_cur g =? g_target g).
  - destruct (keys_known _ _); injection H as <- <- <-; exact Ei.
  - apply IH in H. congruence.
Qed.
