(** Which mixture a chunk honours; arbitrary mixtures deliver everything. *)
From Verif Require Import Base MixtureKeyModel MixtureKeyProofs UtilsModel UtilsProofs ChunkGenModel SpecChunk ChunkGenProofs1
  ChunkGenProofs2 ChunkGenProofs3 ChunkGenProofs4 ChunkGenProofs5 ChunkGenProofs6.
From Coq Require Import ZifyBool ZifyNat.
Open Scope Z_scope.

Section Work.
  Variables (idx : index) (order : list mkey).
  Hypothesis Hix : index_ok idx.
  Hypothesis Hord : Permutation order (map fst idx).

  Lemma qnext_facts fuel h q os inst held prev id q' c :
    heap_ok h -> qinv idx order q os -> hist idx order q inst held prev id -> qr_next fuel h q = (q', NChunk c) ->
    chunk_facts idx (h (held_of inst held)) c.
  Proof.
    intros Hh Hq [H1 H2 H3 H4 H5] H.
    destruct (qgen idx order q) as [g|g|] eqn:Eg.
    - destruct H5 as (-> & _). cbn. rewrite <- H1.
      eapply (proj2 (qnext_inv idx order Hix fuel h q os q' (NChunk c) Hh Hq H)); [reflexivity|eauto].
    - destruct H5 as (-> & _). cbn. unfold qr_next in H. rewrite H2, H3 in H.
      change (match q_gen q with Some g => g | None => gen_init idx order end) with (qgen idx order q) in H.
      destruct ((match q_gen q with None => true | Some _ => false end) && negb (q_nret q =? 0)); [discriminate|].
      pose proof (qi_gen _ _ _ _ Hq) as Hgi. rewrite Eg in Hgi, H. cbn [gen_send] in H.
      destruct (gen_loop fuel idx h g (q_self q)) as [[gn' sf'] out] eqn:Es.
      apply (gen_loop_spec idx order Hix) in Es as (_ & _ & S3); [|exact Hh|exact Hgi].
      apply S3. destruct out; try discriminate; [injection H as _ <-; reflexivity|destruct (q_son q); discriminate].
    - exfalso. unfold qr_next in H. rewrite H2, H3 in H.
      change (match q_gen q with Some g => g | None => gen_init idx order end) with (qgen idx order q) in H.
      destruct ((match q_gen q with None => true | Some _ => false end) && negb (q_nret q =? 0)); [discriminate|].
      rewrite Eg in H. cbn in H. discriminate.
  Qed.

  Lemma working_cons h ops o os inst held :
    working (Next h :: ops) (o :: os) inst held = h (held_of inst held) :: working ops os inst (new_held inst held o).
  Proof. reflexivity. Qed.

  Lemma run_facts fuel ops : forall q os inst held prev id q' os',
    Forall (fun o => heap_ok (op_heap o)) ops -> qinv idx order q os -> hist idx order q inst held prev id ->
    qrun (S fuel) ops q = (q', os') ->
    forall i c m, nth_error os' i = Some (NChunk c) -> nth_error (working ops os' inst held) i = Some m -> chunk_facts idx m c.
  Proof.
    induction ops as [|[h|h r] ops IH]; intros q os inst held prev id q' os' Hh Hq Hi H i c m Hn Hw; cbn [qrun] in H.
    - injection H as <- <-. destruct i; discriminate.
    - inversion Hh as [|? ? Hh1 Hh2]; subst. destruct (qr_next (S fuel) h q) as [q1 o] eqn:E. destruct (qrun (S fuel) ops q1) as [q2 os2] eqn:E2.
      injection H as <- <-. rewrite working_cons in Hw. destruct i as [|i]; cbn in Hn, Hw.
      + injection Hn as ->. injection Hw as <-. eapply qnext_facts; eauto.
      + destruct (hist_next idx order fuel h q inst held prev id q1 o Hh1 Hi E) as (N1 & _).
        eapply (IH q1 (os ++ [o])); [exact Hh2| |exact N1|exact E2|exact Hn|exact Hw].
        apply (qnext_inv idx order Hix (S fuel) h q os q1 o Hh1 Hq E).
    - inversion Hh as [|? ? Hh1 Hh2]; subst. cbn [working] in Hw.
      eapply (IH (qr_update_mixture h r q) os); [exact Hh2|apply qupdate_inv, Hq|apply hist_update with (inst := inst), Hi|exact H|exact Hn|exact Hw].
  Qed.

  (** ** Arbitrary mixtures *)
  Definition comps_of (gn : gen) : list (mkey * list frange) :=
    match gn with GChunk g => g_comps g | GNone g => g_comps g | GDone => [] end.
  Definition short (c : rchunk) : Prop := Z.of_nat (length (all_rows (rc_index c))) < rc_csize c.

  Record arb (q : qr) (os : list nout) : Prop := {
    ab_one : forall c, In c (chunks os) -> exists k p, rc_index c = [(k, p)] /\ 1 <= Z.of_nat (length (rows_of p)) <= rc_csize c /\ rc_mix c = None;
    ab_short : forall i j c c' k, (i < j)%nat -> nth_error (chunks os) i = Some c -> nth_error (chunks os) j = Some c' ->
               short c -> In k (map fst (rc_index c)) -> ~ In k (map fst (rc_index c'));
    ab_outs : forall o, In o os -> (exists c, o = NChunk c) \/ o = NStop \/ o = NErr OutOfFuel;
    ab_gen : match qgen idx order q with
             | GChunk g => g_fail g = 0 /\ g_cur g = q_count q
                /\ Permutation (all_rows idx) (flat_map (fun c => all_rows (rc_index c)) (chunks os) ++ comps_rows (g_comps g))
                /\ (forall c k, In c (chunks os) -> short c -> In k (map fst (rc_index c)) -> exhausted k (g_comps g))
                /\ (forall o, In o os -> exists c, o = NChunk c)
             | GNone _ => False
             | GDone => In (NErr OutOfFuel) os \/
                Permutation (all_rows idx) (flat_map (fun c => all_rows (rc_index c)) (chunks os))
             end;
    ab_first : q_gen q = None -> q_nret q = 0
  }.

  Lemma comps_exhausted comps : NoDup (map fst comps) -> (forall key, In key (map fst comps) -> exhausted key comps) -> comps_rows comps = [].
  Proof.
    intros Hnd H. unfold comps_rows. assert (Hz : forall x, In x comps -> frows (snd x) = []).
    { intros [k st] Hin. apply (H k); [apply in_map_iff; exists (k, st); auto|]. apply (in_aget _ mkey_eqb_spec); auto. }
    clear - Hz. induction comps as [|x comps IH]; [reflexivity|]. cbn. rewrite (Hz x) by (cbn; auto). apply IH. intros; apply Hz; cbn; auto.
  Qed.

  Lemma order_nodup : NoDup order.
  Proof. eapply Permutation_NoDup; [symmetry; exact Hord|apply (ix_keys _ Hix)]. Qed.

  Lemma nth_snoc {A} (l : list A) x i y : nth_error (l ++ [x]) i = Some y -> nth_error l i = Some y \/ (i = length l /\ x = y).
  Proof.
    intros H. destruct (Nat.lt_ge_cases i (length l)) as [Hl|Hl].
    - left. rewrite nth_error_app1 in H by exact Hl. exact H.
    - right. rewrite nth_error_app2 in H by exact Hl. destruct (i - length l)%nat as [|k] eqn:E.
      + cbn in H. split; [lia|congruence].
      + cbn in H. destruct k; discriminate.
  Qed.

  Lemma arb_next fuel h q os q' o : arbitrary_heap h -> heap_ok h -> qinv idx order q os -> kidinv idx q -> arb q os ->
    qr_next (S fuel) h q = (q', o) -> arb q' (os ++ [o]).
  Proof.
    intros Ha Hh Hq Hk [A1 A2 A3 A4 A5] H. pose proof (qi_idx _ _ _ _ Hq) as Q1. pose proof (qi_order _ _ _ _ Hq) as Q2.
    pose proof (qi_gen _ _ _ _ Hq) as Hg.
    unfold qr_next in H. rewrite Q1, Q2 in H.
    change (match q_gen q with Some g => g | None => gen_init idx order end) with (qgen idx order q) in H.
    assert (Hb : (match q_gen q with None => true | Some _ => false end) && negb (q_nret q =? 0) = false).
    { destruct (q_gen q); [reflexivity|]. rewrite A5 by reflexivity. reflexivity. }
    rewrite Hb in H. clear Hb.
    assert (Hdone : forall sf cnt n o', (o' = NStop \/ o' = NErr OutOfFuel) ->
      (In (NErr OutOfFuel) (os ++ [o']) \/ Permutation (all_rows idx) (flat_map (fun c => all_rows (rc_index c)) (chunks os))) ->
      arb (mkQR idx order sf cnt (Some GDone) n (q_son q)) (os ++ [o'])).
    { intros sf cnt n o' Ho Hp. assert (Ec : chunks (os ++ [o']) = chunks os).
      { rewrite chunks_app. destruct Ho as [-> | ->]; cbn; apply app_nil_r. }
      constructor; rewrite ?Ec; auto; [|discriminate].
      - intros o'' Hin. apply in_app_or in Hin as [Hin|[<-|[]]]; [apply A3, Hin|tauto]. }
    destruct (qgen idx order q) as [g|g|] eqn:Eg; [| contradiction|].
    2:{ cbn in H. injection H as <- <-. apply Hdone; [auto|]. destruct A4 as [A4|A4]; [left; apply in_or_app; auto|auto]. }
    destruct A4 as (Hf & Hcur & Hperm & Hex & Hall).
    destruct (gen_send (S fuel) idx h (GChunk g) (q_self q) (s_mix (q_self q)) (q_count q)) as [[gn' sf'] out] eqn:Es.
    cbn [gen_send gen_loop g_fail g_base] in Es. rewrite Hf in Es. cbn [Z.ltb Z.compare] in Es.
    destruct (Ha (s_mix (q_self q))) as [Erows Hcs]. rewrite Erows in Es.
    match type of Es with context [note_arbitrary ?a ?b] =>
      pose proof (note_arbitrary_g a b) as Hn;
      assert (Hkid : s_kid (snd (note_arbitrary a b)) = s_kid b) by (unfold note_arbitrary; destruct (_ || _); reflexivity);
      destruct (note_arbitrary a b) as [g1 sf1] end.
    cbn [snd] in Hkid. destruct Hn as (N1 & N2 & N3 & N4 & N5 & N6 & N7 & N8). cbn [g_keys g_comps g_empty g_kidx g_base g_target g_cur g_fail] in *.
    rewrite N1, N2, N3, N4, N6, N7, N8, Hcur, Z.eqb_refl in Es.
    destruct Hg as [G1 G2 G3 G4 G5]. rewrite G1 in Es.
    match type of Es with context [round_robin ?fu ?a ?b ?c ?d ?e] =>
      destruct (round_robin fu a b c d e) as [[[comps' kidx'] empty'] ro] eqn:Err end.
    apply round_robin_spec in Err as (Hres & _ & _); auto; [|lia].
    inversion Hres as [key p st st' Hkin Hget Hsend E1 E2|Hexh E1 E2|E1 E2]; subst comps' ro.
    - destruct (comp_send_spec _ _ _ _ Hsend ltac:(lia)) as (tk & Htk & Hp & Hok & Hlen).
      assert (Hknown : keys_known [(key, p)] (s_kid sf1) = true).
      { cbn. rewrite andb_true_r, Hkid. unfold amem.
        destruct (aget_some_in _ mkey_eqb_spec key (s_kid (q_self q))) as [v Ev]; [|rewrite Ev; reflexivity].
        apply (ki_cover _ _ Hk). eapply Permutation_in; [exact Hord|exact Hkin]. }
      rewrite Hknown in Es. injection Es as <- <- <-. injection H as <- <-.
      set (c := mkChunk _ _ _ _ _ _) in *.
      assert (Ec : chunks (os ++ [NChunk c]) = chunks os ++ [c]) by (rewrite chunks_app; reflexivity).
      assert (Hpl : 1 <= Z.of_nat (length (rows_of p)) <= m_csize (h (s_mix (q_self q)))).
      { rewrite (Permutation_length Hp). lia. }
      assert (Hrows : Permutation (comps_rows (g_comps g)) (rows_of p ++ comps_rows (aset mkey_eqb key st' (g_comps g)))).
      { destruct (flat_map_kset frows key st' st (g_comps g) Hget) as (rest & R1 & R2). unfold comps_rows.
        rewrite R1, R2, Htk, Hp, <- app_assoc. reflexivity. }
      assert (Hsh : short c -> frows st' = []).
      { intros Hsh. unfold short in Hsh. change (all_rows (rc_index c)) with (rows_of p ++ []) in Hsh. cbn [rc_csize c] in Hsh. rewrite app_nil_r in Hsh. rewrite (Permutation_length Hp) in Hsh.
        destruct Hlen as [Hl|[Hl _]]; [lia|exact Hl]. }
      constructor; rewrite ?Ec.
      + intros c' Hc'. apply in_app_or in Hc' as [Hc'|[<-|[]]]; [apply A1, Hc'|]. exists key, p. split; [reflexivity|]. split; [exact Hpl|reflexivity].
      + intros i j c1 c2 k Hij H1 H2 Hs Hk1. apply nth_snoc in H2 as [H2|[-> <-]].
        { apply nth_snoc in H1 as [H1|[-> <-]]; [eapply A2; eauto|]. exfalso.
          assert (j < length (chunks os))%nat by (apply nth_error_Some; congruence). lia. }
        apply nth_snoc in H1 as [H1|[-> _]]; [|lia]. intros Hk2. cbn in Hk2. destruct Hk2 as [<-|[]].
        apply nth_error_In in H1. specialize (Hex c1 key H1 Hs Hk1 st Hget). rewrite Hex in Htk. symmetry in Htk.
        apply app_eq_nil in Htk as [Htk _]. subst tk. apply Permutation_length in Hp. cbn in Hp. lia.
      + intros o Hin. apply in_app_or in Hin as [Hin|[<-|[]]]; [apply A3, Hin|left; eauto].
      + cbn [qgen q_gen g_fail g_cur g_comps q_count]. split; [reflexivity|]. split; [reflexivity|]. split.
        { rewrite Hperm, flat_map_app, Hrows. cbn [flat_map]. change (all_rows (rc_index c)) with (rows_of p ++ []). rewrite !app_nil_r, <- app_assoc. reflexivity. }
        split.
        * intros c1 k Hc1 Hs Hk1. apply in_app_or in Hc1 as [Hc1|[<-|[]]].
          -- eapply exhausted_aset; [|exact Hget|exact Hsend|eapply Hex; eauto]. lia.
          -- cbn in Hk1. destruct Hk1 as [<-|[]]. intros st1 E. rewrite (aget_aset_same _ mkey_eqb_spec) in E. injection E as <-. apply Hsh, Hs.
        * intros o Hin. apply in_app_or in Hin as [Hin|[<-|[]]]; [apply Hall, Hin|eauto].
      + discriminate.
    - injection Es as <- <- <-. injection H as <- <-. apply Hdone; [auto|]. right.
      rewrite Hperm. rewrite comps_exhausted; [rewrite app_nil_r; reflexivity| |].
      + rewrite G2. apply order_nodup.
      + rewrite G2. exact Hexh.
    - injection Es as <- <- <-. injection H as <- <-. apply Hdone; [auto|]. left. apply in_or_app. cbn; auto.
  Qed.

  Lemma arb_init h r son : arb (qr_init idx order h r son) [].
  Proof.
    constructor; cbn.
    - intros c [].
    - intros [|i] j c c' k _ H; discriminate.
    - intros o [].
    - split; [reflexivity|]. split; [reflexivity|]. split; [|split; [intros c k []|intros o []]].
      exact (gen_init_rows idx order Hix Hord).
    - reflexivity.
  Qed.

  Lemma arb_update h r q os : arb q os -> arb (qr_update_mixture h r q) os.
  Proof. intros [A1 A2 A3 A4 A5]. constructor; auto. Qed.

  Lemma arb_run fuel ops : forall q os q' os', Forall (fun o => arbitrary_heap (op_heap o) /\ heap_ok (op_heap o)) ops ->
    qinv idx order q os -> kidinv idx q -> arb q os -> qrun (S fuel) ops q = (q', os') ->
    arb q' (os ++ os') /\ qinv idx order q' (os ++ os') /\ kidinv idx q'.
  Proof.
    induction ops as [|[h|h r] ops IH]; intros q os q' os' Hh Hq Hk Ha H; cbn [qrun] in H.
    - injection H as <- <-. rewrite app_nil_r. auto.
    - inversion Hh as [|? ? [H1 H1'] H2]; subst. destruct (qr_next (S fuel) h q) as [q1 o] eqn:E. destruct (qrun (S fuel) ops q1) as [q2 os2] eqn:E2.
      injection H as <- <-. change (o :: os2) with ([o] ++ os2). rewrite app_assoc. eapply IH; [exact H2| | | |exact E2].
      + apply (qnext_inv idx order Hix (S fuel) h q os q1 o H1' Hq E).
      + eapply kidinv_next; eauto.
      + eapply arb_next; eauto.
    - inversion Hh as [|? ? [H1 H1'] H2]; subst. eapply IH; [exact H2|apply qupdate_inv, Hq|apply kidinv_update, Hk|apply arb_update, Ha|exact H].
  Qed.

  Lemma arbitrary_heap_ok h : arbitrary_heap h -> heap_ok h.
  Proof. intros H r. destruct (H r) as [-> Hc]. split; [split; constructor|lia]. Qed.

  (** ** Termination of the round robin for an odd number of keys *)
  Lemma rr_terminates keys csize comps n : n = Z.of_nat (length keys) -> n mod 2 = 1 -> map fst comps = keys ->
    forall m kidx empty fuel, (length keys - length empty <= m)%nat -> (length keys * m <= fuel)%nat ->
      NoDup empty -> (forall i, In i empty -> 0 <= i < n) ->
      forall comps' kidx' empty', round_robin fuel keys csize comps kidx empty <> (comps', kidx', empty', RErr OutOfFuel).
  Proof.
    intros Hn Hodd Hk. induction m as [|m IHm]; intros kidx empty fuel Hm Hfuel Hnd Hr comps' kidx' empty'.
    - destruct fuel; cbn [round_robin]; rewrite (proj2 (Nat.ltb_ge (length empty) (length keys))) by lia; discriminate.
    - destruct (Nat.ltb (length empty) (length keys)) eqn:El.
      2:{ destruct fuel; cbn [round_robin]; rewrite El; discriminate. }
      apply Nat.ltb_lt in El.
      assert (Hu : exists u, 0 <= u < n /\ ~ In u empty).
      { destruct (existsb (fun u => negb (zmem u empty)) (zrange 0 n)) eqn:E.
        - apply existsb_exists in E as (u & Hu & Eu). exists u. apply in_zrange in Hu. split; [lia|].
          intros Hin. apply zmem_spec in Hin. rewrite Hin in Eu. discriminate.
        - exfalso. assert (Hincl : incl (zrange 0 n) empty).
          { intros u Hu. apply zmem_spec. destruct (zmem u empty) eqn:Eu; [reflexivity|]. exfalso.
            assert (Hex : existsb (fun u => negb (zmem u empty)) (zrange 0 n) = true) by (apply existsb_exists; exists u; rewrite Eu; auto).
            congruence. }
          apply NoDup_incl_length in Hincl; [|apply NoDup_zrange]. pose proof (zrange_length 0 n). lia. }
      destruct Hu as (u & Hu & Hnin).
      assert (Ht : exists t : nat, (t < length keys)%nat /\ (kidx + 1 + 2 * Z.of_nat t) mod n = u).
      { exists (Z.to_nat (((u - kidx - 1) * ((n + 1) / 2)) mod n)).
        pose proof (Z.mod_pos_bound ((u - kidx - 1) * ((n + 1) / 2)) n ltac:(lia)) as Hb. split; [lia|].
        rewrite Z2Nat.id by lia.
        rewrite <- Z.add_mod_idemp_r, Z.mul_mod_idemp_r, Z.add_mod_idemp_r by lia.
        replace (kidx + 1 + 2 * ((u - kidx - 1) * ((n + 1) / 2))) with (u + (u - kidx - 1) * n).
        - rewrite Z.mod_add by lia. apply Z.mod_small. lia.
        - pose proof (Z.div_mod (n + 1) 2 ltac:(lia)) as Hd. assert (Hm2 : (n + 1) mod 2 = 0).
          { rewrite <- Z.add_mod_idemp_l, Hodd by lia. reflexivity. }
          assert (E : n = 2 * ((n + 1) / 2) - 1) by lia. set (hh := (n + 1) / 2) in *. rewrite E. ring. }
      destruct Ht as (t & Htn & Ht).
      assert (Hf : (t + 1 + length keys * m <= fuel)%nat) by lia.
      clear Hfuel Htn. revert kidx fuel Ht Hf. induction t as [|t IHt]; intros kidx fuel Ht Hf.
      + destruct fuel as [|fuel]; [lia|]. cbn [round_robin]. rewrite (proj2 (Nat.ltb_lt _ _) El), <- Hn.
        replace (kidx + 1 + 2 * Z.of_nat 0) with (kidx + 1) in Ht by lia. rewrite Ht.
        destruct (zmem u empty) eqn:Ez; [apply zmem_spec in Ez; contradiction|].
        unfold nth_key. destruct (nth_error keys (Z.to_nat u)) as [key|] eqn:En; [|discriminate].
        destruct (aget mkey_eqb key comps) as [st|]; [|discriminate]. destruct (comp_send st csize) as [[p st']|]; [discriminate|].
        apply IHm; cbn [length]; try lia.
        * constructor; assumption.
        * intros i [<-|Hi]; [lia|apply Hr, Hi].
      + destruct fuel as [|fuel]; [lia|]. cbn [round_robin]. rewrite (proj2 (Nat.ltb_lt _ _) El), <- Hn.
        destruct (zmem ((kidx + 1) mod n) empty) eqn:Ez.
        * apply IHt; [|lia]. rewrite <- Z.add_assoc, Z.add_mod_idemp_l, <- Ht by lia.
          replace ((kidx + 1) mod n + 1 + (1 + 2 * Z.of_nat t)) with ((kidx + 1) mod n + (2 + 2 * Z.of_nat t)) by lia.
          rewrite Z.add_mod_idemp_l by lia. f_equal. lia.
        * unfold nth_key. destruct (nth_error keys _) as [key|] eqn:En; [|discriminate].
          destruct (aget mkey_eqb key comps) as [st|]; [|discriminate]. destruct (comp_send st csize) as [[p st']|]; [discriminate|].
          apply IHm; cbn [length]; try lia.
          -- constructor; [|assumption]. intros Hin. apply zmem_spec in Hin. congruence.
          -- intros i [<-|Hi]; [apply Z.mod_pos_bound; lia|apply Hr, Hi].
  Qed.

  Lemma arb_no_fuel fuel h q os q' o : Z.of_nat (length idx) mod 2 = 1 -> (length idx * length idx <= S fuel)%nat ->
    arbitrary_heap h -> qinv idx order q os -> kidinv idx q -> arb q os ->
    qr_next (S fuel) h q = (q', o) -> o <> NErr OutOfFuel.
  Proof.
    intros Hodd Hfu Ha Hq Hk [A1 A2 A3 A4 A5] H. pose proof (qi_idx _ _ _ _ Hq) as Q1. pose proof (qi_order _ _ _ _ Hq) as Q2.
    pose proof (qi_gen _ _ _ _ Hq) as Hg.
    unfold qr_next in H. rewrite Q1, Q2 in H.
    change (match q_gen q with Some g => g | None => gen_init idx order end) with (qgen idx order q) in H.
    assert (Hb : (match q_gen q with None => true | Some _ => false end) && negb (q_nret q =? 0) = false).
    { destruct (q_gen q); [reflexivity|]. rewrite A5 by reflexivity. reflexivity. }
    rewrite Hb in H. clear Hb.
    destruct (qgen idx order q) as [g|g|] eqn:Eg; [| contradiction|].
    2:{ cbn in H. injection H as <- <-. discriminate. }
    destruct A4 as (Hf & Hcur & _).
    destruct (gen_send (S fuel) idx h (GChunk g) (q_self q) (s_mix (q_self q)) (q_count q)) as [[gn' sf'] out] eqn:Es.
    cbn [gen_send gen_loop g_fail g_base] in Es. rewrite Hf in Es. cbn [Z.ltb Z.compare] in Es.
    destruct (Ha (s_mix (q_self q))) as [Erows Hcs]. rewrite Erows in Es.
    match type of Es with context [note_arbitrary ?a ?b] =>
      pose proof (note_arbitrary_g a b) as Hn; destruct (note_arbitrary a b) as [g1 sf1] end.
    destruct Hn as (N1 & N2 & N3 & N4 & N5 & N6 & N7 & N8). cbn [g_keys g_comps g_empty g_kidx g_base g_target g_cur g_fail] in *.
    rewrite N1, N2, N3, N4, N6, N7, N8, Hcur, Z.eqb_refl in Es.
    destruct Hg as [G1 G2 G3 G4 G5]. rewrite G1 in Es.
    match type of Es with context [round_robin ?fu ?a ?b ?c ?d ?e] =>
      destruct (round_robin fu a b c d e) as [[[comps' kidx'] empty'] ro] eqn:Err end.
    assert (Hlen : length order = length idx) by (rewrite (Permutation_length Hord); apply map_length).
    assert (Hne : ro <> RErr OutOfFuel).
    { intros ->. revert Err. destruct G4 as [G4 G4']. eapply (rr_terminates order _ _ (Z.of_nat (length order)) eq_refl).
      - rewrite Hlen. exact Hodd.
      - exact G2.
      - apply (Nat.le_sub_l (length order)).
      - rewrite Hlen. exact Hfu.
      - exact G4.
      - intros i Hi. apply G4', Hi. }
    destruct ro as [key p| |e].
    - destruct (keys_known _ _); injection Es as <- <- <-; injection H as <- <-; discriminate.
    - injection Es as <- <- <-. injection H as <- <-. discriminate.
    - injection Es as <- <- <-. injection H as <- <-. congruence.
  Qed.

  Lemma arb_run_no_fuel fuel ops : Z.of_nat (length idx) mod 2 = 1 -> (length idx * length idx <= S fuel)%nat ->
    forall q os q' os', Forall (fun o => arbitrary_heap (op_heap o) /\ heap_ok (op_heap o)) ops ->
    qinv idx order q os -> kidinv idx q -> arb q os -> qrun (S fuel) ops q = (q', os') -> ~ In (NErr OutOfFuel) os'.
  Proof.
    intros Hodd Hfu. induction ops as [|[h|h r] ops IH]; intros q os q' os' Hh Hq Hk Ha H; cbn [qrun] in H.
    - injection H as <- <-. intros [].
    - inversion Hh as [|? ? [H1 H1'] H2]; subst. destruct (qr_next (S fuel) h q) as [q1 o] eqn:E. destruct (qrun (S fuel) ops q1) as [q2 os2] eqn:E2.
      injection H as <- <-. intros [->|Hin].
      + eapply arb_no_fuel; eauto.
      + revert Hin. eapply (IH q1 (os ++ [o])); [exact H2| | | |exact E2].
        * apply (qnext_inv idx order Hix (S fuel) h q os q1 o H1' Hq E).
        * eapply kidinv_next; eauto.
        * eapply arb_next; eauto.
    - inversion Hh as [|? ? [H1 H1'] H2]; subst. eapply IH; [exact H2|apply qupdate_inv, Hq|apply kidinv_update, Hk|apply arb_update, Ha|exact H].
  Qed.

  Lemma all_chunks_length os : (forall o, In o os -> exists c, o = NChunk c) -> length (chunks os) = length os.
  Proof.
    induction os as [|o os IH]; intros H; [reflexivity|]. destruct (H o) as [c ->]; [cbn; auto|]. cbn. f_equal. apply IH.
    intros; apply H; cbn; auto.
  Qed.

  Lemma rows_at_least cs : (forall c, In c cs -> (1 <= length (all_rows (rc_index c)))%nat) ->
    (length cs <= length (flat_map (fun c => all_rows (rc_index c)) cs))%nat.
  Proof.
    induction cs as [|c cs IH]; intros H; [reflexivity|]. cbn. rewrite app_length. specialize (IH ltac:(intros; apply H; cbn; auto)).
    specialize (H c (or_introl eq_refl)). lia.
  Qed.

  Lemma arb_stops q os : arb q os -> ~ In (NErr OutOfFuel) os -> (length (all_rows idx) < length os)%nat -> In NStop os.
  Proof.
    intros [A1 A2 A3 A4 A5] Hne Hl.
    destruct (existsb (fun o => match o with NStop => true | _ => false end) os) eqn:E.
    - apply existsb_exists in E as (o & Hin & Ho). destruct o; try discriminate. exact Hin.
    - exfalso. assert (Hall : forall o, In o os -> exists c, o = NChunk c).
      { intros o Hin. destruct (A3 o Hin) as [Hc|[-> | ->]]; [exact Hc| |contradiction].
        assert (existsb (fun o => match o with NStop => true | _ => false end) os = true); [|congruence].
        apply existsb_exists. exists NStop. auto. }
      pose proof (all_chunks_length os Hall) as E1.
      assert (H1 : (length (chunks os) <= length (flat_map (fun c => all_rows (rc_index c)) (chunks os)))%nat).
      { apply rows_at_least. intros c Hc. destruct (A1 c Hc) as (k & p & -> & Hp). change (all_rows [(k, p)]) with (rows_of p ++ []). rewrite app_nil_r. lia. }
      assert (H2 : (length (flat_map (fun c => all_rows (rc_index c)) (chunks os)) <= length (all_rows idx))%nat).
      { destruct (qgen idx order q) as [g|g|]; [|contradiction|].
        - destruct A4 as (_ & _ & Hp & _). rewrite (Permutation_length Hp), app_length. lia.
        - destruct A4 as [Hin|Hp]; [contradiction|]. rewrite (Permutation_length Hp). lia. }
      lia.
  Qed.

  Lemma arb_stop_all q os : arb q os -> ~ In (NErr OutOfFuel) os -> In NStop os ->
    Permutation (all_rows idx) (flat_map (fun c => all_rows (rc_index c)) (chunks os)).
  Proof.
    intros [A1 A2 A3 A4 A5] Hne Hin. destruct (qgen idx order q) as [g|g|]; [|contradiction|].
    - destruct A4 as (_ & _ & _ & _ & H). destruct (H _ Hin). discriminate.
    - destruct A4 as [H|H]; [contradiction|exact H].
  Qed.
End Work.
