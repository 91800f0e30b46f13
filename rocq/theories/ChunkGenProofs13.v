(** Arbitrary mixtures with an even number of keys: exactly when the round robin gets through. *)
From Verif Require Import Base MixtureKeyModel MixtureKeyProofs UtilsModel UtilsProofs ChunkGenModel SpecChunk ChunkGenProofs1
  ChunkGenProofs2 ChunkGenProofs3 ChunkGenProofs4 ChunkGenProofs5 ChunkGenProofs6 ChunkGenProofs7.
From Coq Require Import ZifyBool ZifyNat.
Open Scope Z_scope.

(** The number of chunks of at most [c] rows that [n] rows make. *)
Definition nchunks (c n : Z) : Z := (n + c - 1) / c.

Lemma nchunks_0 c : 1 <= c -> nchunks c 0 = 0.
Proof. intros H. unfold nchunks. apply Z.div_small. lia. Qed.
Lemma nchunks_pos c n : 1 <= c -> 0 < n -> 1 <= nchunks c n.
Proof. intros H Hn. unfold nchunks. apply Z.div_le_lower_bound; lia. Qed.
Lemma nchunks_nonneg c n : 1 <= c -> 0 <= n -> 0 <= nchunks c n.
Proof. intros H Hn. unfold nchunks. apply Z.div_pos; lia. Qed.
Lemma nchunks_full c n : 1 <= c -> nchunks c (c + n) = nchunks c n + 1.
Proof. intros H. unfold nchunks. replace (c + n + c - 1) with (n + c - 1 + 1 * c) by lia. rewrite Z.div_add by lia. lia. Qed.
Lemma nchunks_1 c n : 1 <= c -> 0 < n <= c -> nchunks c n = 1.
Proof. intros H Hn. unfold nchunks. symmetry. apply (Z.div_unique _ _ _ (n - 1)); lia. Qed.

Section Even.
  Variable c : Z.
  Hypothesis Hc : 1 <= c.

  Definition left_in (st : list frange) : Z := nchunks c (Z.of_nat (length (frows st))).
  Definition b2z (b : bool) : Z := if b then 1 else 0.

  (** Chunks still to come plus "not yet noticed to be empty", over the positions of parity [p]. *)
  Fixpoint wsum (p : bool) (empty : list Z) (i : Z) (comps : list (mkey * list frange)) : Z :=
    match comps with
    | [] => 0
    | kv :: r => (if Bool.eqb (Z.odd i) p then left_in (snd kv) + b2z (negb (zmem i empty)) else 0) + wsum p empty (i + 1) r
    end.

  Lemma left_nonneg st : 0 <= left_in st.
  Proof using Hc. apply nchunks_nonneg; lia. Qed.
  Lemma b2z_nonneg b : 0 <= b2z b.
  Proof using. destruct b; cbn; lia. Qed.

  Lemma wsum_nonneg p empty comps : forall i, 0 <= wsum p empty i comps.
  Proof using Hc.
    induction comps as [|kv r IH]; intros i; cbn; [lia|]. specialize (IH (i + 1)).
    pose proof (left_nonneg (snd kv)). pose proof (b2z_nonneg (negb (zmem i empty))). destruct (Bool.eqb _ _); lia.
  Qed.

  Lemma wsum_zero p empty comps : forall i, wsum p empty i comps = 0 ->
    forall j, i <= j < i + Z.of_nat (length comps) -> Z.odd j = p -> zmem j empty = true.
  Proof using Hc.
    induction comps as [|kv r IH]; intros i H j Hj Hp; cbn [wsum length] in *; [lia|].
    pose proof (wsum_nonneg p empty r (i + 1)). pose proof (left_nonneg (snd kv)). pose proof (b2z_nonneg (negb (zmem i empty))).
    destruct (Z.eq_dec i j) as [->|Hne].
    - rewrite Hp, eqb_reflx in H. destruct (zmem j empty); [reflexivity|]. cbn in H. lia.
    - apply (IH (i + 1)); [destruct (Bool.eqb _ _); lia|lia|exact Hp].
  Qed.

  (** All positions noticed empty and really empty: nothing to come. *)
  Lemma wsum_all p empty comps : forall i,
    (forall j kv, nth_error comps j = Some kv -> frows (snd kv) = [] /\ zmem (i + Z.of_nat j) empty = true) ->
    wsum p empty i comps = 0.
  Proof using Hc.
    induction comps as [|kv r IH]; intros i H; cbn; [reflexivity|].
    rewrite IH.
    - destruct (H 0%nat kv eq_refl) as [E1 E2]. rewrite Z.add_0_r in E2. rewrite E2. unfold left_in. rewrite E1. cbn.
      rewrite nchunks_0 by exact Hc. destruct (Bool.eqb _ _); lia.
    - intros j kv' Hn. replace (i + 1 + Z.of_nat j) with (i + Z.of_nat (S j)) by lia. apply H. exact Hn.
  Qed.

  Lemma wsum_mark p empty comps : forall i u, zmem u empty = false -> i <= u < i + Z.of_nat (length comps) ->
    wsum p (u :: empty) i comps = wsum p empty i comps - (if Bool.eqb (Z.odd u) p then 1 else 0).
  Proof using.
    assert (Hout : forall comps i u, u < i -> wsum p (u :: empty) i comps = wsum p empty i comps).
    { clear comps. induction comps as [|kv r IH]; intros i u Hu; cbn [wsum]; [reflexivity|]. rewrite IH by lia.
      replace (zmem i (u :: empty)) with (zmem i empty); [reflexivity|]. cbn. rewrite (proj2 (Z.eqb_neq i u)) by lia. reflexivity. }
    induction comps as [|kv r IH]; intros i u Hz Hu; cbn [wsum length] in *; [lia|].
    destruct (Z.eq_dec i u) as [->|Hne].
    - rewrite Hout by lia. rewrite Hz. cbn [zmem existsb]. rewrite Z.eqb_refl. cbn. destruct (Bool.eqb (Z.odd u) p); lia.
    - rewrite (IH (i + 1) u Hz) by lia.
      replace (zmem i (u :: empty)) with (zmem i empty) by (cbn; rewrite (proj2 (Z.eqb_neq i u)) by lia; reflexivity). lia.
  Qed.

  Lemma wsum_take p empty key st st' comps : forall i j, NoDup (map fst comps) -> nth_error comps j = Some (key, st) ->
    left_in st' = left_in st - 1 ->
    wsum p empty i (aset mkey_eqb key st' comps) = wsum p empty i comps - (if Bool.eqb (Z.odd (i + Z.of_nat j)) p then 1 else 0).
  Proof using.
    induction comps as [|[k v] r IH]; intros i j Hnd Hn Hl; [destruct j; discriminate|].
    inversion Hnd as [|? ? Hni Hnd']; subst. cbn [aset]. destruct j as [|j].
    - cbn in Hn. injection Hn as -> ->. rewrite (proj2 (mkey_eqb_spec key key) eq_refl). cbn [wsum snd]. rewrite Hl, Z.add_0_r. destruct (Bool.eqb _ _); lia.
    - cbn in Hn. destruct (mkey_eqb key k) eqn:E.
      + apply mkey_eqb_spec in E. subst k. exfalso. apply Hni. apply nth_error_In in Hn. apply (in_map fst) in Hn. exact Hn.
      + cbn [wsum snd]. rewrite (IH (i + 1) j Hnd' Hn Hl). replace (i + 1 + Z.of_nat j) with (i + Z.of_nat (S j)) by lia. lia.
  Qed.

  Lemma send_left st p st' : comp_send st c = Some (p, st') -> left_in st' = left_in st - 1.
  Proof using Hc.
    intros H. destruct (comp_send_spec _ _ _ _ H ltac:(lia)) as (tk & E & _ & _ & [Hl|(E1 & -> & Hl)]); unfold left_in; rewrite E, app_length.
    - replace (Z.of_nat (length tk + length (frows st'))) with (c + Z.of_nat (length (frows st'))) by lia. rewrite nchunks_full by exact Hc. lia.
    - rewrite E1. cbn. rewrite nchunks_0 by exact Hc. rewrite Nat.add_0_r, nchunks_1 by lia. lia.
  Qed.

  (** What stays the same while the round robin moves. *)
  Definition lead (comps : list (mkey * list frange)) (empty : list Z) (kidx : Z) : Z :=
    wsum true empty 0 comps - wsum false empty 0 comps + b2z (Z.odd kidx).

  Lemma odd_mod_even a n : 0 < n -> Z.even n = true -> Z.odd (a mod n) = Z.odd a.
  Proof using.
    intros Hn He. rewrite Z.mod_eq by lia. rewrite Z.odd_sub, Z.odd_mul, <- (Z.negb_even n), He. cbn. apply xorb_false_r.
  Qed.

  Lemma lead_mark comps empty u : zmem u empty = false -> 0 <= u < Z.of_nat (length comps) ->
    lead comps (u :: empty) u = wsum true empty 0 comps - wsum false empty 0 comps + b2z (Z.odd (u + 1)).
  Proof using.
    intros Hz Hu. unfold lead. rewrite !wsum_mark by (assumption || lia). rewrite Z.odd_add. destruct (Z.odd u); cbn; lia.
  Qed.
  Lemma lead_take comps empty key st p st' u : NoDup (map fst comps) -> nth_error comps u = Some (key, st) ->
    comp_send st c = Some (p, st') ->
    lead (aset mkey_eqb key st' comps) empty (Z.of_nat u) = wsum true empty 0 comps - wsum false empty 0 comps + b2z (Z.odd (Z.of_nat u + 1)).
  Proof using Hc.
    intros Hnd Hn Hs. unfold lead. rewrite !(wsum_take _ empty key st st' comps 0 u Hnd Hn (send_left _ _ _ Hs)).
    rewrite Z.add_0_l, Z.odd_add. destruct (Z.odd (Z.of_nat u)); cbn; lia.
  Qed.

  Lemma nth_comps (keys : list mkey) (comps : list (mkey * list frange)) u key st : map fst comps = keys -> NoDup keys -> nth_error keys u = Some key ->
    aget mkey_eqb key comps = Some st -> nth_error comps u = Some (key, st).
  Proof using.
    intros <- Hnd Hn Hg. rewrite nth_error_map in Hn. destruct (nth_error comps u) as [[k v]|] eqn:E; [|discriminate].
    cbn in Hn. injection Hn as ->. f_equal. f_equal. apply nth_error_In in E.
    rewrite (in_aget _ mkey_eqb_spec key v comps Hnd E) in Hg. congruence.
  Qed.

  Lemma rr_lead fuel keys comps : Z.even (Z.of_nat (length keys)) = true -> NoDup keys -> map fst comps = keys ->
    forall kidx empty comps' kidx' empty' out,
    round_robin fuel keys c comps kidx empty = (comps', kidx', empty', out) -> (forall e, out <> RErr e) -> rr_inv keys comps empty ->
    lead comps' empty' kidx' = lead comps empty kidx
    /\ (out = RExhausted -> lead comps empty kidx = 0 \/ lead comps empty kidx = 1).
  Proof using Hc.
    intros Hev Hnd Hk. induction fuel as [|fuel IH]; intros kidx empty comps' kidx' empty' out H Hne Hi;
      cbn [round_robin] in H; destruct (Nat.ltb (length empty) (length keys)) eqn:El.
    1: { injection H as <- <- <- <-. exfalso. eapply Hne. reflexivity. }
    2: { set (n := Z.of_nat (length keys)) in *. apply Nat.ltb_lt in El. assert (Hn : 0 < n) by lia.
      pose proof (Z.mod_pos_bound (kidx + 1) n Hn) as Hm.
      assert (Hcl : length comps = length keys) by (rewrite <- Hk, map_length; reflexivity).
      assert (Hodd : Z.odd ((kidx + 1) mod n) = negb (Z.odd kidx)).
      { rewrite odd_mod_even, Z.odd_add by assumption. cbn. destruct (Z.odd kidx); reflexivity. }
      assert (Hodd1 : Z.odd ((kidx + 1) mod n + 1) = Z.odd kidx) by (rewrite Z.odd_add, Hodd; destruct (Z.odd kidx); reflexivity).
      destruct (zmem ((kidx + 1) mod n) empty) eqn:Ez.
      - destruct (IH _ _ _ _ _ _ H Hne Hi) as [A B].
        assert (E : lead comps empty (((kidx + 1) mod n + 1) mod n) = lead comps empty kidx).
        { unfold lead. rewrite odd_mod_even, Hodd1 by assumption. reflexivity. }
        rewrite <- E. auto.
      - unfold nth_key in H. destruct (nth_error keys (Z.to_nat ((kidx + 1) mod n))) as [key|] eqn:En.
        2:{ injection H as <- <- <- <-. exfalso. eapply Hne. reflexivity. }
        destruct (aget mkey_eqb key comps) as [st|] eqn:Est.
        2:{ injection H as <- <- <- <-. exfalso. eapply Hne. reflexivity. }
        pose proof (nth_comps keys comps _ key st Hk Hnd En Est) as Hnc.
        destruct (comp_send st c) as [[p st']|] eqn:Es.
        + injection H as <- <- <- <-. split; [|discriminate].
          rewrite <- (Z2Nat.id ((kidx + 1) mod n)) by lia. rewrite (lead_take comps empty key st p st'); [|rewrite Hk; exact Hnd|exact Hnc|exact Es].
          rewrite Z2Nat.id, Hodd1 by lia. reflexivity.
        + destruct (IH _ _ _ _ _ _ H Hne) as [A B].
          { destruct Hi as [Hi1 Hi2]. split.
            - constructor; [|exact Hi1]. intros Hin. apply zmem_spec in Hin. congruence.
            - intros i [<-|Hin]; [|apply Hi2, Hin]. split; [lia|]. intros key' Hk'. unfold nth_key in Hk'. rewrite En in Hk'. injection Hk' as <-.
              intros st1 E1. rewrite Est in E1. injection E1 as <-. apply (comp_send_none _ _ Es). }
          assert (E : lead comps ((kidx + 1) mod n :: empty) ((kidx + 1) mod n) = lead comps empty kidx).
          { rewrite lead_mark by (assumption || lia). rewrite Hodd1. reflexivity. }
          rewrite <- E. auto. }
    1,2: injection H as <- <- <- <-; (split; [reflexivity|]); intros _; apply Nat.ltb_ge in El; destruct Hi as [Hi1 Hi2];
      (assert (Hz : forall p, wsum p empty 0 comps = 0); [|unfold lead; rewrite !Hz; destruct (Z.odd kidx); cbn; lia]);
      intros p; apply wsum_all; intros j [k st] Hn;
      (assert (Hj : (j < length keys)%nat) by (rewrite <- Hk, map_length; apply nth_error_Some; congruence));
      (assert (Hin : In (0 + Z.of_nat j) empty) by (eapply nodup_full; [exact Hi1| |exact El|lia]; intros i Hii; apply Hi2, Hii));
      (split; [|apply zmem_spec, Hin]);
      destruct (Hi2 _ Hin) as [_ He]; apply (He k); [unfold nth_key; rewrite Z.add_0_l, Nat2Z.id, <- Hk, nth_error_map, Hn; reflexivity|];
      apply (in_aget _ mkey_eqb_spec); [rewrite Hk; exact Hnd|eapply nth_error_In; exact Hn].
  Qed.

  (** If the lead is 0 or 1, a free position of the right parity is always reached. *)
  Lemma rr_even_terminates keys comps n : n = Z.of_nat (length keys) -> Z.even n = true -> NoDup keys -> map fst comps = keys ->
    forall m kidx empty fuel, (length keys - length empty <= m)%nat -> (length keys * m <= fuel)%nat -> 0 <= kidx ->
      NoDup empty -> (forall i, In i empty -> 0 <= i < n /\ forall key, nth_key i keys = Some key -> exhausted key comps) ->
      (lead comps empty kidx = 0 \/ lead comps empty kidx = 1) ->
      forall comps' kidx' empty', round_robin fuel keys c comps kidx empty <> (comps', kidx', empty', RErr OutOfFuel).
  Proof using Hc.
    intros Hn Hev Hndk Hk. assert (Hcl : length comps = length keys) by (rewrite <- Hk, map_length; reflexivity).
    induction m as [|m IHm]; intros kidx empty fuel Hm Hfuel Hkx Hnd Hr Hlead comps' kidx' empty'.
    - destruct fuel; cbn [round_robin]; rewrite (proj2 (Nat.ltb_ge (length empty) (length keys))) by lia; discriminate.
    - destruct (Nat.ltb (length empty) (length keys)) eqn:El.
      2:{ destruct fuel; cbn [round_robin]; rewrite El; discriminate. }
      apply Nat.ltb_lt in El.
      assert (Hu : exists u, 0 <= u < n /\ Z.odd u = negb (Z.odd kidx) /\ ~ In u empty).
      { destruct (existsb (fun u => Bool.eqb (Z.odd u) (negb (Z.odd kidx)) && negb (zmem u empty)) (zrange 0 n)) eqn:E.
        - apply existsb_exists in E as (u & Hu & Eu). apply andb_prop in Eu as [E1 E2]. apply eqb_prop in E1.
          exists u. apply in_zrange in Hu. split; [lia|]. split; [exact E1|].
          intros Hin. apply zmem_spec in Hin. rewrite Hin in E2. discriminate.
        - exfalso.
          assert (Hcov : forall u, 0 <= u < n -> Z.odd u = negb (Z.odd kidx) -> zmem u empty = true).
          { intros u Hu Ho. destruct (zmem u empty) eqn:Eu; [reflexivity|]. exfalso.
            assert (Hex : existsb (fun u => Bool.eqb (Z.odd u) (negb (Z.odd kidx)) && negb (zmem u empty)) (zrange 0 n) = true); [|congruence].
            apply existsb_exists. exists u. split; [apply in_zrange; lia|]. rewrite Ho, Eu, eqb_reflx. reflexivity. }
          assert (Hz : wsum (negb (Z.odd kidx)) empty 0 comps = 0).
          { assert (G : forall l i, (forall j kv, nth_error l j = Some kv -> Z.odd (i + Z.of_nat j) = negb (Z.odd kidx) ->
                          frows (snd kv) = [] /\ zmem (i + Z.of_nat j) empty = true) -> wsum (negb (Z.odd kidx)) empty i l = 0).
            { induction l as [|kv l IHl]; intros i G; cbn [wsum]; [reflexivity|]. rewrite IHl.
              - destruct (Bool.eqb (Z.odd i) (negb (Z.odd kidx))) eqn:Eo; [|lia]. apply eqb_prop in Eo.
                destruct (G 0%nat kv eq_refl) as [G1 G2]; [rewrite Z.add_0_r; exact Eo|]. rewrite Z.add_0_r in G2.
                unfold left_in. rewrite G1, G2. cbn. rewrite nchunks_0 by exact Hc. lia.
              - intros j kv' Hj Ho. replace (i + 1 + Z.of_nat j) with (i + Z.of_nat (S j)) in * by lia. apply G; assumption. }
            apply G. intros j [k st] Hj Ho. rewrite Z.add_0_l in *.
            assert (Hjl : (j < length comps)%nat) by (apply nth_error_Some; congruence).
            assert (Hzm : zmem (Z.of_nat j) empty = true) by (apply Hcov; [lia|exact Ho]).
            split; [|exact Hzm]. apply zmem_spec in Hzm. destruct (Hr _ Hzm) as [_ He]. apply (He k).
            - unfold nth_key. rewrite Nat2Z.id, <- Hk, nth_error_map, Hj. reflexivity.
            - apply (in_aget _ mkey_eqb_spec); [rewrite Hk; exact Hndk|eapply nth_error_In; exact Hj]. }
          assert (Hz2 : wsum (Z.odd kidx) empty 0 comps = 0).
          { unfold lead in Hlead. pose proof (wsum_nonneg true empty comps 0). pose proof (wsum_nonneg false empty comps 0).
            destruct (Z.odd kidx); cbn in Hz, Hlead |- *; lia. }
          assert (Hincl : incl (zrange 0 n) empty).
          { intros u Hu. apply in_zrange in Hu. apply zmem_spec. destruct (Bool.bool_dec (Z.odd u) (Z.odd kidx)) as [Ho|Ho].
            - apply (wsum_zero _ _ _ 0 Hz2); [lia|exact Ho].
            - apply (wsum_zero _ _ _ 0 Hz); [lia|]. destruct (Z.odd u), (Z.odd kidx); cbn; congruence. }
          apply NoDup_incl_length in Hincl; [|apply NoDup_zrange]. pose proof (zrange_length 0 n). lia. }
      destruct Hu as (u & Hu & Hodd & Hnin).
      assert (Ht : exists t : nat, (t < length keys)%nat /\ (kidx + 1 + 2 * Z.of_nat t) mod n = u).
      { assert (Hd : exists w, u - kidx - 1 = 2 * w).
        { exists ((u - kidx - 1) / 2). pose proof (Z.div_mod (u - kidx - 1) 2 ltac:(lia)) as Hdm.
          assert (Z.odd (u - kidx - 1) = false) by (rewrite !Z.odd_sub, Hodd; destruct (Z.odd kidx); reflexivity).
          rewrite Zmod_odd, H in Hdm. lia. }
        destruct Hd as (w & Hw). exists (Z.to_nat (w mod n)).
        pose proof (Z.mod_pos_bound w n ltac:(lia)) as Hb. split; [lia|]. rewrite Z2Nat.id by lia.
        rewrite <- Z.add_mod_idemp_r, Z.mul_mod_idemp_r, Z.add_mod_idemp_r by lia.
        replace (kidx + 1 + 2 * w) with u by lia. apply Z.mod_small. lia. }
      destruct Ht as (t & Htn & Ht).
      assert (Hf : (t + 1 + length keys * m <= fuel)%nat) by lia.
      assert (Hstep : forall kidx fuel, Z.odd u = negb (Z.odd kidx) -> (lead comps empty kidx = 0 \/ lead comps empty kidx = 1) ->
        (length keys * m <= fuel)%nat -> zmem ((kidx + 1) mod n) empty = false ->
        match nth_key ((kidx + 1) mod n) keys with
        | None => (comps, (kidx + 1) mod n, empty, RErr KeyError)
        | Some key => match aget mkey_eqb key comps with
            | None => (comps, (kidx + 1) mod n, empty, RErr KeyError)
            | Some st => match comp_send st c with
                | None => round_robin fuel keys c comps ((kidx + 1) mod n) ((kidx + 1) mod n :: empty)
                | Some (p, st') => (aset mkey_eqb key st' comps, (kidx + 1) mod n, empty, RFound key p) end end end
        <> (comps', kidx', empty', RErr OutOfFuel)).
      { clear kidx fuel Hfuel Hlead Hodd Ht Hf Hkx. intros kidx fuel Hodd Hlead Hfuel Hz.
        pose proof (Z.mod_pos_bound (kidx + 1) n ltac:(lia)) as Hmb.
        unfold nth_key. destruct (nth_error keys (Z.to_nat _)) as [key|] eqn:En; [|discriminate].
        destruct (aget mkey_eqb key comps) as [st|] eqn:Est; [|discriminate]. destruct (comp_send st c) as [[p st']|] eqn:Es; [discriminate|].
        apply IHm; cbn [length]; try lia.
        - constructor; [|assumption]. intros Hin. apply zmem_spec in Hin. congruence.
        - intros i [<-|Hi]; [|apply Hr, Hi]. split; [lia|]. intros key' Hk'. unfold nth_key in Hk'. rewrite En in Hk'. injection Hk' as <-.
          intros st1 E1. rewrite Est in E1. injection E1 as <-. apply (comp_send_none _ _ Es).
        - rewrite lead_mark by (assumption || lia). rewrite Z.odd_add, odd_mod_even, Z.odd_add by (assumption || lia).
          unfold lead in Hlead. destruct (Z.odd kidx); cbn in *; exact Hlead. }
      clear Hfuel Htn Hm. revert kidx fuel Ht Hf Hkx Hodd Hlead. induction t as [|t IHt]; intros kidx fuel Ht Hf Hkx Hodd Hlead.
      + destruct fuel as [|fuel]; [lia|]. cbn [round_robin]. rewrite (proj2 (Nat.ltb_lt _ _) El), <- Hn.
        assert (Hu0 : (kidx + 1) mod n = u) by (rewrite <- Ht; f_equal; lia).
        assert (Hz0 : zmem ((kidx + 1) mod n) empty = false).
        { rewrite Hu0. destruct (zmem u empty) eqn:Ez; [apply zmem_spec in Ez; contradiction|reflexivity]. }
        rewrite Hz0. apply Hstep; try assumption. lia.
      + destruct fuel as [|fuel]; [lia|]. cbn [round_robin]. rewrite (proj2 (Nat.ltb_lt _ _) El), <- Hn.
        destruct (zmem ((kidx + 1) mod n) empty) eqn:Ez.
        * assert (Ho : Z.odd (((kidx + 1) mod n + 1) mod n) = Z.odd kidx).
          { rewrite odd_mod_even, Z.odd_add, odd_mod_even, Z.odd_add by (assumption || lia). destruct (Z.odd kidx); reflexivity. }
          apply IHt; [|lia| | |].
          -- rewrite <- Z.add_assoc, Z.add_mod_idemp_l, <- Ht by lia.
             replace ((kidx + 1) mod n + 1 + (1 + 2 * Z.of_nat t)) with ((kidx + 1) mod n + (2 + 2 * Z.of_nat t)) by lia.
             rewrite Z.add_mod_idemp_l by lia. f_equal. lia.
          -- apply Z.mod_pos_bound. lia.
          -- rewrite Ho. exact Hodd.
          -- unfold lead. rewrite Ho. exact Hlead.
        * apply Hstep; try assumption. lia.
  Qed.
End Even.

Section EvenRun.
  Variables (idx : index) (order : list mkey).
  Hypothesis Hix : index_ok idx.
  Hypothesis Hord : Permutation order (map fst idx).
  Hypothesis Hev : Z.even (Z.of_nat (length order)) = true.
  Variable c : Z.
  Hypothesis Hc : 1 <= c.

  (** One call while all mixtures are arbitrary: the round robin and what is made of its answer. *)
  Lemma arb_step fuel h q os q' o : arbitrary_heap h -> qinv idx order q os -> arb idx order q os ->
    qr_next (S fuel) h q = (q', o) ->
    (qgen idx order q = GDone /\ qgen idx order q' = GDone /\ o = NStop)
    \/ exists g comps' kidx' empty' ro, qgen idx order q = GChunk g /\ ginv idx order g
       /\ round_robin (S fuel) order (m_csize (h (s_mix (q_self q)))) (g_comps g) (g_kidx g) (g_empty g) = (comps', kidx', empty', ro)
       /\ match ro with
          | RFound _ _ => (exists g', qgen idx order q' = GChunk g' /\ g_comps g' = comps' /\ g_kidx g' = kidx' /\ g_empty g' = empty')
                          \/ (qgen idx order q' = GDone /\ o = NErr AssertionError)
          | RExhausted => qgen idx order q' = GDone /\ o = NStop
          | RErr e => qgen idx order q' = GDone /\ o = NErr e
          end /\ (o = NErr OutOfFuel -> ro = RErr OutOfFuel).
  Proof using.
    intros Ha Hq [A1 A2 A3 A4 A5] H. pose proof (qi_idx _ _ _ _ Hq) as Q1. pose proof (qi_order _ _ _ _ Hq) as Q2.
    pose proof (qi_gen _ _ _ _ Hq) as Hg.
    unfold qr_next in H. rewrite Q1, Q2 in H.
    change (match q_gen q with Some g => g | None => gen_init idx order end) with (qgen idx order q) in H.
    assert (Hb : (match q_gen q with None => true | Some _ => false end) && negb (q_nret q =? 0) = false).
    { destruct (q_gen q); [reflexivity|]. rewrite A5 by reflexivity. reflexivity. }
    rewrite Hb in H. clear Hb.
    destruct (qgen idx order q) as [g|g|] eqn:Eg; [| contradiction|].
    2:{ cbn in H. injection H as <- <-. left. auto. }
    right. destruct A4 as (Hf & Hcur & _).
    destruct (gen_send (S fuel) idx h (GChunk g) (q_self q) (s_mix (q_self q)) (q_count q)) as [[gn' sf'] out] eqn:Es.
    cbn [gen_send gen_loop g_fail g_base] in Es. rewrite Hf in Es. cbn [Z.ltb Z.compare] in Es.
    destruct (Ha (s_mix (q_self q))) as [Erows Hcs]. rewrite Erows in Es.
    match type of Es with context [note_arbitrary ?a ?b] =>
      pose proof (note_arbitrary_g a b) as Hn; destruct (note_arbitrary a b) as [g1 sf1] end.
    destruct Hn as (N1 & N2 & N3 & N4 & N5 & N6 & N7 & N8). cbn [g_keys g_comps g_empty g_kidx g_base g_target g_cur g_fail] in *.
    pose proof (gi_keys _ _ _ Hg) as G1.
    rewrite N1, N2, N3, N4, N6, N7, N8, Hcur, Z.eqb_refl, G1 in Es.
    match type of Es with context [round_robin ?fu ?a ?b ?c ?d ?e] =>
      destruct (round_robin fu a b c d e) as [[[comps' kidx'] empty'] ro] eqn:Err end.
    exists g, comps', kidx', empty', ro. split; [reflexivity|]. split; [exact Hg|]. split; [exact Err|].
    destruct ro as [key p| |e].
    - destruct (keys_known _ _); injection Es as <- <- <-; injection H as <- <-.
      + split; [left; eexists; split; [reflexivity|auto]|discriminate].
      + split; [right; split; reflexivity|discriminate].
    - injection Es as <- <- <-. injection H as <- <-. split; [split; reflexivity|discriminate].
    - injection Es as <- <- <-. injection H as <- <-. split; [split; reflexivity|]. intros E; injection E as ->. reflexivity.
  Qed.

  Definition even_inv (v : Z) (q : qr) (os : list nout) : Prop :=
    match qgen idx order q with
    | GChunk g => lead c (g_comps g) (g_empty g) (g_kidx g) = v
    | GNone _ => True
    | GDone => In (NErr OutOfFuel) os \/ v = 0 \/ v = 1
    end.
  Definition const_heap (h : heap) : Prop := forall r, m_rows (h r) = [] /\ m_csize (h r) = c.
  Lemma const_arbitrary h : const_heap h -> arbitrary_heap h.
  Proof using Hc. intros H r. destruct (H r) as [H1 H2]. split; [exact H1|rewrite H2; exact Hc]. Qed.

  Lemma even_next fuel v h q os q' o : const_heap h -> qinv idx order q os -> kidinv idx q -> arb idx order q os -> even_inv v q os ->
    qr_next (S fuel) h q = (q', o) ->
    even_inv v q' (os ++ [o])
    /\ ((v = 0 \/ v = 1) -> (length order * length order <= S fuel)%nat -> o <> NErr OutOfFuel).
  Proof using Hix Hord Hev Hc.
    intros Hh Hq Hk Ha Hv H.
    pose proof (const_arbitrary h Hh) as Hha. pose proof (arbitrary_heap_ok h Hha) as Hho.
    pose proof (arb_next idx order Hix Hord fuel h q os q' o Hha Hho Hq Hk Ha H) as Ha'.
    assert (Hnd : NoDup order) by (eapply Permutation_NoDup; [symmetry; exact Hord|apply (ix_keys _ Hix)]).
    destruct (arb_step fuel h q os q' o Hha Hq Ha H) as [(E1 & E2 & ->)|(g & comps' & kidx' & empty' & ro & E1 & Hg & Err & Hro & Hof)].
    { unfold even_inv in *. rewrite E1 in Hv. rewrite E2. split; [|discriminate]. destruct Hv as [Hv|Hv]; [left; apply in_or_app; auto|auto]. }
    destruct (Hh (s_mix (q_self q))) as [_ Ecs]. rewrite Ecs in Err.
    unfold even_inv in Hv. rewrite E1 in Hv. destruct Hg as [G1 G2 G3 G4 G5].
    split.
    - unfold even_inv. destruct ro as [key p| |e].
      + destruct (rr_lead c Hc _ _ _ Hev Hnd G2 _ _ _ _ _ _ Err ltac:(discriminate) G4) as [L1 _].
        destruct Hro as [(g' & -> & -> & -> & ->)|(-> & ->)]; [congruence|].
        exfalso. destruct (ab_outs _ _ _ _ Ha' (NErr AssertionError)) as [[x Hx]|[Hx|Hx]]; try discriminate. apply in_or_app; cbn; auto.
      + destruct (rr_lead c Hc _ _ _ Hev Hnd G2 _ _ _ _ _ _ Err ltac:(discriminate) G4) as [_ L2].
        destruct Hro as [-> ->]. right. rewrite <- Hv. apply L2. reflexivity.
      + destruct Hro as [-> ->]. left. apply in_or_app. right.
        destruct (ab_outs _ _ _ _ Ha' (NErr e)) as [[x Hx]|[Hx|Hx]]; try discriminate; [apply in_or_app; cbn; auto|].
        injection Hx as ->. cbn; auto.
    - intros Hv01 Hfu E. specialize (Hof E). subst ro. revert Err.
      destruct G4 as [G4 G4']. eapply (rr_even_terminates c Hc order _ (Z.of_nat (length order)) eq_refl Hev Hnd G2).
      + apply (Nat.le_sub_l (length order)).
      + exact Hfu.
      + exact G5.
      + exact G4.
      + exact G4'.
      + rewrite Hv. exact Hv01.
  Qed.

  Lemma even_run fuel v ops : forall q os q' os', Forall (fun o => const_heap (op_heap o)) ops ->
    qinv idx order q os -> kidinv idx q -> arb idx order q os -> even_inv v q os -> qrun (S fuel) ops q = (q', os') ->
    even_inv v q' (os ++ os')
    /\ ((v = 0 \/ v = 1) -> (length order * length order <= S fuel)%nat -> ~ In (NErr OutOfFuel) os').
  Proof using Hix Hord Hev Hc.
    induction ops as [|[h|h r] ops IH]; intros q os q' os' Hh Hq Hk Ha Hv H; cbn [qrun] in H.
    - injection H as <- <-. rewrite app_nil_r. auto.
    - inversion Hh as [|? ? H1 H2]; subst. cbn in H1. destruct (qr_next (S fuel) h q) as [q1 o] eqn:E. destruct (qrun (S fuel) ops q1) as [q2 os2] eqn:E2.
      injection H as <- <-. pose proof (const_arbitrary h H1) as Hha. pose proof (arbitrary_heap_ok h Hha) as Hho.
      destruct (even_next fuel v h q os q1 o H1 Hq Hk Ha Hv E) as [V1 V2].
      destruct (IH q1 (os ++ [o]) q2 os2 H2) as [R1 R2]; [| | |exact V1|exact E2|].
      + apply (qnext_inv idx order Hix (S fuel) h q os q1 o Hho Hq E).
      + eapply kidinv_next; eauto.
      + eapply arb_next; eauto.
      + rewrite <- app_assoc in R1. split; [exact R1|]. intros Hv01 Hfu [->|Hin]; [apply (V2 Hv01 Hfu eq_refl)|apply (R2 Hv01 Hfu Hin)].
    - inversion Hh as [|? ? H1 H2]; subst.
      eapply IH; [exact H2|apply qupdate_inv, Hq|apply kidinv_update, Hk|apply arb_update, Ha|exact Hv|exact H].
  Qed.
End EvenRun.
