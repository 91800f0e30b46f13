From Verif Require Import Base MixtureKeyModel UtilsModel ChunkGenModel DistributorModel SpecDistributor ChunkerModel SerialModel SerialProofs HfModel SpecHf.
From Coq Require Import ZifyBool DecimalZ.
Open Scope Z_scope.

Lemma hf_slot q g n w0 p t : 0 <= g -> 0 <= n -> 0 <= qa_nw q -> place_ok p -> hf_process q g n w0 p = Ok (Some t) ->
  t = (g, n, own_worker p) /\ valid_slot (qa_dp q) (qa_nodes q) (eff_workers (qa_nw q)) g n (own_worker p).
Proof.
  intros Hg Hn Hnw [Hd Hw] H. unfold hf_process, hf_new in H. cbn [hf_g hf_n] in H.
  destruct ((g <? qa_dp q) && (n <? qa_nodes q)) eqn:E0; [|discriminate].
  unfold hf_iterate in H. destruct (hf_checks q p _) eqn:Ec; [|discriminate]. cbn [negb] in H.
  assert (Hself : hf_new q (HfIt g n w0 0) = Ok (HfIt g n w0 0)) by (unfold hf_new; cbn [hf_g hf_n]; rewrite E0; reflexivity).
  assert (Hsh : forall num i it it', hf_g it = g -> hf_n it = n -> hf_shard q num i it = Ok it' -> it' = HfIt g n i (hf_count it + 1)).
  { intros num i it it' E1 E2 Hs. unfold hf_shard, hf_new in Hs. cbn [hf_g hf_n] in Hs. destruct (_ || _); [|discriminate].
    rewrite E1, E2, E0 in Hs. congruence. }
  assert (Hn1 : exists it1, hf_by_node q p (HfIt g n w0 0) = Ok it1 /\ hf_g it1 = g /\ hf_n it1 = n /\ (hf_count it1 = 0 \/ hf_count it1 = 1)).
  { unfold hf_by_node in *. destruct (pl_dist p) as [[rank world]|].
    - destruct (hf_num_shards q mod world =? 0); [|eexists; repeat split; try reflexivity; left; reflexivity].
      destruct (hf_shard q world rank (HfIt g n w0 0)) as [it1|] eqn:E1; [|discriminate].
      pose proof (Hsh _ _ (HfIt g n w0 0) _ eq_refl eq_refl E1). subst it1. exists (HfIt g n rank (0 + 1)). repeat split; right; reflexivity.
    - eexists. repeat split; try reflexivity. left; reflexivity. }
  destruct Hn1 as (it1 & E1 & G1 & N1 & C1). rewrite E1 in H.
  unfold hf_by_worker in H.
  assert (K : forall it2 w, hf_g it2 = g -> hf_n it2 = n ->
     (if (- hf_num_workers q <=? w) && (w <? hf_num_workers q) then Ok (Some (hf_g it2, hf_n it2, w)) else Err IndexError) = Ok (Some t) ->
     w = own_worker p -> 0 <= w -> t = (g, n, own_worker p) /\ valid_slot (qa_dp q) (qa_nodes q) (eff_workers (qa_nw q)) g n (own_worker p)).
  { intros it2 w A B Hk Hw' Hp. rewrite A, B in Hk. destruct ((- hf_num_workers q <=? w) && (w <? hf_num_workers q)) eqn:E2; [|discriminate]. rewrite <- Hw'. assert (Ht : t = (g, n, w)) by congruence. rewrite Ht. clear Hw'.
    split; [reflexivity|]. unfold valid_slot, eff_workers, hf_num_workers in *. destruct (0 <? qa_nw q) eqn:E3; lia. }
  unfold own_worker in *. unfold torch_worker_id in *.
  destruct (pl_worker p) as [[id num]|] eqn:Ew.
  - destruct (id <? hf_num_shards q); [|discriminate].
    destruct (hf_shard q num id it1) as [it2|] eqn:E2; [|discriminate].
    pose proof (Hsh _ _ _ _ G1 N1 E2). subst it2. cbn [hf_g hf_n] in *.
    destruct (hf_validate q p _) as [w|] eqn:Ev; [|discriminate].
    assert (Hwid : w = id).
    { unfold hf_validate, torch_worker_id in Ev; rewrite Ew in Ev; cbn [hf_count hf_w hf_g] in Ev.
      destruct C1 as [C1|C1]; rewrite C1 in Ev; [|change (@Ok Z id = Ok w) in Ev; congruence].
      { change (0 + 1) with 1 in Ev. change (0 <? 1) with true in Ev; change (1 <=? 2) with true in Ev; change (1 =? 1) with true in Ev; cbn [negb] in Ev.
        destruct (qa_nw q =? 0); [destruct (id =? g); [|discriminate]|]; (destruct (id <? hf_num_workers q); [|discriminate]); cbv beta iota in Ev.
        + destruct (id =? 0) eqn:X; [|discriminate]. assert (w = 0) by congruence. lia.
        + rewrite Z.eqb_refl in Ev. congruence. } }
    apply (K (HfIt g n id (hf_count it1 + 1)) w eq_refl eq_refl H); lia.
  - destruct (hf_validate q p it1) as [w|] eqn:Ev; [|discriminate].
    assert (w = 0).
    { unfold hf_validate, torch_worker_id in Ev. rewrite Ew in Ev. destruct C1 as [C1|C1]; rewrite C1 in Ev; [discriminate|].
      change (0 <? 1) with true in Ev; change (1 <=? 2) with true in Ev; change (1 =? 1) with true in Ev; cbn [negb] in Ev.
        destruct (if qa_nw q =? 0 then _ else _) as [w'|]; [|discriminate]. destruct (0 <? hf_num_workers q); [|discriminate].  cbv beta iota in Ev.
        destruct (0 =? w') eqn:X; [|discriminate]. assert (w = w') by congruence. lia. }
    apply (K it1 w G1 N1 H); lia.
Qed.

Lemma shard_ok q g n w0 c num i : (num =? Z.max (qa_nw q) 1) || (num =? qa_dp q) = true -> g < qa_dp q -> n < qa_nodes q ->
  hf_shard q num i (HfIt g n w0 c) = Ok (HfIt g n i (c + 1)).
Proof.
  intros H1 H2 H3. unfold hf_shard. rewrite H1. unfold hf_new. cbn [hf_g hf_n hf_count].
  replace ((g <? qa_dp q) && (n <? qa_nodes q)) with true by lia. reflexivity.
Qed.

Lemma hf_starts q g n w w0 : 0 <= qa_nw q -> valid_slot (qa_dp q) (qa_nodes q) (eff_workers (qa_nw q)) g n w ->
  hf_process q g n w0 (as_registered q g w) = Ok (Some (g, n, w)).
Proof.
  intros Hnw (Hg & Hn & Hw). unfold hf_process, hf_new. cbn [hf_g hf_n].
  replace ((g <? qa_dp q) && (n <? qa_nodes q)) with true by lia.
  unfold hf_iterate, hf_checks, as_registered. cbn [pl_own negb].
  unfold hf_by_node. cbn [pl_dist].
  replace (hf_num_shards q mod qa_dp q =? 0) with true.
  2:{ symmetry. apply Z.eqb_eq. unfold hf_num_shards. replace (Z.max (qa_dp q) 1) with (qa_dp q) by lia.
      replace (Z.max (qa_nw q) 1 * qa_dp q * 8) with (Z.max (qa_nw q) 1 * 8 * qa_dp q) by ring. apply Z.mod_mul. lia. }
  rewrite shard_ok by (rewrite ?Z.eqb_refl, ?orb_true_r; lia || reflexivity).
  unfold hf_by_worker. cbn [pl_worker]. unfold eff_workers in Hw. destruct (0 <? qa_nw q) eqn:En.
  - assert (Hs : qa_nw q <= hf_num_shards q).
    { unfold hf_num_shards. assert (1 <= Z.max (qa_dp q) 1) by lia. assert (qa_nw q <= Z.max (qa_nw q) 1) by lia. nia. }
    replace (w <? hf_num_shards q) with true by lia.
    rewrite shard_ok by (first [lia | replace (qa_nw q =? Z.max (qa_nw q) 1) with true by lia; reflexivity]).
    unfold hf_validate. cbn [hf_count hf_w Z.add]. change (0 + 1 + 1) with 2. change (0 <? 2) with true; change (2 <=? 2) with true; change (2 =? 1) with false; cbn [negb].
    unfold hf_num_workers. replace ((- Z.max (qa_nw q) 1 <=? w) && (w <? Z.max (qa_nw q) 1)) with true by lia. reflexivity.
  - assert (w = 0) by lia. subst w. unfold hf_validate, torch_worker_id. cbn [hf_count hf_w hf_g pl_worker].
    change (0 + 1) with 1. change (0 <? 1) with true; change (1 <=? 2) with true; change (1 =? 1) with true; cbn [negb].
    replace (qa_nw q =? 0) with true by lia. rewrite Z.eqb_refl. unfold hf_num_workers.
    replace (0 <? Z.max (qa_nw q) 1) with true by lia. change (0 =? 0) with true. cbv beta iota. replace ((- Z.max (qa_nw q) 1 <=? 0) && (0 <? Z.max (qa_nw q) 1)) with true by lia. reflexivity.
Qed.

Lemma hf_unsplit own q n w w0 : qa_dp q = 1 -> 0 < qa_nw q -> valid_slot 1 (qa_nodes q) (qa_nw q) 0 n w ->
  hf_process q 0 n w0 (unsplit own q w) = Ok (Some (0, n, w)).
Proof.
  intros Hdp Hnw (Hg & Hn & Hw). unfold hf_process, hf_new. cbn [hf_g hf_n]. rewrite Hdp.
  replace ((0 <? 1) && (n <? qa_nodes q)) with true by lia.
  unfold hf_iterate, hf_checks, unsplit. cbn [pl_own pl_dist hf_g]. rewrite Hdp. change ((1 =? 1) && (0 =? 0)) with true. replace (negb (if negb own then true else true)) with false by (destruct own; reflexivity).
  unfold hf_by_node. cbn [pl_dist]. unfold hf_by_worker. cbn [pl_worker]. replace (0 <? qa_nw q) with true by lia.
  assert (Hs : qa_nw q <= hf_num_shards q). { unfold hf_num_shards. rewrite Hdp. lia. }
  replace (w <? hf_num_shards q) with true by lia.
  rewrite shard_ok by (first [lia | replace (qa_nw q =? Z.max (qa_nw q) 1) with true by lia; reflexivity]).
  unfold hf_validate, torch_worker_id. cbn [hf_count hf_w hf_g pl_worker]. change (0 + 1) with 1.
  change (0 <? 1) with true; change (1 <=? 2) with true; change (1 =? 1) with true; cbn [negb].
  replace (qa_nw q =? 0) with false by lia. unfold hf_num_workers. replace (w <? Z.max (qa_nw q) 1) with true by lia. cbn [andb negb]. rewrite (Z.eqb_refl w). cbv beta iota.
  replace ((- Z.max (qa_nw q) 1 <=? w) && (w <? Z.max (qa_nw q) 1)) with true by lia. reflexivity.
Qed.

(** ** Keys of samples *)
Lemma digits n c : 0 <= n -> In c (int_str n) -> c <> dash.
Proof.
  intros Hn. unfold int_str. destruct (Z.to_int n) as [d|d] eqn:E; intros H.
  - apply uint_str_digits in H. unfold dash. lia.
  - exfalso. destruct n; cbn in E; try discriminate. lia.
Qed.
Lemma dash_split (a b a' b' : str) : (forall c, In c a -> c <> dash) -> (forall c, In c a' -> c <> dash) ->
  a ++ dash :: b = a' ++ dash :: b' -> a = a' /\ b = b'.
Proof.
  revert a'. induction a as [|x a IH]; intros [|y a'] H H' E; cbn [app] in E.
  - split; congruence.
  - exfalso. apply (H' y); [left; reflexivity|congruence].
  - exfalso. apply (H x); [left; reflexivity|congruence].
  - destruct (IH a' ltac:(intros; apply H; right; assumption) ltac:(intros; apply H'; right; assumption)) as [E1 E2]; [congruence|]. split; congruence.
Qed.
Lemma sample_key_inj g n w i g' n' w' i' : 0 <= g -> 0 <= n -> 0 <= w -> 0 <= g' -> 0 <= n' -> 0 <= w' ->
  sample_key (g, n, w) i = sample_key (g', n', w') i' -> (g, n, w) = (g', n', w') /\ i = i'.
Proof.
  intros H1 H2 H3 H4 H5 H6 E. unfold sample_key in E.
  apply dash_split in E as [E1 E]; [|intros c; apply digits; assumption..].
  apply dash_split in E as [E2 E]; [|intros c; apply digits; assumption..].
  apply dash_split in E as [E3 E]; [|intros c; apply digits; assumption..].
  apply int_str_inj in E1, E2, E3, E. subst. auto.
Qed.
