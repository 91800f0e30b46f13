(** Proofs about mixing the streams of a chunk: round robin over the keys (no windows). *)
From Verif Require Import Base MixtureKeyModel MixtureKeyProofs UtilsModel ChunkGenModel MixtureModel SpecRoundRobin RoundRobin TokenModel ResultChunkModel.
From Coq Require Import ZifyBool ZifyNat.
Local Open Scope nat_scope.

Lemma kmem_In k l : kmem k l = true <-> In k l.
Proof.
  unfold kmem. rewrite existsb_exists. split.
  - intros (x & Hx & E). apply mkey_eqb_spec in E. subst. exact Hx.
  - intros H. exists k. split; [exact H|]. apply mkey_eqb_spec. reflexivity.
Qed.
Lemma kmem_not_In k l : kmem k l = false <-> ~ In k l.
Proof. rewrite <- kmem_In. destruct (kmem k l); split; congruence. Qed.

Section Mix.
  Context {S : Type}.
  Variable kid : list (mkey * Z).
  Variable streams0 : list (mkey * stream S).
  Variable order : list mkey.
  Hypothesis Hkeys : NoDup (map fst streams0).
  Hypothesis Hperm : Permutation order (map fst streams0).
  Hypothesis Hkid : forall k, In k order -> exists i, aget mkey_eqb k kid = Some i.

  Definition id_of (k : mkey) : Z := match aget mkey_eqb k kid with Some i => i | None => 0%Z end.
  Definition items (k : mkey) : list S := match aget mkey_eqb k streams0 with Some s => fst s | None => [] end.
  Definition fin (k : mkey) : option exn := match aget mkey_eqb k streams0 with Some s => snd s | None => None end.
  Definition tagged (k : mkey) (l : list S) : list (Z * S) := map (pair (id_of k)) l.

  Lemma order_nodup : NoDup order.
  Proof. eapply Permutation_NoDup; [symmetry; exact Hperm|exact Hkeys]. Qed.
  Lemma order_len : length order = length streams0.
  Proof. rewrite (Permutation_length Hperm). apply map_length. Qed.
  Lemma streams0_get k : In k order -> aget mkey_eqb k streams0 = Some (items k, fin k).
  Proof.
    intros H. unfold items, fin. destruct (aget_some_in mkey_eqb mkey_eqb_spec k streams0) as ((l & f) & E).
    - eapply Permutation_in; [exact Hperm|exact H].
    - rewrite E. reflexivity.
  Qed.
  Lemma kid_get k : In k order -> aget mkey_eqb k kid = Some (id_of k).
  Proof. intros H. unfold id_of. destruct (Hkid k H) as (i & ->). reflexivity. Qed.

  (** Common part: [t k] are the (tagged) items of [k] handed out, relative to a position [pos k]. *)
  Record Core (out0 : list (Z * S)) (start : mkey -> list S) (t : mkey -> list (Z * S)) (st : itst S) : Prop := {
    co_out : it_out st = out0 ++ round_robin (map t order);
    co_keys : map fst (it_streams st) = map fst streams0;
    co_str : forall k, In k order -> exists rest, aget mkey_eqb k (it_streams st) = Some (rest, fin k)
                /\ t k ++ tagged k rest = tagged k (start k);
    co_nd : NoDup (it_deleted st);
    co_del : forall k, In k (it_deleted st) -> In k order /\ t k = tagged k (start k) /\ fin k = None }.

  Lemma core_init : Core [] items (fun _ => []) (mkIt streams0 [] []).
  Proof.
    split; cbn; try constructor; try reflexivity; try contradiction.
    - symmetry. apply rr_nil. reflexivity.
    - intros k Hk. exists (items k). split; [apply streams0_get, Hk|reflexivity].
  Qed.

  Lemma core_slen out0 start t st : Core out0 start t st -> length (it_streams st) = length order.
  Proof. intros H. rewrite order_len, <- (map_length fst), (co_keys _ _ _ _ H), map_length. reflexivity. Qed.

  Lemma core_alive out0 start t st : Core out0 start t st ->
    (Nat.ltb (length (it_deleted st)) (length (it_streams st)) = false <-> (forall k, In k order -> In k (it_deleted st))).
  Proof.
    intros H. rewrite Nat.ltb_ge, (core_slen _ _ _ _ H). split.
    - intros Hl. apply NoDup_length_incl; [apply (co_nd _ _ _ _ H)|exact Hl|].
      intros k Hk. apply (co_del _ _ _ _ H), Hk.
    - intros Hi. apply NoDup_incl_length; [apply order_nodup|exact Hi].
  Qed.

  (** One [yield]. *)
  Lemma core_yield out0 start t st o1 k o2 j :
    Core out0 start t st -> order = o1 ++ k :: o2 -> ~ In k (it_deleted st) ->
    (forall k', In k' o1 -> length (t k') <= Datatypes.S j) -> length (t k) = j ->
    (forall k', In k' o2 -> length (t k') <= j) ->
    match yield_next kid k st with
    | YOk st' => exists x, Core out0 start (fupd mkey_eqb k (id_of k, x) t) st' /\ it_deleted st' = it_deleted st
                   /\ Datatypes.S j <= length (start k)
    | YStop st' => Core out0 start t st' /\ it_deleted st' = k :: it_deleted st /\ j = length (start k)
    | YExn st' e => st' = st /\ fin k = Some e /\ t k = tagged k (start k)
    end.
  Proof.
    intros H Ho Hnd H1 Hj H2. pose proof order_nodup as Hon.
    assert (Hin : In k order) by (rewrite Ho; apply in_or_app; right; left; reflexivity).
    unfold yield_next. rewrite (kid_get k Hin).
    destruct (co_str _ _ _ _ H k Hin) as (rest & Hg & Ht). rewrite Hg.
    assert (Hget : forall k' s, In k' order -> aget mkey_eqb k' (aset mkey_eqb k s (it_streams st)) =
                     if mkey_eqb k k' then Some s else aget mkey_eqb k' (it_streams st)).
    { intros k' s _. apply (aget_aset _ mkey_eqb_spec). }
    assert (Hks : forall s, map fst (aset mkey_eqb k s (it_streams st)) = map fst streams0).
    { intros s. rewrite akeys_aset. unfold amem. rewrite Hg. apply (co_keys _ _ _ _ H). }
    assert (Hlen : length (t k) + length rest = length (start k)).
    { apply (f_equal (@length _)) in Ht. unfold tagged in Ht. rewrite app_length, !map_length in Ht. exact Ht. }
    destruct rest as [|a rest]; cbn [snext].
    - assert (Hfull : t k = tagged k (start k)) by (rewrite <- Ht; cbn; rewrite app_nil_r; reflexivity).
      destruct (fin k) as [e|] eqn:Ef; [auto|].
      split; [|split; [reflexivity|cbn in Hlen; lia]].
      split; cbn [it_out it_streams it_deleted]; auto.
      + apply (co_out _ _ _ _ H).
      + intros k' Hk'. rewrite Hget by exact Hk'. destruct (mkey_eqb k k') eqn:E.
        * apply mkey_eqb_spec in E. subst k'. exists []. rewrite Ef. auto.
        * apply (co_str _ _ _ _ H k' Hk').
      + constructor; [exact Hnd|apply (co_nd _ _ _ _ H)].
      + intros k' [<-|Hk']; [auto|]. apply (co_del _ _ _ _ H k' Hk').
    - exists a. split; [|split; [reflexivity|cbn in Hlen; lia]].
      split; cbn [it_out it_streams it_deleted]; auto.
      + rewrite (co_out _ _ _ _ H), <- app_assoc. f_equal. rewrite Ho. symmetry.
        apply rr_fupd with (j := j); [apply mkey_eqb_spec|rewrite <- Ho; exact Hon|exact H1|exact Hj|exact H2].
      + intros k' Hk'. rewrite Hget by exact Hk'. unfold fupd. destruct (mkey_eqb k k') eqn:E.
        * apply mkey_eqb_spec in E. subst k'. exists rest. split; [reflexivity|].
          rewrite <- app_assoc. exact Ht.
        * apply (co_str _ _ _ _ H k' Hk').
      + apply (co_nd _ _ _ _ H).
      + intros k' Hk'. destruct (co_del _ _ _ _ H k' Hk') as (D1 & D2 & D3). split; [exact D1|]. split; [|exact D3].
        unfold fupd. destruct (mkey_eqb k k') eqn:E; [|exact D2]. apply mkey_eqb_spec in E. subst. contradiction.
  Qed.

  (** ** Round robin *)
  Definition Ov (j : nat) (dn todo : list mkey) (t : mkey -> list (Z * S)) (st : itst S) : Prop :=
    Core [] items t st /\ order = dn ++ todo
    /\ (forall k, In k dn -> length (t k) <= Datatypes.S j /\ (~ In k (it_deleted st) -> length (t k) = Datatypes.S j))
    /\ (forall k, In k todo -> length (t k) <= j /\ (~ In k (it_deleted st) -> length (t k) = j)).

  Lemma ov_pass_spec j todo : forall dn t st st' r,
    Ov j dn todo t st -> ov_pass kid todo st = (st', r) ->
    match r with
    | None => exists t', Ov j order [] t' st'
    | Some e => exists k, In k order /\ fin k = Some e
    end.
  Proof.
    induction todo as [|k todo IH]; intros dn t st st' r (HC & Ho & H1 & H2) Hp; cbn [ov_pass] in Hp.
    - injection Hp as <- <-. exists t. rewrite app_nil_r in Ho. subst dn. split; [exact HC|]. rewrite app_nil_r. auto.
    - assert (Hon : NoDup (dn ++ k :: todo)) by (rewrite <- Ho; apply order_nodup).
      assert (Ho' : order = (dn ++ [k]) ++ todo) by (rewrite <- app_assoc; exact Ho).
      pose proof (NoDup_remove_2 _ _ _ Hon) as Hni. rewrite in_app_iff in Hni.
      destruct (H2 k (or_introl eq_refl)) as [Hkl Hkn].
      destruct (kmem k (it_deleted st)) eqn:Ed.
      + apply kmem_In in Ed. apply (IH (dn ++ [k]) t st); [|exact Hp]. split; [exact HC|]. split; [exact Ho'|]. split.
        * intros k' Hk'. apply in_app_or in Hk' as [Hk'|[<-|[]]]; [auto|]. split; [lia|tauto].
        * intros k' Hk'. apply H2. right. exact Hk'.
      + apply kmem_not_In in Ed. specialize (Hkn Ed).
        assert (HA : forall k', In k' dn -> length (t k') <= Datatypes.S j) by (intros k' Hk'; apply H1, Hk').
        assert (HB : forall k', In k' todo -> length (t k') <= j) by (intros k' Hk'; apply H2; right; exact Hk').
        pose proof (core_yield _ _ _ _ dn k todo j HC Ho Ed HA Hkn HB) as Hy.
        destruct (yield_next kid k st) as [st1|st1|st1 e].
        * destruct Hy as (x & HC1 & Hdel & _). apply (IH (dn ++ [k]) (fupd mkey_eqb k (id_of k, x) t) st1); [|exact Hp].
          split; [exact HC1|]. split; [exact Ho'|]. rewrite Hdel. split.
          -- intros k' Hk'. apply in_app_or in Hk' as [Hk'|[<-|[]]].
             ++ rewrite fupd_other by (apply mkey_eqb_spec || (intros ->; tauto)). auto.
             ++ rewrite fupd_same by apply mkey_eqb_spec. rewrite app_length. cbn. lia.
          -- intros k' Hk'. rewrite fupd_other by (apply mkey_eqb_spec || (intros ->; tauto)). apply H2. right. exact Hk'.
        * destruct Hy as (HC1 & Hdel & _). apply (IH (dn ++ [k]) t st1); [|exact Hp].
          split; [exact HC1|]. split; [exact Ho'|]. rewrite Hdel. split.
          -- intros k' Hk'. apply in_app_or in Hk' as [Hk'|[<-|[]]].
             ++ destruct (H1 k' Hk') as [L1 L2]. split; [exact L1|]. cbn. tauto.
             ++ split; [lia|]. cbn. tauto.
          -- intros k' Hk'. destruct (H2 k' (or_intror Hk')) as [L1 L2]. split; [exact L1|]. cbn. tauto.
        * injection Hp as _ <-. destruct Hy as (_ & Hf & _). exists k. split; [|exact Hf].
          rewrite Ho. apply in_or_app. right. left. reflexivity.
  Qed.

  Definition longest : nat := list_max (map (fun k => length (items k)) order).
  Lemma longest_ge k : In k order -> length (items k) <= longest.
  Proof.
    intros H. unfold longest. pose proof (proj1 (list_max_Forall (map (fun k => length (items k)) order) _) (Nat.le_refl _)) as HF.
    rewrite Forall_map, Forall_forall in HF. apply HF, H.
  Qed.

  Lemma core_alive_ex out0 start t st : Core out0 start t st ->
    Nat.ltb (length (it_deleted st)) (length (it_streams st)) = true -> exists k, In k order /\ ~ In k (it_deleted st).
  Proof.
    intros H Ha. destruct (existsb (fun k => negb (kmem k (it_deleted st))) order) eqn:E.
    - apply existsb_exists in E as (k & Hk & Hn). exists k. split; [exact Hk|]. apply kmem_not_In. destruct (kmem k _); [discriminate|reflexivity].
    - exfalso. assert (Nat.ltb (length (it_deleted st)) (length (it_streams st)) = false); [|congruence].
      apply (core_alive _ _ _ _ H). intros k Hk. apply kmem_In. destruct (kmem k (it_deleted st)) eqn:Ek; [reflexivity|].
      assert (Hex : existsb (fun k => negb (kmem k (it_deleted st))) order = true); [|congruence].
      apply existsb_exists. exists k. rewrite Ek. auto.
  Qed.

  Lemma ov_t_len t st k : Core [] items t st -> In k order -> length (t k) <= length (items k).
  Proof.
    intros H Hk. destruct (co_str _ _ _ _ H k Hk) as (rest & _ & Ht). apply (f_equal (@length _)) in Ht.
    unfold tagged in Ht. rewrite app_length, !map_length in Ht. lia.
  Qed.

  Lemma ov_loop_spec fuel : forall j t st st' r,
    Ov j [] order t st -> longest + 2 <= fuel + j -> j <= longest + 1 -> ov_loop fuel kid order st = (st', r) ->
    match r with
    | StopIter => it_out st' = round_robin (map (fun k => tagged k (items k)) order) /\ forall k, In k order -> fin k = None
    | Raise e => exists k, In k order /\ fin k = Some e
    | Yield _ => False
    end.
  Proof.
    induction fuel as [|fuel IH]; intros j t st st' r HO Hf Hj Hl; cbn [ov_loop] in Hl.
    - lia.
    - destruct (Nat.ltb (length (it_deleted st)) (length (it_streams st))) eqn:Ea.
      + destruct (ov_pass kid order st) as [st1 [e|]] eqn:Ep.
        * injection Hl as <- <-. exact (ov_pass_spec j order [] t st st1 (Some e) HO Ep).
        * pose proof (ov_pass_spec j order [] t st st1 None HO Ep) as (t' & HC & _ & H1 & _).
          assert (Hjl : j <= longest).
          { destruct HO as (HC0 & _ & _ & H2). destruct (core_alive_ex _ _ _ _ HC0 Ea) as (k & Hk & Hnd).
            destruct (H2 k Hk) as [_ E]. rewrite <- (E Hnd). etransitivity; [eapply ov_t_len; eassumption|apply longest_ge, Hk]. }
          apply (IH (Datatypes.S j) t' st1 st' r); [|lia|lia|exact Hl].
          split; [exact HC|]. split; [reflexivity|]. split; [intros k []|exact H1].
      + injection Hl as <- <-. destruct HO as (HC & _ & _ & H2).
        assert (Hall : forall k, In k order -> In k (it_deleted st)) by (apply (core_alive _ _ _ _ HC), Ea).
        split.
        * rewrite (co_out _ _ _ _ HC). cbn [app]. f_equal. apply map_ext_in. intros k Hk.
          apply (co_del _ _ _ _ HC k), Hall, Hk.
        * intros k Hk. apply (co_del _ _ _ _ HC k), Hall, Hk.
  Qed.

  Lemma ov_spec fuel st' r :
    longest + 2 <= fuel -> ov_loop fuel kid order (mkIt streams0 [] []) = (st', r) ->
    match r with
    | StopIter => it_out st' = round_robin (map (fun k => tagged k (items k)) order) /\ forall k, In k order -> fin k = None
    | Raise e => exists k, In k order /\ fin k = Some e
    | Yield _ => False
    end.
  Proof.
    intros Hf Hl. apply (ov_loop_spec fuel 0 (fun _ => []) (mkIt streams0 [] []) st' r); [|lia|lia|exact Hl].
    split; [apply core_init|]. split; [reflexivity|]. split; [intros k []|]. intros k Hk. cbn. auto.
  Qed.
End Mix.
