(** The while loop of one attempt. *)
From Verif Require Import Base MixtureKeyModel MixtureKeyProofs UtilsModel UtilsProofs ChunkGenModel SpecChunk ChunkGenProofs1
  ChunkGenProofs2.
From Coq Require Import QArith Lqa ZifyBool ZifyNat.
Open Scope Z_scope.

Definition exhausted (ck : mkey) (cs : list (mkey * list frange)) : Prop :=
  forall st, aget mkey_eqb ck cs = Some st -> frows st = [].
(** No component matching [mk] has rows left. *)
Definition dry (mk : mkey) (cs : list (mkey * list frange)) : Prop :=
  forall ck, In ck (map fst cs) -> key_eq mk ck = true -> exhausted ck cs.

Lemma take1_keys mks x y : take1 mks x y -> map fst (fst y) = map fst (fst x).
Proof.
  intros H. destruct H as [mk ck cs ch st n p st' Hin Hk Hg Hn Hs]. cbn.
  rewrite akeys_aset. unfold amem. rewrite Hg. reflexivity.
Qed.
Lemma takes_keys mks x y : takes mks x y -> map fst (fst y) = map fst (fst x).
Proof. induction 1 as [|x y z _ IH H]; [reflexivity|]. rewrite (take1_keys _ _ _ H). exact IH. Qed.

Lemma take1_exhausted mks x y ck : take1 mks x y -> exhausted ck (fst x) -> exhausted ck (fst y).
Proof.
  intros H Hx. destruct H as [mk ck' cs ch st n p st' Hin Hk Hg Hn Hs]. cbn in *. intros st1 H1.
  rewrite (aget_aset _ mkey_eqb_spec) in H1. destruct (mkey_eqb ck' ck) eqn:E; [|apply Hx, H1].
  apply mkey_eqb_spec in E. subst. injection H1 as <-. specialize (Hx _ Hg).
  destruct (comp_send_spec _ _ _ _ Hs Hn) as (tk & Htk & _). rewrite Hx in Htk. symmetry in Htk.
  apply app_eq_nil in Htk. tauto.
Qed.
Lemma takes_exhausted mks x y ck : takes mks x y -> exhausted ck (fst x) -> exhausted ck (fst y).
Proof. induction 1 as [|x y z _ IH H]; [auto|]. intros Hx. eapply take1_exhausted; [exact H|auto]. Qed.
Lemma takes_dry mks x y mk : takes mks x y -> dry mk (fst x) -> dry mk (fst y).
Proof.
  intros H Hd ck Hin Hk. rewrite (takes_keys _ _ _ H) in Hin. eapply takes_exhausted; [exact H|]. apply Hd; assumption.
Qed.

(** After offering [mk] to components [cks]: filled, or those that match are exhausted. *)
Lemma serve_filled mix0 mk cks : forall a a',
  serve mk cks a = Ok a' -> ainv mix0 a -> In mk (map fst (a_rem a)) ->
  lookup0 mk (a_rem a') = 0 \/ (forall ck, In ck cks -> key_eq mk ck = true -> exhausted ck (a_comps a')).
Proof.
  induction cks as [|ck cks IH]; intros a a' H Ha Hin; [right; intros ck []|].
  rewrite serve_cons in H. destruct (key_eq mk ck) eqn:Ek.
  2:{ destruct (IH _ _ H Ha Hin) as [E|E]; [left; exact E|right]. intros c [<-|Hc]; [congruence|apply E, Hc]. }
  destruct (aget mkey_eqb ck (a_comps a)) as [st|] eqn:Eg; [|discriminate].
  pose proof (ai_pos _ _ Ha mk) as Hn.
  destruct (comp_send st (lookup0 mk (a_rem a))) as [[p st']|] eqn:Es.
  - destruct (lookup0 mk (a_rem a) <? part_size p) eqn:El; [discriminate|].
    destruct (lookup0 mk (a_rem (upd mk ck p st' a)) =? 0) eqn:E0.
    { injection H as <-. left. lia. }
    assert (Ha1 : ainv mix0 (upd mk ck p st' a)) by (eapply upd_ainv; eassumption).
    assert (Hin1 : In mk (map fst (a_rem (upd mk ck p st' a)))) by (cbn; rewrite akeys_aset_in by exact Hin; exact Hin).
    destruct (IH _ _ H Ha1 Hin1) as [E|E]; [left; exact E|right].
    intros c [<-|Hc]; [intros _|apply E, Hc].
    apply (takes_exhausted [mk] (acc_ (upd mk ck p st' a)) (acc_ a')).
    { apply serve_takes with cks; [exact H|apply (ai_pos _ _ Ha1)]. }
    cbn. intros st1 H1. rewrite (aget_aset_same _ mkey_eqb_spec) in H1. injection H1 as <-.
    destruct (comp_send_spec _ _ _ _ Es Hn) as (tk & Htk & Hp & Hok & [Hl|Hl]); [|tauto].
    exfalso. cbn [upd a_rem] in E0. rewrite lookup0_aset, mkey_eqb_refl, part_size_rows, (Permutation_length Hp) in E0 by exact Hok. lia.
  - destruct (IH _ _ H Ha Hin) as [E|E]; [left; exact E|right].
    intros c [<-|Hc]; [intros _|apply E, Hc].
    apply (takes_exhausted [mk] (acc_ a) (acc_ a')).
    { apply serve_takes with cks; [exact H|exact Hn]. }
    cbn. intros st1 H1. rewrite Eg in H1. injection H1 as <-. apply (comp_send_none _ _ Es).
Qed.

Lemma zsum_dict_eq (A B : list (mkey * Z)) : NoDup (map fst A) -> NoDup (map fst B) ->
  (forall k, lookup0 k A = lookup0 k B) -> zsum (map snd A) = zsum (map snd B).
Proof.
  revert B. induction A as [|[k v] A IH]; intros B HA HB H.
  - cbn. assert (Hz : forall b, In b (map snd B) -> b = 0).
    { intros b Hb. apply in_map_iff in Hb as ([k b'] & E & Hin). cbn in E. subst.
      pose proof (in_aget _ mkey_eqb_spec k b B HB Hin) as E. specialize (H k). unfold lookup0 in H. rewrite E in H. cbn in H. lia. }
    clear - Hz. induction (map snd B) as [|b l IH]; [reflexivity|]. rewrite zsum_cons, <- IH by (intros; apply Hz; cbn; auto).
    rewrite (Hz b) by (cbn; auto). reflexivity.
  - cbn in HA. inversion HA as [|? ? Hni HA']; subst. cbn [map snd]. rewrite zsum_cons.
    assert (Hk : lookup0 k B = v). { rewrite <- H. unfold lookup0. cbn. rewrite mkey_eqb_refl. reflexivity. }
    rewrite (IH (adel mkey_eqb k B)).
    + destruct (aget mkey_eqb k B) as [v'|] eqn:E.
      * rewrite (zsum_adel_in _ _ _ E). unfold lookup0 in Hk. rewrite E in Hk. lia.
      * unfold lookup0 in Hk. rewrite E in Hk. subst v.
        assert (Hd : adel mkey_eqb k B = B).
        { clear - E. induction B as [|[k' v'] B IHB]; [reflexivity|]. cbn in *. destruct (mkey_eqb k k'); [discriminate|]. rewrite IHB by exact E. reflexivity. }
        rewrite Hd. lia.
    + exact HA'.
    + apply NoDup_akeys_adel, HB.
    + intros k'. destruct (mkey_eq_dec k k') as [<-|Hne].
      * rewrite lookup0_notin by exact Hni. unfold lookup0. rewrite (aget_adel_same _ mkey_eqb_spec) by exact HB. reflexivity.
      * unfold lookup0 at 2. rewrite (aget_adel_other _ mkey_eqb_spec) by exact Hne. fold (lookup0 k' B). rewrite <- H.
        unfold lookup0. cbn. rewrite mkey_eqb_neq by congruence. reflexivity.
Qed.

Lemma all_rows_length (c : index) : Z.of_nat (length (all_rows c)) = zsum (map snd (map (fun kp => (fst kp, Z.of_nat (length (rows_of (snd kp))))) c)).
Proof.
  unfold all_rows. induction c as [|[k p] c IH]; [reflexivity|]. cbn [flat_map map snd]. rewrite app_length, Nat2Z.inj_add, zsum_cons, IH. reflexivity.
Qed.

Lemma lookup0_sizes k (c : index) : lookup0 k (map (fun kp => (fst kp, Z.of_nat (length (rows_of (snd kp))))) c) = ksize k c.
Proof.
  unfold lookup0, ksize, kpart. induction c as [|[k' p] c IH]; cbn; [reflexivity|].
  destruct (mkey_eqb k k'); [reflexivity|exact IH].
Qed.


Lemma zsum_over_keys (l : list (mkey * Z)) K : NoDup (map fst l) -> NoDup K -> incl (map fst l) K ->
  zsum (map snd l) = zsum (map (fun k => lookup0 k l) K).
Proof.
  intros Hl HK Hi. rewrite (zsum_dict_eq l (map (fun k => (k, lookup0 k l)) K) Hl).
  - rewrite map_map. reflexivity.
  - rewrite map_map. cbn. rewrite map_id. exact HK.
  - intros k. destruct (in_dec mkey_eq_dec k K) as [Hk|Hk].
    + assert (E : aget mkey_eqb k (map (fun k => (k, lookup0 k l)) K) = Some (lookup0 k l)).
      { apply (in_aget _ mkey_eqb_spec); [rewrite map_map; cbn; rewrite map_id; exact HK|]. apply (in_map (fun k => (k, lookup0 k l))) in Hk. exact Hk. }
      unfold lookup0 at 2. rewrite E. reflexivity.
    + rewrite (lookup0_notin k l) by (intros H; apply Hk, Hi, H).
      rewrite lookup0_notin; [reflexivity|]. rewrite map_map. cbn. rewrite map_id. exact Hk.
Qed.

(** Rows taken plus rows still missing make up the chunk. *)
Lemma ainv_total mix0 a : NoDup (map fst mix0) -> ainv mix0 a ->
  Z.of_nat (length (all_rows (a_chunk a))) + zsum (map snd (a_rem a)) = zsum (map snd mix0).
Proof.
  intros Hnd [H1 H2 H3 H4 H5 H6 H7 H8 H9]. rewrite all_rows_length, <- H9.
  set (sizes := map (fun kp : mkey * part => (fst kp, Z.of_nat (length (rows_of (snd kp))))) (a_chunk a)).
  assert (Hsz : map fst sizes = map fst (a_chunk a)) by (unfold sizes; rewrite map_map; reflexivity).
  rewrite (zsum_over_keys sizes (map fst mix0)), (zsum_over_keys (a_rem a) (map fst mix0)), (zsum_over_keys (a_mix a) (map fst mix0)); auto.
  - clear Hnd H5 H6. induction (map fst mix0) as [|k K IH]; [reflexivity|]. cbn [map]. rewrite !zsum_cons.
    replace (lookup0 k sizes) with (ksize k (a_chunk a)) by (symmetry; apply lookup0_sizes). pose proof (H8 k). lia.
  - intros k Hk. apply H5, H4, Hk.
  - rewrite Hsz. exact H3.
  - rewrite Hsz. exact H6.
Qed.
Lemma rem_sum_ge mix0 a mk : ainv mix0 a -> In mk (map fst (a_rem a)) -> lookup0 mk (a_rem a) <= zsum (map snd (a_rem a)).
Proof.
  intros Ha Hin. assert (Hpos : Forall (fun v => 0 <= v) (map snd (a_rem a))).
  { rewrite Forall_map. apply Forall_forall. intros [k v] Hkv. cbn. pose proof (ai_pos _ _ Ha k) as Hp.
    unfold lookup0 in Hp. rewrite (in_aget _ mkey_eqb_spec k v _ (ai_rem _ _ Ha) Hkv) in Hp. exact Hp. }
  apply lookup0_in in Hin. apply (aget_in _ mkey_eqb_spec) in Hin. revert Hin Hpos.
  generalize (lookup0 mk (a_rem a)). clear. induction (a_rem a) as [|[k' v'] l IH]; intros v []; intros Hpos; cbn [map] in *; rewrite zsum_cons; inversion Hpos as [|? ? P1 P2]; subst; cbn in *.
  - injection H as -> ->. pose proof (zsum_nonneg _ P2). lia.
  - specialize (IH v H P2). lia.
Qed.

(** ** One pass over the keys *)
Inductive pass_out (mix0 : list (mkey * Z)) (strict : bool) (mks : list mkey) (a : att) : res att -> Prop :=
| po_full a' : takes (map fst mix0) (acc_ a) (acc_ a') -> ainv mix0 a' -> a_mix a' = a_mix a ->
    map fst (a_rem a') = map fst (a_rem a) ->
    (forall mk, In mk mks -> lookup0 mk (a_rem a') = 0 \/ (strict = true /\ dry mk (a_comps a'))) ->
    (forall mk, In mk (map fst (a_rem a)) -> lookup0 mk (a_rem a) = 0 -> lookup0 mk (a_rem a') = 0) ->
    pass_out mix0 strict mks a (Ok a')
| po_be mk a' : strict = false -> takes (map fst mix0) (acc_ a) (acc_ a') -> ainv mix0 a' -> a_prog a' = true -> a_rem a' <> [] ->
    (length (a_rem a') < length (a_rem a))%nat -> dry mk (a_comps a') ->
    (forall k, In k (map fst (a_rem a)) -> k = mk \/ In k (map fst (a_rem a'))) ->
    (forall k, In k (map fst (a_rem a')) -> In k (map fst (a_rem a)) /\ lookup0 k (a_mix a) <= lookup0 k (a_mix a')) ->
    pass_out mix0 strict mks a (Ok a')
| po_end mk a' : strict = false -> takes (map fst mix0) (acc_ a) (acc_ a') -> a_rem a' = [] -> dry mk (a_comps a') ->
    (forall k, In k (map fst (a_rem a)) -> k = mk) -> Z.of_nat (length (all_rows (a_chunk a'))) < zsum (map snd mix0) ->
    pass_out mix0 strict mks a (Ok a')
| po_zero : strict = false -> (exists k, In k (map fst (a_rem a)) /\ lookup0 k (a_mix a) = 0) -> pass_out mix0 strict mks a (Err ZeroDivisionError).

Lemma serve_keys_pass mix0 strict cks mks : NoDup (map fst mix0) -> forall a,
  ainv mix0 a -> (forall mk, In mk mks -> In mk (map fst (a_rem a))) ->
  (forall ck, In ck cks <-> In ck (map fst (a_comps a))) ->
  pass_out mix0 strict mks a (serve_keys strict cks mks a).
Proof.
  intros Hnd0.
  induction mks as [|mk mks IH]; intros a Ha Hin Hcks; cbn [serve_keys].
  - apply po_full; auto; [apply takes_refl|intros mk []].
  - assert (Hmk : In mk (map fst (a_rem a))) by (apply Hin; cbn; auto).
    destruct (serve_no_err mix0 mk cks a Ha Hmk) as (a1 & E1 & Hck1); [intros; apply Hcks; auto|].
    rewrite E1. pose proof (ai_pos _ _ Ha mk) as Hn.
    assert (Ha1 : ainv mix0 a1) by (eapply serve_ainv; eassumption).
    destruct (serve_rem mk cks a a1 E1 Hn Hmk) as (Hr1 & Hr2 & Hr3).
    pose proof (serve_takes _ _ _ _ E1 Hn) as Ht1. pose proof (serve_mix _ _ _ _ E1 Hn) as Hm1.
    assert (Ht1' : takes (map fst mix0) (acc_ a) (acc_ a1)).
    { eapply takes_mono; [|exact Ht1]. intros k [<-|[]]. apply (ai_m0 _ _ Ha), (ai_rm _ _ Ha), Hmk. }
    assert (Hfill : lookup0 mk (a_rem a1) = 0 \/ dry mk (a_comps a1)).
    { destruct (serve_filled mix0 mk cks a a1 E1 Ha Hmk) as [E|E]; [left; exact E|right].
      intros ck Hc Hk. apply E; [|exact Hk]. apply Hcks. rewrite <- Hck1. exact Hc. }
    assert (Hcks1 : forall ck, In ck cks <-> In ck (map fst (a_comps a1))) by (intros; rewrite Hck1; apply Hcks).
    assert (Hin1 : forall k, In k mks -> In k (map fst (a_rem a1))) by (intros; rewrite Hr1; apply Hin; cbn; auto).
    assert (Hcont : (lookup0 mk (a_rem a1) = 0 \/ strict = true) ->
                    pass_out mix0 strict (mk :: mks) a (serve_keys strict cks mks a1)).
    { intros Hor. specialize (IH a1 Ha1 Hin1 Hcks1).
      inversion IH as [a' T A M R F Z Eq|k a' S T A Pr Nn L D K K2 Eq|k a' S T A D K Sz Eq|S K2 Eq].
      - apply po_full; auto.
        + eapply takes_trans; eassumption.
        + congruence.
        + congruence.
        + intros k [<-|Hk]; [|apply F, Hk]. destruct (Z.eq_dec (lookup0 mk (a_rem a1)) 0) as [E0|E0].
          * left. apply Z; [rewrite Hr1; exact Hmk|exact E0].
          * right. destruct Hor as [?|Hs]; [contradiction|]. split; [exact Hs|].
            destruct Hfill as [?|Hd]; [contradiction|].
            change (a_comps a') with (fst (acc_ a')). eapply takes_dry; [exact T|exact Hd].
        + intros k Hk Hk0. apply Z; [rewrite Hr1; exact Hk|].
          destruct (mkey_eq_dec k mk) as [-> |Hne]; [lia|]. rewrite Hr2 by exact Hne. exact Hk0.
      - eapply po_be; eauto.
        + eapply takes_trans; eassumption.
        + rewrite <- (map_length fst (a_rem a)), <- Hr1, map_length. exact L.
        + intros k' Hk'. apply K. rewrite Hr1. exact Hk'.
        + intros k' Hk'. rewrite <- Hr1, <- Hm1. apply K2, Hk'.
      - eapply po_end; eauto.
        + eapply takes_trans; eassumption.
        + intros k' Hk'. apply K. rewrite Hr1. exact Hk'.
      - apply po_zero; [exact S|]. rewrite <- Hr1, <- Hm1. exact K2. }
    destruct (0 <? lookup0 mk (a_rem a1)) eqn:E0.
    2:{ apply Hcont. left. lia. }
    destruct strict; [apply Hcont; auto|]. clear Hcont IH.
    destruct Hfill as [E|Hd]; [lia|].
    assert (Hmk1 : In mk (map fst (a_rem a1))) by (rewrite Hr1; exact Hmk).
    assert (Hbe := best_effort_cases mix0 mk a1 Ha1 Hmk1 ltac:(lia)).
    inversion Hbe as [a' R C Ch P K Eq|(k0 & K1 & K2 & K3) Eq|a' A C Ch P K L N K2 Eq].
    + eapply po_end with (mk := mk); auto.
      * unfold acc_. rewrite C, Ch. exact Ht1'.
      * rewrite C. exact Hd.
      * intros k Hk. apply K. rewrite Hr1. exact Hk.
      * rewrite Ch. pose proof (ainv_total mix0 a1 Hnd0 Ha1). pose proof (rem_sum_ge mix0 a1 mk Ha1 Hmk1). lia.
    + apply po_zero; [reflexivity|]. exists k0. rewrite <- Hr1, <- Hm1. auto.
    + eapply po_be with (mk := mk); auto.
      * unfold acc_. rewrite C, Ch. exact Ht1'.
      * rewrite <- (map_length fst (a_rem a)), <- Hr1, map_length. exact L.
      * rewrite C. exact Hd.
      * intros k Hk. destruct (mkey_eq_dec k mk) as [|Hne]; [auto|right]. apply K. rewrite Hr1. auto.
      * intros k Hk. rewrite <- Hr1, <- Hm1. split; [apply K, Hk|apply K2, Hk].
Qed.

Lemma ainv_prog mix0 a b : ainv mix0 a -> ainv mix0 (mkAtt (a_comps a) (a_chunk a) (a_rem a) (a_mix a) b).
Proof. intros [H1 H2 H3 H4 H5 H6 H7 H8 H9]. constructor; assumption. Qed.

Lemma existsb_rem_false l : existsb (fun kv : mkey * Z => negb (snd kv =? 0)) l = false <-> Forall (fun kv => snd kv = 0) l.
Proof.
  induction l as [|[k v] l IH]; cbn; [split; auto|].
  rewrite orb_false_iff, IH. split.
  - intros [H1 H2]. constructor; [cbn; lia|exact H2].
  - intros H. inversion H as [|? ? H1 H2]; subst. cbn in H1. split; [lia|exact H2].
Qed.

Lemma rem_zero_lookup l : NoDup (map fst l) -> (Forall (fun kv : mkey * Z => snd kv = 0) l <-> forall k, In k (map fst l) -> lookup0 k l = 0).
Proof.
  intros Hnd. split.
  - intros H k Hk. apply lookup0_in in Hk. apply (aget_in _ mkey_eqb_spec) in Hk. rewrite Forall_forall in H.
    apply (H _ Hk).
  - intros H. apply Forall_forall. intros [k v] Hin. cbn.
    pose proof (in_aget _ mkey_eqb_spec k v l Hnd Hin) as E. pose proof (H k) as Hk. unfold lookup0 in Hk. rewrite E in Hk.
    apply Hk. apply (in_map fst) in Hin. exact Hin.
Qed.

Definition covered (mix0 : list (mkey * Z)) (a : att) : Prop :=
  forall k, In k (map fst mix0) -> In k (map fst (a_rem a)) \/ dry k (a_comps a).

Inductive att_out (mix0 : list (mkey * Z)) (strict : bool) (a : att) : res att -> Prop :=
| ao_ok a' : takes (map fst mix0) (acc_ a) (acc_ a') -> ainv mix0 a' ->
    (strict = true -> a_mix a' = a_mix a /\ map fst (a_rem a') = map fst (a_rem a)) ->
    (forall k, lookup0 k (a_rem a') = 0) -> (strict = false -> covered mix0 a') -> (a_rem a <> [] -> a_rem a' <> []) -> att_out mix0 strict a (Ok a')
| ao_fail a' mk : takes (map fst mix0) (acc_ a) (acc_ a') -> ainv mix0 a' -> strict = true ->
    In mk (map fst (a_rem a')) -> 0 < lookup0 mk (a_rem a') -> dry mk (a_comps a') ->
    a_mix a' = a_mix a -> map fst (a_rem a') = map fst (a_rem a) -> att_out mix0 strict a (Ok a')
| ao_none a' : takes (map fst mix0) (acc_ a) (acc_ a') -> strict = false -> a_rem a' = [] ->
    (forall k, In k (map fst mix0) -> dry k (a_comps a')) ->
    (a_rem a <> [] -> Z.of_nat (length (all_rows (a_chunk a'))) < zsum (map snd mix0)) -> att_out mix0 strict a (Ok a')
| ao_zero : strict = false -> (exists k, In k (map fst (a_rem a)) /\ lookup0 k (a_mix a) = 0) -> att_out mix0 strict a (Err ZeroDivisionError).

(** Best effort *)
Lemma attempt_loop_be mix0 fuel : NoDup (map fst mix0) -> forall a,
  ainv mix0 a -> covered mix0 a -> a_prog a = true -> (length (a_rem a) <= fuel)%nat ->
  att_out mix0 false a (attempt_loop fuel false a).
Proof.
  intros Hnd0.
  induction fuel as [|fuel IH]; intros a Ha Hcov Hp Hf; cbn [attempt_loop]; rewrite Hp; cbn [andb].
  - destruct (a_rem a) as [|kv r] eqn:Er; [|cbn in Hf; lia]. cbn [existsb].
    apply ao_none; auto; [apply takes_refl| |congruence]. intros k Hk. destruct (Hcov k Hk) as [H|H]; [|exact H].
    rewrite Er in H. destruct H.
  - destruct (existsb _ (a_rem a)) eqn:Ee.
    2:{ apply existsb_rem_false in Ee. apply ao_ok; [apply takes_refl|exact Ha|discriminate| |auto|auto].
        intros k. destruct (in_dec mkey_eq_dec k (map fst (a_rem a))) as [Hk|Hk]; [|apply lookup0_notin, Hk].
        apply (proj1 (rem_zero_lookup _ (ai_rem _ _ Ha)) Ee k Hk). }
    set (a0 := mkAtt (a_comps a) (a_chunk a) (a_rem a) (a_mix a) false).
    assert (Ha0 : ainv mix0 a0) by (apply ainv_prog, Ha).
    assert (Hcks : forall ck, In ck (ksort (map fst (a_comps a))) <-> In ck (map fst (a_comps a0))).
    { intros ck. cbn. split; apply Permutation_in; [|symmetry]; apply ksort_perm. }
    assert (Hmks : forall mk, In mk (ksort (map fst (a_rem a))) -> In mk (map fst (a_rem a0))).
    { intros mk. cbn. apply Permutation_in, ksort_perm. }
    pose proof (serve_keys_pass mix0 false _ _ Hnd0 a0 Ha0 Hmks Hcks) as Hps.
    inversion Hps as [a' T A M R F Z Eq|mk a' S T A Pr Nn L D K K2 Eq|mk a' S T R D K Sz Eq|S K2 Eq].
    + assert (Hz : forall k, lookup0 k (a_rem a') = 0).
      { intros k. destruct (in_dec mkey_eq_dec k (map fst (a_rem a'))) as [Hk|Hk]; [|apply lookup0_notin, Hk].
        destruct (F k) as [E|[E _]]; [|exact E|discriminate].
        rewrite R in Hk. cbn in Hk. apply (Permutation_in _ (Permutation_sym (ksort_perm _))), Hk. }
      assert (Ee' : existsb (fun kv => negb (snd kv =? 0)) (a_rem a') = false).
      { apply existsb_rem_false, rem_zero_lookup; [apply (ai_rem _ _ A)|intros; apply Hz]. }
      assert (Hcov' : covered mix0 a').
      { intros k Hk. destruct (Hcov k Hk) as [H|H]; [left; rewrite R; exact H|].
        right. change (a_comps a') with (fst (acc_ a')). eapply takes_dry; [exact T|exact H]. }
      destruct fuel; cbn [attempt_loop]; rewrite Ee', andb_false_r; (apply ao_ok; auto; try discriminate);
        intros Hne E; apply Hne; cbn in R; rewrite E in R; symmetry in R; apply map_eq_nil in R; exact R.
    + assert (Hcov' : covered mix0 a').
      { intros k Hk. destruct (Hcov k Hk) as [H|H].
        - destruct (K k H) as [-> |H']; auto.
        - right. change (a_comps a') with (fst (acc_ a')). eapply takes_dry; [exact T|exact H]. }
      assert (Hl' : (length (a_rem a') <= fuel)%nat) by (cbn in L; lia).
      specialize (IH a' A Hcov' Pr Hl').
      inversion IH as [b T2 A2 S2 Z2 C2 Nn2 Eq2|b k2 T2 A2 S2 I2 P2 D2 M2 R2 Eq2|b T2 S2 R2 D2 Sz2 Eq2|S2 K3 Eq2]; try discriminate.
      * apply ao_ok; auto; [eapply takes_trans; eassumption|discriminate].
      * apply ao_none; auto. eapply takes_trans; eassumption.
      * apply ao_zero; [reflexivity|]. destruct K3 as (k & Hk & Hz). exists k. destruct (K2 k Hk) as [K4 K5]. split; [exact K4|].
        cbn in K5. pose proof (ai_cnt _ _ Ha k). pose proof (ai_pos _ _ Ha k). unfold ksize in *. lia.
    + assert (Hd : forall k, In k (map fst mix0) -> dry k (a_comps a')).
      { intros k Hk. destruct (Hcov k Hk) as [H|H].
        - rewrite (K k H). exact D.
        - change (a_comps a') with (fst (acc_ a')). eapply takes_dry; [exact T|exact H]. }
      destruct fuel; cbn [attempt_loop]; rewrite R; cbn [existsb]; rewrite andb_false_r; apply ao_none; auto.
    + apply ao_zero; [reflexivity|exact K2].
Qed.

(** ** Strict: at most two passes *)
Lemma upd_quiet mix0 mk ck st p st' a :
  ainv mix0 a -> comp_send st (lookup0 mk (a_rem a)) = Some (p, st') -> aget mkey_eqb ck (a_comps a) = Some st ->
  key_eq mk ck = true -> lookup0 mk (a_rem a) = 0 \/ dry mk (a_comps a) -> part_size p = 0.
Proof.
  intros Ha Hs Hg Hk Hor. pose proof (ai_pos _ _ Ha mk) as Hn.
  destruct (comp_send_spec _ _ _ _ Hs Hn) as (tk & Htk & Hp & Hok & Hl).
  rewrite part_size_rows, (Permutation_length Hp) by exact Hok.
  destruct Hor as [E|Hd]; [lia|].
  assert (E : frows st = []).
  { apply (Hd ck); [|exact Hk|exact Hg]. apply (aget_in _ mkey_eqb_spec), (in_map fst) in Hg. exact Hg. }
  rewrite E in Htk. symmetry in Htk. apply app_eq_nil in Htk as [-> _]. reflexivity.
Qed.

Lemma serve_quiet mix0 mk cks a a' :
  serve mk cks a = Ok a' -> ainv mix0 a -> In mk (map fst (a_rem a)) ->
  lookup0 mk (a_rem a) = 0 \/ dry mk (a_comps a) -> a_prog a' = a_prog a.
Proof.
  intros H Ha Hin Hor.
  assert (Hr : ainv mix0 a' /\ In mk (map fst (a_rem a')) /\ a_prog a' = a_prog a
               /\ (lookup0 mk (a_rem a') = 0 \/ dry mk (a_comps a'))).
  { refine (serve_ind (fun x => ainv mix0 x /\ In mk (map fst (a_rem x)) /\ a_prog x = a_prog a
               /\ (lookup0 mk (a_rem x) = 0 \/ dry mk (a_comps x))) mk cks a a' H (ai_pos _ _ Ha mk) _ _); [auto|].
    intros ck st p st' x (Hx & Hxin & Hxp & Hxor) Hx0 Hk Hc Hg Hs Hle.
    pose proof (upd_quiet mix0 mk ck st p st' x Hx Hs Hg Hk Hxor) as Hz.
    split; [eapply upd_ainv; eassumption|]. split; [cbn; rewrite akeys_aset_in by exact Hxin; exact Hxin|].
    split; [cbn; rewrite Hz, orb_false_r; exact Hxp|].
    destruct Hxor as [E|Hd].
    - left. cbn. rewrite lookup0_aset, mkey_eqb_refl. lia.
    - right. change (a_comps (upd mk ck p st' x)) with (fst (acc_ (upd mk ck p st' x))).
      eapply (takes_dry [mk] (acc_ x)); [|exact Hd]. eapply takes_step; [apply takes_refl|].
      unfold acc_, upd; cbn. econstructor; eauto. cbn; auto. }
  tauto.
Qed.

Definition quiet (a : att) : Prop :=
  forall mk, In mk (map fst (a_rem a)) -> lookup0 mk (a_rem a) = 0 \/ dry mk (a_comps a).

Lemma serve_keys_quiet mix0 cks mks : forall a a',
  serve_keys true cks mks a = Ok a' -> ainv mix0 a -> (forall mk, In mk mks -> In mk (map fst (a_rem a))) ->
  (forall ck, In ck cks -> In ck (map fst (a_comps a))) ->
  quiet a -> a_prog a' = a_prog a.
Proof.
  induction mks as [|mk mks IH]; intros a a' H Ha Hin Hcks Hq; cbn [serve_keys] in H; [congruence|].
  assert (Hmk : In mk (map fst (a_rem a))) by (apply Hin; cbn; auto).
  destruct (serve_no_err mix0 mk cks a Ha Hmk Hcks) as (a1 & E1 & Hck1). rewrite E1 in H.
  assert (Ha1 : ainv mix0 a1) by (eapply serve_ainv; eassumption).
  pose proof (ai_pos _ _ Ha mk) as Hn.
  destruct (serve_rem mk cks a a1 E1 Hn Hmk) as (Hr1 & Hr2 & Hr3).
  pose proof (serve_quiet mix0 mk cks a a1 E1 Ha Hmk (Hq mk Hmk)) as Hp1.
  assert (Hq1 : quiet a1).
  { intros k Hk. rewrite Hr1 in Hk. destruct (Hq k Hk) as [E|E].
    - left. destruct (mkey_eq_dec k mk) as [-> |Hne]; [lia|]. rewrite Hr2; assumption.
    - right. change (a_comps a1) with (fst (acc_ a1)). eapply takes_dry; [eapply serve_takes; eassumption|exact E]. }
  rewrite <- Hp1. apply (IH a1 a'); auto.
  - destruct (0 <? lookup0 mk (a_rem a1)); exact H.
  - intros k Hk. rewrite Hr1. apply Hin. cbn; auto.
  - rewrite Hck1. exact Hcks.
Qed.

Lemma rem_dec (a : att) : NoDup (map fst (a_rem a)) ->
  {mk | In mk (map fst (a_rem a)) /\ lookup0 mk (a_rem a) <> 0} + {Forall (fun kv => snd kv = 0) (a_rem a)}.
Proof.
  intros Hnd. destruct (find (fun kv => negb (snd kv =? 0)) (a_rem a)) as [[k v]|] eqn:E.
  - left. exists k. apply find_some in E as [Hin Hv]. cbn in Hv.
    pose proof (in_aget _ mkey_eqb_spec k v _ Hnd Hin) as Eg. split; [apply (in_map fst) in Hin; exact Hin|].
    unfold lookup0. rewrite Eg. lia.
  - right. apply Forall_forall. intros kv Hin. pose proof (find_none _ _ E _ Hin) as H. cbn in H. lia.
Qed.

Lemma attempt_loop_strict mix0 fuel a : NoDup (map fst mix0) ->
  ainv mix0 a -> a_prog a = true -> att_out mix0 true a (attempt_loop (S (S fuel)) true a).
Proof.
  intros Hnd0 Ha Hp. cbn [attempt_loop]. rewrite Hp. cbn [andb].
  destruct (existsb _ (a_rem a)) eqn:Ee.
  2:{ apply existsb_rem_false in Ee. apply ao_ok; auto; [apply takes_refl| |discriminate].
      intros k. destruct (in_dec mkey_eq_dec k (map fst (a_rem a))) as [Hk|Hk]; [|apply lookup0_notin, Hk].
      apply (proj1 (rem_zero_lookup _ (ai_rem _ _ Ha)) Ee k Hk). }
  assert (Hpass : forall x, ainv mix0 x -> pass_out mix0 true (ksort (map fst (a_rem x))) (mkAtt (a_comps x) (a_chunk x) (a_rem x) (a_mix x) false)
            (serve_keys true (ksort (map fst (a_comps x))) (ksort (map fst (a_rem x))) (mkAtt (a_comps x) (a_chunk x) (a_rem x) (a_mix x) false))).
  { intros x Hx. apply serve_keys_pass; [exact Hnd0|apply ainv_prog, Hx| |].
    - intros mk. cbn. apply Permutation_in, ksort_perm.
    - intros ck. cbn. split; apply Permutation_in; [|symmetry]; apply ksort_perm. }
  assert (Hdone : forall x, takes (map fst mix0) (acc_ a) (acc_ x) -> ainv mix0 x -> quiet x -> a_mix x = a_mix a ->
            map fst (a_rem x) = map fst (a_rem a) -> att_out mix0 true a (Ok x)).
  { intros x T A Q M R. destruct (rem_dec x (ai_rem _ _ A)) as [(mk & Hin & Hne)|Hz].
    - pose proof (ai_pos _ _ A mk). destruct (Q mk Hin) as [?|Hd]; [contradiction|].
      eapply ao_fail with (mk := mk); auto. lia.
    - apply ao_ok; auto; [|discriminate|intros Hne E; apply Hne; rewrite E in R; symmetry in R; apply map_eq_nil in R; exact R]. intros k. destruct (in_dec mkey_eq_dec k (map fst (a_rem x))) as [Hk|Hk]; [|apply lookup0_notin, Hk].
      apply (proj1 (rem_zero_lookup _ (ai_rem _ _ A)) Hz k Hk). }
  pose proof (Hpass a Ha) as Hp1.
  inversion Hp1 as [a1 T A M R F Z Eq|k a1 S T A Pr Nn L D K K0 Eq|k a1 S T R D K Sz Eq|S K0 Eq]; try discriminate.
  assert (Hq1 : quiet a1).
  { intros mk Hmk. rewrite R in Hmk. cbn in Hmk. destruct (F mk) as [E|[_ E]]; auto.
    apply (Permutation_in _ (Permutation_sym (ksort_perm _))), Hmk. }
  destruct (a_prog a1 && existsb (fun kv => negb (snd kv =? 0)) (a_rem a1)) eqn:E1.
  2:{ apply Hdone; auto. }
  pose proof (Hpass a1 A) as Hp2.
  inversion Hp2 as [a2 T2 A2 M2 R2 F2 Z2 Eq2|k a2 S2 T2 A2 Pr2 Nn2 L2 D2 K2 K20 Eq2|k a2 S2 T2 R2 D2 K2 Sz2 Eq2|S2 K20 Eq2]; try discriminate.
  symmetry in Eq2. pose proof Eq2 as Eq3. apply (serve_keys_quiet mix0) in Eq3.
  - cbn in Eq3. destruct fuel; cbn [attempt_loop]; rewrite Eq3; cbn [andb]; apply Hdone.
    all: try (eapply takes_trans; [exact T|exact T2]); auto; try (cbn in *; congruence).
    all: intros mk Hmk; rewrite R2 in Hmk; cbn in Hmk; destruct (F2 mk) as [E|[_ E]]; auto;
      apply (Permutation_in _ (Permutation_sym (ksort_perm _))), Hmk.
  - apply ainv_prog, A.
  - intros mk. cbn. apply Permutation_in, ksort_perm.
  - intros ck. cbn. apply Permutation_in, ksort_perm.
  - exact Hq1.
Qed.

(** ** The whole attempt *)
Lemma ainv_init cs m : mixture_ok m -> ainv m (mkAtt cs [] m m true).
Proof.
  intros [Hnd Hpos]. constructor; cbn [a_rem a_mix a_chunk]; auto.
  - constructor.
  - apply incl_refl.
  - apply incl_refl.
  - intros k [].
  - intros k. unfold lookup0. destruct (aget mkey_eqb k m) as [v|] eqn:E; [|lia].
    apply (aget_in _ mkey_eqb_spec) in E. rewrite Forall_forall in Hpos. apply (Hpos _ E).
Qed.

Lemma run_attempt_out strict cs m :
  mixture_ok m -> att_out m strict (mkAtt cs [] m m true) (run_attempt strict cs m).
Proof.
  intros Hm. unfold run_attempt. pose proof (ainv_init cs m Hm) as Ha. destruct strict.
  - apply attempt_loop_strict; [apply Hm|exact Ha|reflexivity].
  - apply attempt_loop_be; [apply Hm|exact Ha| |reflexivity|cbn; lia]. intros k Hk. left. exact Hk.
Qed.

Lemma att_success_spec a : NoDup (map fst (a_rem a)) ->
  (att_success a = true <-> a_rem a <> [] /\ forall k, lookup0 k (a_rem a) = 0).
Proof.
  intros Hnd. unfold att_success. destruct (a_rem a) as [|kv r] eqn:E; [split; [discriminate|intros [H _]; contradiction]|].
  rewrite <- E in *. split.
  - intros H. split; [congruence|]. intros k.
    destruct (in_dec mkey_eq_dec k (map fst (a_rem a))) as [Hk|Hk]; [|apply lookup0_notin, Hk].
    apply rem_zero_lookup; auto. apply Forall_forall. intros x Hx. rewrite forallb_forall in H. specialize (H x Hx). lia.
  - intros [_ H]. apply forallb_forall. intros x Hx.
    pose proof (proj2 (rem_zero_lookup _ Hnd) (fun k _ => H k)) as Hf. rewrite Forall_forall in Hf. specialize (Hf x Hx). lia.
Qed.
