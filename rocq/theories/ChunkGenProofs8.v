(** Component coroutine: exact order of the rows handed out (C07). *)
From Verif Require Import Base MixtureKeyModel MixtureKeyProofs UtilsModel UtilsProofs ChunkGenModel SpecChunk ChunkGenProofs1
  ChunkGenProofs2 ChunkGenProofs3 ChunkGenProofs4.
From Coq Require Import ZifyBool ZifyNat.
Open Scope Z_scope.

Lemma rows_of_app a b : rows_of (a ++ b) = rows_of a ++ rows_of b.
Proof. apply flat_map_app. Qed.
Lemma files_rows_app d (a b : list (Z * list range)) :
  flat_map (fun fr => flat_map (range_rows d (fst fr)) (snd fr)) (a ++ b)
  = flat_map (fun fr => flat_map (range_rows d (fst fr)) (snd fr)) a ++ flat_map (fun fr => flat_map (range_rows d (fst fr)) (snd fr)) b.
Proof. apply flat_map_app. Qed.

Lemma aset_last {V} k (v : V) a w : Forall (fun x => fst x < k) a ->
  aset Z.eqb k v (a ++ [(k, w)]) = a ++ [(k, v)] /\ aget Z.eqb k (a ++ [(k, w)]) = Some w.
Proof.
  induction 1 as [|[k' v'] a Hx _ [IH1 IH2]]; cbn.
  - rewrite Z.eqb_refl. auto.
  - cbn in Hx. destruct (k =? k') eqn:E; [lia|]. rewrite IH1. auto.
Qed.
Lemma aset_below {V} k (v : V) a : Forall (fun x => fst x < k) a ->
  aset Z.eqb k v a = a ++ [(k, v)] /\ aget Z.eqb k a = None.
Proof.
  induction 1 as [|[k' v'] a Hx _ [IH1 IH2]]; cbn; [auto|]. cbn in Hx. destruct (k =? k') eqn:E; [lia|]. rewrite IH1. auto.
Qed.

(** All entries of [l] have keys below [k], except perhaps the last, whose key may be [k] and satisfies [P]. *)
Definition upto {V} (P : V -> Prop) (k : Z) (l : list (Z * V)) : Prop :=
  Forall (fun x => fst x < k) l \/ exists a v, l = a ++ [(k, v)] /\ Forall (fun x => fst x < k) a /\ P v.

Lemma upto_mono {V} (P Q : V -> Prop) k k' (l : list (Z * V)) : upto P k l -> k < k' \/ (k = k' /\ forall v, P v -> Q v) -> upto Q k' l.
Proof.
  intros H Hk. destruct H as [H|(a & v & -> & Ha & Hv)].
  - left. eapply Forall_impl; [|exact H]. cbn; intros; destruct Hk as [Hk|[-> _]]; lia.
  - destruct Hk as [Hk|[-> Hq]].
    + left. apply Forall_app. split; [eapply Forall_impl; [|exact Ha]; cbn; intros; lia|]. constructor; [cbn; lia|constructor].
    + right. exists a, v. auto.
Qed.

Definition bounded (d f : Z) (acc : part) : Prop := upto (upto (fun _ => True) f) d acc.

Lemma padd_ordered d f r acc : bounded d f acc ->
  rows_of (padd d f r acc) = rows_of acc ++ range_rows d f r /\ bounded d f (padd d f r acc).
Proof.
  intros H. unfold padd. destruct H as [H|(a & fs & -> & Ha & Hfs)].
  - destruct (aset_below d (aset Z.eqb f ([] ++ [r]) []) acc H) as [E1 E2]. rewrite E2. cbn [aget]. rewrite E1.
    rewrite rows_of_app. split; [cbn; rewrite !app_nil_r; reflexivity|]. right. exists acc. eexists. split; [reflexivity|].
    split; [exact H|]. right. exists [], [r]. cbn. auto.
  - destruct (aset_last d (@nil (Z * list range)) a fs Ha) as [_ E2]. rewrite E2.
    match goal with |- context [aset Z.eqb d ?v (a ++ _)] => rewrite (proj1 (aset_last d v a fs Ha)); set (nv := v) end.
    rewrite !rows_of_app. cbn [rows_of flat_map fst snd]. rewrite !app_nil_r.
    assert (Hn : flat_map (fun fr => flat_map (range_rows d (fst fr)) (snd fr)) nv
                 = flat_map (fun fr => flat_map (range_rows d (fst fr)) (snd fr)) fs ++ range_rows d f r
                 /\ upto (fun _ => True) f nv).
    { unfold nv. destruct Hfs as [Hfs|(f0 & rs & -> & Hf0 & _)].
      - destruct (aset_below f ([] ++ [r]) fs Hfs) as [E3 E4]. rewrite E4, E3, files_rows_app. cbn. rewrite !app_nil_r.
        split; [reflexivity|]. right. exists fs. eexists. repeat split; auto.
      - destruct (aset_last f (@nil range) f0 rs Hf0) as [_ E4]. rewrite E4.
        rewrite (proj1 (aset_last f (rs ++ [r]) f0 rs Hf0)), !files_rows_app. cbn. rewrite !app_nil_r, flat_map_app. cbn.
        rewrite app_nil_r, app_assoc. split; [reflexivity|]. right. exists f0. eexists. repeat split; auto. }
    destruct Hn as [Hn1 Hn2]. rewrite Hn1, app_assoc. split; [reflexivity|]. right. exists a, nv. auto.
Qed.

(** Order on ranges with their place. *)
Definition fre (a b : frange) : Prop :=
  fst (fst a) < fst (fst b) \/ (fst (fst a) = fst (fst b) /\
    (snd (fst a) < snd (fst b) \/ (snd (fst a) = snd (fst b) /\ snd (snd a) <= fst (snd b)))).

Lemma bounded_mono d f d' f' acc : bounded d f acc -> d < d' \/ (d = d' /\ f <= f') -> bounded d' f' acc.
Proof.
  intros H Hd. eapply upto_mono; [exact H|]. destruct Hd as [Hd|[-> Hf]]; [left; exact Hd|right]. split; [reflexivity|].
  intros v Hv. eapply upto_mono; [exact Hv|]. destruct (Z.eq_dec f f') as [->|]; [right; auto|left; lia].
Qed.

Lemma fre_bounded acc a b : bounded (fst (fst a)) (snd (fst a)) acc -> fre a b -> bounded (fst (fst b)) (snd (fst b)) acc.
Proof. intros H Hf. eapply bounded_mono; [exact H|]. unfold fre in Hf. lia. Qed.

Lemma comp_take_ordered rest : forall acc cur n p rest',
  comp_take rest acc cur n = Some (p, rest') -> 0 <= cur < n -> StronglySorted fre rest ->
  Forall (fun x => bounded (fst (fst x)) (snd (fst x)) acc) rest ->
  exists taken, frows rest = taken ++ frows rest' /\ rows_of p = rows_of acc ++ taken /\ StronglySorted fre rest'
    /\ (Z.of_nat (length taken) = n - cur \/ (rest' = [] /\ Z.of_nat (length taken) < n - cur)).
Proof.
  induction rest as [|[[d f] [s e]] rest IH]; intros acc cur n p rest' H Hcur Hs Hb; cbn in H.
  - destruct (0 <? cur) eqn:E; [|discriminate]. injection H as <- <-. exists []. cbn. rewrite app_nil_r.
    repeat split; auto. right. split; [reflexivity|lia].
  - inversion Hs as [|? ? Hs' Hf]; subst. inversion Hb as [|? ? Hb1 Hb2]; subst. cbn [fst snd] in Hb1.
    destruct (s <? e) eqn:Ese.
    + destruct (cur + (e - s) <? n) eqn:En.
      * destruct (padd_ordered d f (s, e) acc Hb1) as [P1 P2].
        apply IH in H as (tk & T1 & T2 & T3 & T4); [|lia|exact Hs'|].
        2:{ rewrite Forall_forall in *. intros x Hx. apply (fre_bounded _ ((d, f), (s, e))); [exact P2|apply Hf, Hx]. }
        exists (range_rows d f (s, e) ++ tk). rewrite frows_cons. cbn [fst snd]. rewrite T1, T2, P1, <- !app_assoc.
        split; [reflexivity|]. split; [reflexivity|]. split; [exact T3|].
        rewrite app_length, Nat2Z.inj_add, range_rows_length. cbn [fst snd]. destruct T4 as [T4|[-> T4]]; [left|right; split; [reflexivity|]]; lia.
      * set (diff := cur + (e - s) - n) in *. injection H as <- <-. destruct (padd_ordered d f (s, e - diff) acc Hb1) as [P1 P2].
        exists (range_rows d f (s, e - diff)). rewrite !frows_cons. cbn [fst snd]. rewrite (range_rows_split d f s (e - diff) e) by lia.
        rewrite <- app_assoc. split; [reflexivity|]. split; [exact P1|]. split.
        -- constructor; [exact Hs'|]. eapply Forall_impl; [|exact Hf]. intros x Hx. unfold fre in *. cbn in *. lia.
        -- left. rewrite range_rows_length. cbn [fst snd]. lia.
    + apply IH in H as (tk & T1 & T2 & T3 & T4); auto. rewrite frows_cons. cbn [fst snd]. rewrite range_rows_nil by lia.
      exists tk. auto.
Qed.

Lemma comp_requests_exhausted ns : forall st, frows st = [] -> comp_requests st ns = map (fun _ => None) ns.
Proof.
  destruct ns as [|n ns]; intros st H; [reflexivity|]. cbn. rewrite (proj2 (comp_send_empty st n) H). reflexivity.
Qed.
Lemma served_nil {A} ns : served (@nil A) ns = map (fun _ => []) ns.
Proof. induction ns as [|n ns IH]; [reflexivity|]. cbn. rewrite firstn_nil, skipn_nil, IH. reflexivity. Qed.

Lemma comp_requests_spec ns : forall st, StronglySorted fre st -> Forall (fun n => 0 < n) ns ->
  map answer_rows (comp_requests st ns) = served (frows st) ns
  /\ Forall (fun o => o = None <-> answer_rows o = []) (comp_requests st ns).
Proof.
  induction ns as [|n ns IH]; intros st Hs Hn; [split; [reflexivity|constructor]|].
  inversion Hn as [|? ? Hn1 Hn2]; subst. cbn [comp_requests]. destruct (comp_send st n) as [[p st']|] eqn:E.
  - pose proof (comp_send_spec st n p st' E ltac:(lia)) as (tk0 & K1 & K2 & _ & K4).
    unfold comp_send in E. apply comp_take_ordered in E as (tk & T1 & T2 & T3 & T4); [|lia|exact Hs|].
    2:{ apply Forall_forall. intros x _. left. constructor. }
    cbn in T2. destruct (IH st' T3 Hn2) as [I1 I2]. cbn [map served]. rewrite I1. split.
    + cbn [answer_rows]. rewrite T2. destruct T4 as [T4|[-> T4]].
      * f_equal; [|f_equal]; rewrite T1.
        -- rewrite firstn_app, firstn_all2 by lia. replace (Z.to_nat n - length tk)%nat with 0%nat by lia. cbn. rewrite app_nil_r. reflexivity.
        -- rewrite skipn_app, skipn_all2 by lia. replace (Z.to_nat n - length tk)%nat with 0%nat by lia. reflexivity.
      * cbn in T1. rewrite app_nil_r in T1. rewrite T1, firstn_all2, skipn_all2 by lia. reflexivity.
    + constructor; [|exact I2]. cbn. split; [discriminate|]. intros Hz. exfalso. rewrite Hz in K2. apply Permutation_nil in K2. subst tk0.
      cbn in K4. lia.
  - apply comp_send_none in E. rewrite E, served_nil. cbn. split.
    + rewrite map_map. reflexivity.
    + constructor; [tauto|]. apply Forall_forall. intros o Ho. apply in_map_iff in Ho as (? & <- & _). cbn. tauto.
Qed.

Lemma isort_key_SS {V} (l : list (Z * V)) (R : Z * V -> Z * V -> Prop) : NoDup (map fst l) ->
  (forall x y, fst x < fst y -> R x y) -> StronglySorted R (isort (fun a b => fst a <? fst b) l).
Proof.
  intros Hnd HR.
  assert (Hs : StronglySorted (fun a b : Z * V => (fst b <? fst a) = false) (isort (fun a b => fst a <? fst b) l)).
  { apply isort_sorted; intros; lia. }
  assert (Hnd' : NoDup (map fst (isort (fun a b => fst a <? fst b) l))).
  { eapply Permutation_NoDup; [apply Permutation_map; symmetry; apply isort_perm|exact Hnd]. }
  induction Hs as [|x l' Hl IH Hf]; [constructor|]. cbn in Hnd'. inversion Hnd' as [|? ? Hni Hnd'']; subst.
  constructor; [auto|]. rewrite Forall_forall in *. intros y Hy. apply HR. specialize (Hf y Hy).
  assert (fst x <> fst y) by (intros E; apply Hni; rewrite E; apply in_map, Hy). lia.
Qed.

Lemma flatten_fre p : part_nd p -> part_sorted p -> StronglySorted fre (flatten p).
Proof.
  intros [Hn1 Hn2] Hs. unfold flatten. apply StronglySorted_flat_map.
  - intros [d fs] Hin. apply in_isort in Hin. cbn. apply StronglySorted_flat_map.
    + intros [f rs] Hin2. apply in_isort in Hin2. cbn.
      assert (Hrs : ranges_sorted rs) by (apply (Hs d f); exists fs; auto).
      clear - Hrs. induction rs as [|r rs IH]; cbn; [constructor|]. destruct Hrs as (H1 & H2 & H3).
      constructor; [apply IH, H3|]. rewrite Forall_map. eapply Forall_impl; [|exact H2]. intros a Ha. cbn in Ha. unfold fre. cbn. lia.
    + apply isort_key_SS; [rewrite Forall_forall in Hn2; apply (Hn2 _ Hin)|].
      intros x y Hlt a b Ha Hb. apply in_map_iff in Ha as (r1 & <- & _). apply in_map_iff in Hb as (r2 & <- & _).
      unfold fre. cbn. lia.
  - apply isort_key_SS; [exact Hn1|]. intros x y Hlt a b Ha Hb.
    apply in_flat_map in Ha as (u & _ & Ha). apply in_map_iff in Ha as (r1 & <- & _).
    apply in_flat_map in Hb as (v & _ & Hb). apply in_map_iff in Hb as (r2 & <- & _). unfold fre. cbn. lia.
Qed.

Lemma frows_sorted l : StronglySorted fre l -> StronglySorted row_lt (frows l).
Proof.
  intros H. unfold frows. apply StronglySorted_flat_map.
  - intros [[d f] [s e]] _. cbn. unfold range_rows. cbn. unfold zrange. generalize (Z.to_nat (e - s)) as n. intros n. generalize 0%nat as k.
    induction n as [|n IH]; intros k; cbn; [constructor|]. constructor; [apply IH|].
    apply Forall_forall. intros x Hx. apply in_map_iff in Hx as (i & <- & Hi). apply in_map_iff in Hi as (j & <- & Hj).
    apply in_seq in Hj. cbn. lia.
  - induction H as [|x l Hl IH Hf]; [constructor|]. constructor; [exact IH|]. eapply Forall_impl; [|exact Hf].
    intros y Hxy a b Ha Hb. destruct x as [[d f] [s e]], y as [[d' f'] [s' e']]. cbn in *. unfold range_rows in *.
    apply in_map_iff in Ha as (i & <- & Hi). apply in_map_iff in Hb as (j & <- & Hj). apply in_zrange in Hi, Hj. cbn in *.
    unfold fre in Hxy. cbn in Hxy. lia.
Qed.
