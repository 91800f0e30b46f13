(** One attempt to build a chunk: conservation of rows, counting, errors, termination. *)
From Verif Require Import Base MixtureKeyModel MixtureKeyProofs UtilsModel UtilsProofs ChunkGenModel SpecChunk ChunkGenProofs1.
From Coq Require Import QArith Lqa ZifyBool ZifyNat.
Open Scope Z_scope.

Definition comps_rows (cs : list (mkey * list frange)) : list row := flat_map (fun c => frows (snd c)) cs.

Lemma flat_map_kset {V B} (g : V -> list B) k v v0 (l : list (mkey * V)) :
  aget mkey_eqb k l = Some v0 ->
  exists rest, Permutation (flat_map (fun c => g (snd c)) l) (g v0 ++ rest)
               /\ Permutation (flat_map (fun c => g (snd c)) (aset mkey_eqb k v l)) (g v ++ rest).
Proof.
  intros E. destruct (aset_split _ mkey_eqb_spec k v v0 l E) as (l1 & l2 & -> & -> & _).
  exists (flat_map (fun c => g (snd c)) l1 ++ flat_map (fun c => g (snd c)) l2).
  rewrite !flat_map_app. cbn. split; rewrite !app_assoc; apply Permutation_app_tail, Permutation_app_comm.
Qed.

Lemma flat_map_knew {V B} (g : V -> list B) k v (l : list (mkey * V)) :
  aget mkey_eqb k l = None ->
  Permutation (flat_map (fun c => g (snd c)) (aset mkey_eqb k v l)) (g v ++ flat_map (fun c => g (snd c)) l).
Proof.
  intros E. rewrite (aset_perm_new _ k v l E), flat_map_app. cbn. rewrite app_nil_r. apply Permutation_app_comm.
Qed.

Definition kpart (k : mkey) (c : index) : part := match aget mkey_eqb k c with Some p => p | None => [] end.

Lemma chunk_merge_rows mk q c : Permutation (all_rows (chunk_merge mk q c)) (all_rows c ++ rows_of q).
Proof.
  unfold chunk_merge, all_rows. destruct (aget mkey_eqb mk c) as [p|] eqn:E.
  - destruct (flat_map_kset rows_of mk (part_merge p q) p c E) as (rest & H1 & H2).
    rewrite H2, H1, part_merge_rows, <- !app_assoc. apply Permutation_app_head, Permutation_app_comm.
  - rewrite (flat_map_knew rows_of) by exact E. rewrite part_merge_rows. cbn. apply Permutation_app_comm.
Qed.

Lemma chunk_merge_NoDup mk q c : NoDup (map fst c) -> NoDup (map fst (chunk_merge mk q c)).
Proof. apply NoDup_akeys_aset, mkey_eqb_spec. Qed.

Lemma chunk_merge_kpart mk q c k :
  kpart k (chunk_merge mk q c) = if mkey_eqb mk k then part_merge (kpart k c) q else kpart k c.
Proof.
  unfold kpart, chunk_merge. rewrite (aget_aset _ mkey_eqb_spec). destruct (mkey_eqb mk k) eqn:E; [|reflexivity].
  apply mkey_eqb_spec in E. subst. reflexivity.
Qed.

Lemma chunk_merge_keys mk q c k : In k (map fst (chunk_merge mk q c)) <-> In k (map fst c) \/ k = mk.
Proof.
  unfold chunk_merge. rewrite akeys_aset. unfold amem.
  destruct (aget mkey_eqb mk c) as [p|] eqn:E.
  - apply (aget_in _ mkey_eqb_spec) in E. apply (in_map fst) in E. cbn in E. split; [auto|]. intros [H| ->]; auto.
  - rewrite in_app_iff. cbn. intuition.
Qed.

Lemma rows_under_kpart k c : NoDup (map fst c) -> rows_under k c = rows_of (kpart k c).
Proof.
  unfold rows_under, kpart. induction c as [|[k' p] c IH]; cbn; [reflexivity|]. intros Hnd.
  inversion Hnd as [|? ? Hni Hnd']; subst.
  destruct (mkey_eqb k' k) eqn:E.
  - apply mkey_eqb_spec in E. subst. rewrite mkey_eqb_refl, IH by exact Hnd'.
    destruct (aget mkey_eqb k c) as [p'|] eqn:E2.
    + apply (aget_in _ mkey_eqb_spec), (in_map fst) in E2. contradiction.
    + cbn. apply app_nil_r.
  - destruct (mkey_eqb k k') eqn:E2; [|cbn; apply IH, Hnd'].
    apply mkey_eqb_spec in E2. subst. rewrite mkey_eqb_refl in E. discriminate.
Qed.

(** ** Steps: every change to components and chunk is "take n rows from a matching component" *)
Definition cc := (list (mkey * list frange) * index)%type.
Inductive take1 (mks : list mkey) : cc -> cc -> Prop :=
| Take1 mk ck cs ch st n p st' :
    In mk mks -> key_eq mk ck = true -> aget mkey_eqb ck cs = Some st -> 0 <= n -> comp_send st n = Some (p, st') ->
    take1 mks (cs, ch) (aset mkey_eqb ck st' cs, chunk_merge mk p ch).
Inductive takes (mks : list mkey) : cc -> cc -> Prop :=
| takes_refl x : takes mks x x
| takes_step x y z : takes mks x y -> take1 mks y z -> takes mks x z.

Lemma takes_trans mks x y z : takes mks x y -> takes mks y z -> takes mks x z.
Proof. intros H1 H2. induction H2 as [|x' y' z' _ IH H]; [exact H1|]. eapply takes_step; [apply IH, H1|exact H]. Qed.

Lemma take1_mono mks mks' x y : incl mks mks' -> take1 mks x y -> take1 mks' x y.
Proof. intros Hi H. destruct H. econstructor; eauto. Qed.
Lemma takes_mono mks mks' x y : incl mks mks' -> takes mks x y -> takes mks' x y.
Proof.
  intros Hi H. induction H as [|x y z _ IH H]; [apply takes_refl|].
  eapply takes_step; [exact IH|eapply take1_mono; eassumption].
Qed.

Lemma take1_conserve mks cs ch cs' ch' : take1 mks (cs, ch) (cs', ch') ->
  Permutation (all_rows ch ++ comps_rows cs) (all_rows ch' ++ comps_rows cs').
Proof.
  intros H. inversion H as [mk ck cs0 ch0 st n p st' Hin Hk Hg Hn Hs E1 E2]; subst.
  destruct (comp_send_spec _ _ _ _ Hs Hn) as (tk & H1 & H2 & _).
  destruct (flat_map_kset frows ck st' st cs Hg) as (rest & H3 & H4).
  unfold comps_rows. rewrite chunk_merge_rows, H3, H4, H1, H2, <- !app_assoc. reflexivity.
Qed.

Lemma takes_conserve mks x y : takes mks x y ->
  Permutation (all_rows (snd x) ++ comps_rows (fst x)) (all_rows (snd y) ++ comps_rows (fst y)).
Proof.
  induction 1 as [x|x [cs ch] [cs' ch'] _ IH H]; [reflexivity|]. rewrite IH. apply (take1_conserve mks), H.
Qed.

(** What one successful offer does to the attempt. *)
Definition upd (mk ck : mkey) (p : part) (st' : list frange) (a : att) : att :=
  {| a_comps := aset mkey_eqb ck st' (a_comps a);
     a_chunk := chunk_merge mk p (a_chunk a);
     a_rem := aset mkey_eqb mk (lookup0 mk (a_rem a) - part_size p) (a_rem a);
     a_mix := a_mix a;
     a_prog := a_prog a || (0 <? part_size p) |}.

Lemma lookup0_aset mk v l k : lookup0 k (aset mkey_eqb mk v l) = if mkey_eqb mk k then v else lookup0 k l.
Proof. unfold lookup0. rewrite (aget_aset _ mkey_eqb_spec). destruct (mkey_eqb mk k); reflexivity. Qed.

Lemma serve_cons mk ck cks a :
  serve mk (ck :: cks) a =
  if key_eq mk ck then
    match aget mkey_eqb ck (a_comps a) with
    | None => Err KeyError
    | Some st =>
        match comp_send st (lookup0 mk (a_rem a)) with
        | None => serve mk cks a
        | Some (p, st') =>
            if lookup0 mk (a_rem a) <? part_size p then Err AssertionError
            else if lookup0 mk (a_rem (upd mk ck p st' a)) =? 0 then Ok (upd mk ck p st' a)
                 else serve mk cks (upd mk ck p st' a)
        end
    end
  else serve mk cks a.
Proof. reflexivity. Qed.

(** Induction principle for [serve]. *)
Lemma serve_ind (P : att -> Prop) mk cks : forall a a',
  serve mk cks a = Ok a' -> 0 <= lookup0 mk (a_rem a) -> P a ->
  (forall ck st p st' a, P a -> 0 <= lookup0 mk (a_rem a) -> key_eq mk ck = true -> In ck cks ->
     aget mkey_eqb ck (a_comps a) = Some st -> comp_send st (lookup0 mk (a_rem a)) = Some (p, st') ->
     part_size p <= lookup0 mk (a_rem a) -> P (upd mk ck p st' a)) ->
  P a'.
Proof.
  induction cks as [|ck cks IH]; intros a a' H Hn HP Hstep.
  - cbn in H. injection H as <-. exact HP.
  - rewrite serve_cons in H. destruct (key_eq mk ck) eqn:Ek.
    2:{ eapply IH; eauto. intros; eapply Hstep; cbn; eauto. }
    destruct (aget mkey_eqb ck (a_comps a)) as [st|] eqn:Eg; [|discriminate].
    destruct (comp_send st (lookup0 mk (a_rem a))) as [[p st']|] eqn:Es.
    2:{ eapply IH; eauto. intros; eapply Hstep; cbn; eauto. }
    destruct (lookup0 mk (a_rem a) <? part_size p) eqn:El; [discriminate|].
    assert (HP' : P (upd mk ck p st' a)) by (eapply Hstep; cbn; eauto; lia).
    destruct (lookup0 mk (a_rem (upd mk ck p st' a)) =? 0) eqn:E0.
    + injection H as <-. exact HP'.
    + eapply IH; [exact H| |exact HP'|].
      * unfold upd. cbn [a_rem]. rewrite lookup0_aset, mkey_eqb_refl. lia.
      * intros; eapply Hstep; cbn; eauto.
Qed.

Definition acc_ (a : att) : cc := (a_comps a, a_chunk a).

Lemma serve_takes mk cks a a' : serve mk cks a = Ok a' -> 0 <= lookup0 mk (a_rem a) ->
  takes [mk] (acc_ a) (acc_ a').
Proof.
  intros H Hn. refine (serve_ind (fun x => takes [mk] (acc_ a) (acc_ x)) mk cks a a' H Hn (takes_refl _ _) _).
  intros ck st p st' x Hx Hx0 Hk Hin Hg Hs _. eapply takes_step; [exact Hx|].
  unfold acc_, upd; cbn. econstructor; eauto. cbn; auto.
Qed.

Lemma serve_mix mk cks a a' : serve mk cks a = Ok a' -> 0 <= lookup0 mk (a_rem a) -> a_mix a' = a_mix a.
Proof.
  intros H Hn. refine (serve_ind (fun x => a_mix x = a_mix a) mk cks a a' H Hn eq_refl _). intros; cbn; assumption.
Qed.

(** Remaining sizes: only [mk]'s changes, downwards. *)
Lemma serve_rem mk cks a a' : serve mk cks a = Ok a' -> 0 <= lookup0 mk (a_rem a) -> In mk (map fst (a_rem a)) ->
  map fst (a_rem a') = map fst (a_rem a)
  /\ (forall k, k <> mk -> lookup0 k (a_rem a') = lookup0 k (a_rem a))
  /\ 0 <= lookup0 mk (a_rem a') <= lookup0 mk (a_rem a).
Proof.
  intros H Hn Hin.
  refine (serve_ind (fun x => map fst (a_rem x) = map fst (a_rem a)
     /\ (forall k, k <> mk -> lookup0 k (a_rem x) = lookup0 k (a_rem a))
     /\ 0 <= lookup0 mk (a_rem x) <= lookup0 mk (a_rem a)) mk cks a a' H Hn _ _).
  - repeat split; auto; lia.
  - intros ck st p st' x (Hk1 & Hk2 & Hk3) Hx0 Hk Hinc Hg Hs Hle. unfold upd; cbn [a_rem]. repeat split.
    + rewrite akeys_aset. unfold amem.
      destruct (aget mkey_eqb mk (a_rem x)) eqn:E; [exact Hk1|].
      apply (aget_none _ mkey_eqb_spec) in E. rewrite Hk1 in E. contradiction.
    + intros k Hk'. rewrite lookup0_aset, mkey_eqb_neq by congruence. apply Hk2, Hk'.
    + rewrite lookup0_aset, mkey_eqb_refl. lia.
    + rewrite lookup0_aset, mkey_eqb_refl.
      destruct (comp_send_spec _ _ _ _ Hs Hx0) as (tk & _ & Hp & Hok & _). rewrite part_size_rows by exact Hok. lia.
Qed.

(** ** The counting invariant *)
Definition ksize (k : mkey) (c : index) : Z := Z.of_nat (length (rows_of (kpart k c))).

Record ainv (mix0 : list (mkey * Z)) (a : att) : Prop := {
  ai_rem : NoDup (map fst (a_rem a));
  ai_mix : NoDup (map fst (a_mix a));
  ai_ch : NoDup (map fst (a_chunk a));
  ai_rm : incl (map fst (a_rem a)) (map fst (a_mix a));
  ai_m0 : incl (map fst (a_mix a)) (map fst mix0);
  ai_c0 : incl (map fst (a_chunk a)) (map fst mix0);
  ai_pos : forall k, 0 <= lookup0 k (a_rem a);
  ai_cnt : forall k, ksize k (a_chunk a) + lookup0 k (a_rem a) = lookup0 k (a_mix a);
  ai_sum : zsum (map snd (a_mix a)) = zsum (map snd mix0)
}.

Lemma ksize_merge mk q c k :
  ksize k (chunk_merge mk q c) = ksize k c + (if mkey_eqb mk k then Z.of_nat (length (rows_of q)) else 0).
Proof.
  unfold ksize. rewrite chunk_merge_kpart. destruct (mkey_eqb mk k); [|lia].
  rewrite (Permutation_length (part_merge_rows (kpart k c) q)), app_length. lia.
Qed.

Lemma akeys_aset_in mk (v : Z) l : In mk (map fst l) -> map fst (aset mkey_eqb mk v l) = map fst l.
Proof.
  intros H. rewrite akeys_aset. unfold amem. destruct (aget mkey_eqb mk l) eqn:E; [reflexivity|].
  apply (aget_none _ mkey_eqb_spec) in E. contradiction.
Qed.

Lemma upd_ainv mix0 mk ck st p st' a :
  ainv mix0 a -> In mk (map fst (a_rem a)) -> comp_send st (lookup0 mk (a_rem a)) = Some (p, st') ->
  ainv mix0 (upd mk ck p st' a).
Proof.
  intros [H1 H2 H3 H4 H5 H6 H7 H8 H9] Hin Hs.
  destruct (comp_send_spec _ _ _ _ Hs (H7 mk)) as (tk & Htk & Hp & Hok & Hlen).
  assert (Hsz : part_size p = Z.of_nat (length (rows_of p))) by (apply part_size_rows, Hok).
  assert (Hle : 0 <= part_size p <= lookup0 mk (a_rem a)).
  { rewrite Hsz, (Permutation_length Hp). pose proof (H7 mk). lia. }
  unfold upd. constructor; cbn [a_rem a_mix a_chunk]; auto.
  - rewrite akeys_aset_in by exact Hin. exact H1.
  - apply chunk_merge_NoDup, H3.
  - rewrite akeys_aset_in by exact Hin. exact H4.
  - intros k Hk. apply chunk_merge_keys in Hk as [Hk| ->]; [auto|]. apply H5, H4, Hin.
  - intros k. rewrite lookup0_aset. pose proof (H7 k). destruct (mkey_eqb mk k); lia.
  - intros k. rewrite lookup0_aset, ksize_merge, <- H8.
    destruct (mkey_eqb mk k) eqn:E; [|lia]. apply mkey_eqb_spec in E. subst. lia.
Qed.

Lemma serve_ainv mix0 mk cks a a' :
  serve mk cks a = Ok a' -> ainv mix0 a -> In mk (map fst (a_rem a)) -> ainv mix0 a'.
Proof.
  intros H Ha Hin.
  assert (Hr : ainv mix0 a' /\ In mk (map fst (a_rem a'))).
  { refine (serve_ind (fun x => ainv mix0 x /\ In mk (map fst (a_rem x))) mk cks a a' H (ai_pos _ _ Ha mk) (conj Ha Hin) _).
    intros ck st p st' x [Hx Hxin] Hx0 Hk Hc Hg Hs Hle. split; [eapply upd_ainv; eassumption|].
    cbn. rewrite akeys_aset_in by exact Hxin. exact Hxin. }
  tauto.
Qed.

Lemma serve_no_err mix0 mk cks : forall a,
  ainv mix0 a -> In mk (map fst (a_rem a)) -> (forall ck, In ck cks -> In ck (map fst (a_comps a))) ->
  exists a', serve mk cks a = Ok a' /\ map fst (a_comps a') = map fst (a_comps a).
Proof.
  induction cks as [|ck cks IH]; intros a Ha Hin Hc; [eexists; split; reflexivity|].
  rewrite serve_cons. destruct (key_eq mk ck); [|apply IH; cbn in Hc; auto].
  destruct (aget_some_in _ mkey_eqb_spec ck (a_comps a)) as [st Est]; [apply Hc; cbn; auto|]. rewrite Est.
  destruct (comp_send st (lookup0 mk (a_rem a))) as [[p st']|] eqn:Es; [|apply IH; cbn in Hc; auto].
  pose proof (ai_pos _ _ Ha mk) as Hn.
  destruct (comp_send_spec _ _ _ _ Es Hn) as (tk & Htk & Hp & Hok & Hlen).
  assert (Hsz : part_size p <= lookup0 mk (a_rem a)).
  { rewrite part_size_rows, (Permutation_length Hp) by exact Hok. lia. }
  destruct (lookup0 mk (a_rem a) <? part_size p) eqn:E; [lia|].
  assert (Hck : map fst (a_comps (upd mk ck p st' a)) = map fst (a_comps a)).
  { cbn. rewrite akeys_aset. unfold amem. rewrite Est. reflexivity. }
  destruct (lookup0 mk (a_rem (upd mk ck p st' a)) =? 0); [eexists; split; [reflexivity|exact Hck]|].
  destruct (IH (upd mk ck p st' a)) as (a' & H1 & H2).
  - eapply upd_ainv; eassumption.
  - cbn. rewrite akeys_aset_in by exact Hin. exact Hin.
  - rewrite Hck. intros; apply Hc; cbn; auto.
  - exists a'. split; [exact H1|]. rewrite H2. exact Hck.
Qed.

(** ** Best effort *)
Lemma zsum_aset_in k v v0 l : aget mkey_eqb k l = Some v0 ->
  zsum (map snd (aset mkey_eqb k v l)) = zsum (map snd l) - v0 + v.
Proof.
  intros E. destruct (aset_split _ mkey_eqb_spec k v v0 l E) as (l1 & l2 & -> & -> & _).
  rewrite !map_app, !zsum_app. cbn [map snd]. rewrite !zsum_cons. lia.
Qed.

Lemma zsum_adel_in k v0 l : aget mkey_eqb k l = Some v0 ->
  zsum (map snd (adel mkey_eqb k l)) = zsum (map snd l) - v0.
Proof.
  intros E. destruct (aset_split _ mkey_eqb_spec k 0 v0 l E) as (l1 & l2 & -> & _ & ->).
  rewrite !map_app, !zsum_app. cbn [map snd]. rewrite !zsum_cons. lia.
Qed.

Lemma lookup0_in k l : In k (map fst l) -> aget mkey_eqb k l = Some (lookup0 k l).
Proof. intros H. destruct (aget_some_in _ mkey_eqb_spec k l H) as [v E]. unfold lookup0. rewrite E. reflexivity. Qed.

Lemma lookup0_notin k l : ~ In k (map fst l) -> lookup0 k l = 0.
Proof. intros H. unfold lookup0. apply (aget_none _ mkey_eqb_spec) in H. rewrite H. reflexivity. Qed.

Lemma add_each_spec kds : forall l,
  (forall k d, In (k, d) kds -> In k (map fst l)) -> NoDup (map fst kds) ->
  map fst (add_each kds l) = map fst l
  /\ zsum (map snd (add_each kds l)) = zsum (map snd l) + zsum (map snd kds)
  /\ (forall k d, In (k, d) kds -> lookup0 k (add_each kds l) = lookup0 k l + d)
  /\ (forall k, ~ In k (map fst kds) -> lookup0 k (add_each kds l) = lookup0 k l).
Proof.
  unfold add_each. induction kds as [|[k0 d0] kds IH]; intros l Hin Hnd; cbn [fold_left].
  - cbn. repeat split; auto; try lia; tauto.
  - cbn [fst snd]. inversion Hnd as [|? ? Hni Hnd']; subst. cbn in Hni.
    assert (Hk0 : In k0 (map fst l)) by (eapply Hin; cbn; eauto).
    pose proof (lookup0_in _ _ Hk0) as E0.
    set (l1 := aset mkey_eqb k0 (lookup0 k0 l + d0) l).
    assert (Hks : map fst l1 = map fst l) by (apply akeys_aset_in, Hk0).
    destruct (IH l1) as (I1 & I2 & I3 & I4).
    { intros k d Hkd. rewrite Hks. eapply Hin; cbn; eauto. }
    { exact Hnd'. }
    repeat split.
    + rewrite I1. exact Hks.
    + rewrite I2. unfold l1. rewrite (zsum_aset_in _ _ _ _ E0). cbn [map snd]. rewrite zsum_cons. lia.
    + intros k d [E|Hkd].
      * injection E as <- <-. rewrite I4 by exact Hni. unfold l1. rewrite lookup0_aset, mkey_eqb_refl. lia.
      * rewrite (I3 k d Hkd). unfold l1. rewrite lookup0_aset, mkey_eqb_neq; [lia|].
        intros <-. apply Hni. apply (in_map fst) in Hkd. exact Hkd.
    + intros k Hk. cbn in Hk. rewrite I4 by tauto. unfold l1. rewrite lookup0_aset, mkey_eqb_neq by tauto. reflexivity.
Qed.

Lemma in_combine_fst {A B} (l1 : list A) (l2 : list B) x : length l1 = length l2 -> In x l1 -> exists y, In (x, y) (combine l1 l2).
Proof.
  intros Hl Hx. rewrite <- (map_fst_combine_ l1 l2 Hl) in Hx. apply in_map_iff in Hx as ([a b] & E & H).
  cbn in E. subst. eauto.
Qed.

Lemma ratios_ok (l : list Z) : Forall (fun v => 0 <= v) l -> 0 < zsum l ->
  Forall (fun r => (0 <= r)%Q) (map (fun v => (inject_Z v / inject_Z (zsum l))%Q) l)
  /\ (qsum (map (fun v => (inject_Z v / inject_Z (zsum l))%Q) l) == 1)%Q.
Proof.
  intros Hpos Hs. set (t := zsum l) in *.
  assert (Ht : (0 < inject_Z t)%Q) by (change 0%Q with (inject_Z 0); rewrite <- Zlt_Qlt; exact Hs).
  split.
  - rewrite Forall_map. eapply Forall_impl; [|exact Hpos]. cbn. intros v Hv.
    apply Qle_shift_div_l; [exact Ht|]. rewrite Qmult_0_l. change 0%Q with (inject_Z 0). rewrite <- Zle_Qle. exact Hv.
  - assert (Hg : forall l', (qsum (map (fun v => (inject_Z v / inject_Z t)%Q) l') == inject_Z (zsum l') / inject_Z t)%Q).
    { induction l' as [|v l' IH]; cbn [map].
      - cbn. field. lra.
      - rewrite qsum_cons, IH, zsum_cons, inject_Z_plus. field. lra. }
    rewrite Hg. fold t. field. lra.
Qed.

Lemma zsum_zero_all (l : list Z) : Forall (fun v => 0 <= v) l -> zsum l = 0 -> forall v, In v l -> v = 0.
Proof.
  induction 1 as [|x l Hx Hl IH]; intros Hz v []; rewrite zsum_cons in Hz; pose proof (zsum_nonneg _ Hl); [lia|]. apply IH; [lia|assumption].
Qed.

Inductive be_case (mix0 : list (mkey * Z)) (mk : mkey) (a : att) : res att -> Prop :=
| be_last a' : a_rem a' = [] -> a_comps a' = a_comps a -> a_chunk a' = a_chunk a -> a_prog a' = a_prog a ->
    (forall k, In k (map fst (a_rem a)) -> k = mk) -> be_case mix0 mk a (Ok a')
| be_zero : (exists k, In k (map fst (a_rem a)) /\ k <> mk /\ lookup0 k (a_mix a) = 0) -> be_case mix0 mk a (Err ZeroDivisionError)
| be_ok a' : ainv mix0 a' -> a_comps a' = a_comps a -> a_chunk a' = a_chunk a -> a_prog a' = true ->
    (forall k, In k (map fst (a_rem a')) <-> In k (map fst (a_rem a)) /\ k <> mk) ->
    (length (a_rem a') < length (a_rem a))%nat -> a_rem a' <> [] ->
    (forall k, In k (map fst (a_rem a')) -> lookup0 k (a_mix a) <= lookup0 k (a_mix a')) -> be_case mix0 mk a (Ok a').

Lemma adel_length k (l : list (mkey * Z)) : In k (map fst l) -> S (length (adel mkey_eqb k l)) = length l.
Proof.
  intros H. destruct (aget_some_in _ mkey_eqb_spec k l H) as [v E].
  destruct (aset_split _ mkey_eqb_spec k v v l E) as (l1 & l2 & -> & _ & ->). rewrite !app_length. cbn. lia.
Qed.

Lemma best_effort_cases mix0 mk a :
  ainv mix0 a -> In mk (map fst (a_rem a)) -> 0 < lookup0 mk (a_rem a) -> be_case mix0 mk a (best_effort mk a).
Proof.
  intros Ha Hin Hpos. destruct Ha as [H1 H2 H3 H4 H5 H6 H7 H8 H9].
  unfold best_effort. set (missing := lookup0 mk (a_rem a)) in *.
  pose proof (H8 mk) as Hmk. fold missing in Hmk.
  assert (Hks : 0 <= ksize mk (a_chunk a)) by (unfold ksize; lia).
  destruct (lookup0 mk (a_mix a) <? missing) eqn:E1; [lia|].
  set (rem1 := adel mkey_eqb mk (a_rem a)).
  set (mix1 := if missing =? lookup0 mk (a_mix a) then adel mkey_eqb mk (a_mix a)
               else aset mkey_eqb mk (lookup0 mk (a_mix a) - missing) (a_mix a)).
  assert (Hinm : In mk (map fst (a_mix a))) by (apply H4, Hin).
  pose proof (lookup0_in _ _ Hinm) as Emix.
  assert (Hl1 : S (length rem1) = length (a_rem a)) by (apply adel_length, Hin).
  assert (Hr1 : forall k, In k (map fst rem1) <-> In k (map fst (a_rem a)) /\ k <> mk).
  { intros k. apply in_akeys_adel; [apply mkey_eqb_spec|exact H1]. }
  assert (Hnd1 : NoDup (map fst rem1)) by (apply NoDup_akeys_adel; [exact H1]).
  assert (Hndm : NoDup (map fst mix1)).
  { unfold mix1. destruct (missing =? _); [apply NoDup_akeys_adel; [exact H2]|].
    rewrite akeys_aset_in by exact Hinm. exact H2. }
  assert (Hm1 : forall k, k <> mk -> lookup0 k mix1 = lookup0 k (a_mix a)).
  { intros k Hk. unfold mix1. destruct (missing =? _).
    - unfold lookup0. rewrite (aget_adel_other _ mkey_eqb_spec) by congruence. reflexivity.
    - rewrite lookup0_aset, mkey_eqb_neq by congruence. reflexivity. }
  assert (Hm1k : lookup0 mk mix1 = lookup0 mk (a_mix a) - missing).
  { unfold mix1. destruct (missing =? lookup0 mk (a_mix a)) eqn:E.
    - unfold lookup0 at 1. rewrite (aget_adel_same _ mkey_eqb_spec) by exact H2. lia.
    - rewrite lookup0_aset, mkey_eqb_refl. reflexivity. }
  assert (Hsm1 : zsum (map snd mix1) = zsum (map snd (a_mix a)) - missing).
  { unfold mix1. destruct (missing =? lookup0 mk (a_mix a)) eqn:E.
    - rewrite (zsum_adel_in _ _ _ Emix). lia.
    - rewrite (zsum_aset_in _ _ _ _ Emix). lia. }
  assert (Hmk1 : forall k, In k (map fst mix1) -> In k (map fst (a_mix a))).
  { unfold mix1. destruct (missing =? _); intros k Hk.
    - apply akeys_adel in Hk. exact Hk.
    - rewrite akeys_aset_in in Hk by exact Hinm. exact Hk. }
  assert (Hrm1 : forall k, In k (map fst rem1) -> In k (map fst mix1)).
  { intros k Hk. apply Hr1 in Hk as [Hk Hne]. apply H4 in Hk. unfold mix1. destruct (missing =? _).
    - apply in_akeys_adel; [apply mkey_eqb_spec|exact H2|auto].
    - rewrite akeys_aset_in by exact Hinm. exact Hk. }
  destruct rem1 as [|kv0 rem1'] eqn:Erem.
  { apply be_last; cbn; auto. intros k Hk. destruct (mkey_eq_dec k mk) as [|Hne]; [assumption|].
    assert (Hf : In k (map fst (@nil (mkey * Z)))) by (apply Hr1; auto). destruct Hf. }
  assert (Hkv0 : In (fst kv0) (map fst rem1)) by (rewrite Erem; cbn; auto).
  rewrite <- Erem in *. clear Erem.
  set (target := ksort (map fst rem1)).
  assert (Htp : Permutation target (map fst rem1)) by apply ksort_perm.
  assert (Htin : forall k, In k target <-> In k (map fst rem1)).
  { intros k. split; apply Permutation_in; [exact Htp|symmetry; exact Htp]. }
  set (vals := map (fun k => lookup0 k mix1) target).
  assert (Hvpos : Forall (fun v => 0 <= v) vals).
  { unfold vals. rewrite Forall_map, Forall_forall. intros k Hk. apply Htin, Hr1 in Hk as [_ Hk].
    rewrite (Hm1 k Hk), <- H8. pose proof (H7 k). unfold ksize. lia. }
  destruct (zsum vals =? 0) eqn:Et.
  { apply be_zero. assert (Hk0 : In (fst kv0) (map fst rem1)) by exact (Hkv0). exists (fst kv0). pose proof (proj1 (Hr1 _) Hk0) as [Hk1 Hk2]. split; [exact Hk1|]. split; [exact Hk2|].
    rewrite <- (Hm1 _ Hk2). apply Z.eqb_eq in Et. rewrite Forall_forall in Hvpos.
    assert (Hin0 : In (lookup0 (fst kv0) mix1) vals) by (unfold vals; apply (in_map (fun k => lookup0 k mix1)), Htin, Hk0).
    pose proof (zsum_zero_all vals) as Hz0. apply Hz0; [apply Forall_forall; exact Hvpos|exact Et|exact Hin0]. }
  pose proof (zsum_nonneg _ Hvpos) as Hnn.
  destruct (ratios_ok vals Hvpos) as [Hr01 Hrs]; [lia|].
  assert (Hrl : map (fun k => (inject_Z (lookup0 k mix1) / inject_Z (zsum vals))%Q) target
                = map (fun v => (inject_Z v / inject_Z (zsum vals))%Q) vals).
  { unfold vals at 3. rewrite map_map. reflexivity. }
  fold vals. rewrite Hrl.
  destruct (distribute_spec missing (map (fun v => (inject_Z v / inject_Z (zsum vals))%Q) vals)) as (ds & Ed & Hlen & Hds & Hdpos & _).
  { lia. }
  { unfold vals. rewrite map_map. intros E. apply map_eq_nil in E. rewrite E in Htp. apply Permutation_nil in Htp.
    apply map_eq_nil in Htp. rewrite Htp in Hl1. cbn in Hl1.
    destruct (zsum vals =? 0) eqn:Ez; [discriminate|]. unfold vals in Ez. rewrite E in Ez. discriminate. }
  { exact Hr01. }
  { exact Hrs. }
  rewrite Ed, Hds, Z.eqb_refl. cbn [negb].
  assert (Hlt : length target = length ds).
  { rewrite Hlen, map_length. unfold vals. rewrite map_length. reflexivity. }
  set (kds := combine target ds).
  assert (Hkf : map fst kds = target) by (apply map_fst_combine_, Hlt).
  assert (Hkd : map snd kds = ds) by (apply map_snd_combine_, Hlt).
  assert (Hkn : NoDup (map fst kds)).
  { rewrite Hkf. eapply Permutation_NoDup; [symmetry; exact Htp|exact Hnd1]. }
  destruct (add_each_spec kds rem1) as (R1 & R2 & R3 & R4); [|exact Hkn|].
  { intros k d Hk. apply (in_map fst) in Hk. cbn in Hk. rewrite Hkf in Hk. apply Htin, Hk. }
  destruct (add_each_spec kds mix1) as (M1 & M2 & M3 & M4); [|exact Hkn|].
  { intros k d Hk. apply (in_map fst) in Hk. cbn in Hk. rewrite Hkf in Hk. apply Hrm1, Htin, Hk. }
  rewrite M2, Hkd, Hds, Hsm1.
  destruct (zsum (map snd (a_mix a)) =? zsum (map snd (a_mix a)) - missing + missing) eqn:Es; [|lia].
  cbn [negb]. apply be_ok; cbn; auto.
  - constructor; cbn [a_rem a_mix a_chunk].
    + rewrite R1. exact Hnd1.
    + rewrite M1. exact Hndm.
    + exact H3.
    + rewrite R1, M1. exact Hrm1.
    + rewrite M1. intros k Hk. apply H5, Hmk1, Hk.
    + exact H6.
    + intros k. destruct (in_dec mkey_eq_dec k (map fst kds)) as [Hk|Hk].
      * apply in_map_iff in Hk as ([k' d] & E & Hk). cbn in E. subst k'. rewrite (R3 k d Hk).
        assert (Hd : 0 <= d).
        { rewrite Forall_forall in Hdpos. apply Hdpos. rewrite <- Hkd. apply (in_map snd) in Hk. exact Hk. }
        assert (Hkk : k <> mk). { apply (in_map fst) in Hk. rewrite Hkf in Hk. apply Htin, Hr1 in Hk. tauto. }
        unfold rem1. replace (lookup0 k (adel mkey_eqb mk (a_rem a))) with (lookup0 k (a_rem a)); [pose proof (H7 k); lia|].
        unfold lookup0. rewrite (aget_adel_other _ mkey_eqb_spec) by congruence. reflexivity.
      * rewrite (R4 k Hk). unfold rem1. destruct (mkey_eq_dec k mk) as [-> |Hne].
        -- rewrite lookup0_notin; [lia|]. fold rem1. rewrite Hr1. tauto.
        -- replace (lookup0 k (adel mkey_eqb mk (a_rem a))) with (lookup0 k (a_rem a)); [pose proof (H7 k); lia|].
           unfold lookup0. rewrite (aget_adel_other _ mkey_eqb_spec) by congruence. reflexivity.
    + intros k. destruct (mkey_eq_dec k mk) as [-> |Hne].
      * assert (Hk : ~ In mk (map fst kds)) by (rewrite Hkf, Htin, Hr1; tauto).
        rewrite (R4 mk Hk), (M4 mk Hk), Hm1k, lookup0_notin; [lia|]. rewrite Hr1. tauto.
      * assert (Hl : lookup0 k rem1 = lookup0 k (a_rem a)).
        { unfold rem1, lookup0. rewrite (aget_adel_other _ mkey_eqb_spec) by congruence. reflexivity. }
        destruct (in_dec mkey_eq_dec k (map fst kds)) as [Hk|Hk].
        -- apply in_map_iff in Hk as ([k' d] & E & Hk). cbn in E. subst k'. rewrite (R3 k d Hk), (M3 k d Hk), Hl, (Hm1 k Hne).
           pose proof (H8 k). lia.
        -- rewrite (R4 k Hk), (M4 k Hk), Hl, (Hm1 k Hne). apply H8.
    + rewrite M2, Hsm1, Hkd, Hds. rewrite <- H9. lia.
  - intros k. rewrite R1. apply Hr1.
  - rewrite <- (map_length fst), R1, map_length. lia.
  - intros E. rewrite E in R1. cbn in R1. symmetry in R1. apply map_eq_nil in R1.
    rewrite R1 in Htp. cbn in Htp. apply Permutation_sym, Permutation_nil in Htp.
    unfold vals in Et. rewrite Htp in Et. discriminate.
  - intros k Hk. rewrite R1 in Hk. assert (Hkk : k <> mk) by (apply Hr1, Hk). rewrite <- (Hm1 k Hkk).
    destruct (in_dec mkey_eq_dec k (map fst kds)) as [Hk1|Hk1]; [|rewrite (M4 k Hk1); lia].
    apply in_map_iff in Hk1 as ([k' d] & E & Hk1). cbn in E. subst k'. rewrite (M3 k d Hk1).
    assert (Hd : 0 <= d).
    { rewrite Forall_forall in Hdpos. apply Hdpos. rewrite <- Hkd. apply (in_map snd) in Hk1. exact Hk1. }
    lia.
Qed.
