(** Invariant of the chunk distributor. *)
From Verif Require Import Base MixtureKeyModel UtilsModel ChunkGenModel DistributorModel SpecDistributor.
From Coq Require Import ZifyBool ZifyNat.
Open Scope Z_scope.

Lemma p2_eqb_spec a b : p2_eqb a b = true <-> a = b.
Proof.
  unfold p2_eqb. destruct a as [a1 a2], b as [b1 b2]. cbn. rewrite andb_true_iff, !Z.eqb_eq.
  split; [intros [-> ->]; reflexivity|intros [= -> ->]; auto].
Qed.
Lemma p3_eqb_spec a b : p3_eqb a b = true <-> a = b.
Proof.
  unfold p3_eqb. destruct a as [a1 a2], b as [b1 b2]. cbn. rewrite andb_true_iff, p2_eqb_spec, Z.eqb_eq.
  split; [intros [-> ->]; reflexivity|intros [= -> ->]; auto].
Qed.

Lemma slot_inj nw w w' (i i' : nat) :
  0 <= w < nw -> 0 <= w' < nw -> w + nw * Z.of_nat i = w' + nw * Z.of_nat i' -> w = w' /\ i = i'.
Proof.
  intros H H' E.
  assert (Hw : w = (w + nw * Z.of_nat i) mod nw).
  { rewrite Z.add_comm, Z.mul_comm, Z_mod_plus_full' || (rewrite Z.mul_comm, Z_mod_plus_full, Z.mod_small); lia. }
  assert (Hw' : w' = (w' + nw * Z.of_nat i') mod nw).
  { rewrite Z.mul_comm, Z_mod_plus_full, Z.mod_small; lia. }
  assert (w = w') by congruence. subst w'. split; [reflexivity|]. nia.
Qed.

(** Position functions. *)
Definition posf := Z -> Z -> Z -> nat.
Definition upd3 (P : posf) (g n w : Z) (v : nat) : posf :=
  fun g' n' w' => if (g' =? g) && (n' =? n) && (w' =? w) then v else P g' n' w'.
Lemma upd3_same P g n w v : upd3 P g n w v g n w = v.
Proof. unfold upd3. rewrite !Z.eqb_refl. reflexivity. Qed.
Lemma upd3_other P g n w v g' n' w' : (g', n', w') <> (g, n, w) -> upd3 P g n w v g' n' w' = P g' n' w'.
Proof.
  intros H. unfold upd3.
  destruct (Z.eqb_spec g' g), (Z.eqb_spec n' n), (Z.eqb_spec w' w); subst; cbn; try reflexivity. contradiction.
Qed.

Definition count (nodes : Z) (P : posf) (g w : Z) (i : nat) : nat :=
  length (filter (fun n => Nat.ltb i (P g n w)) (zrange 0 nodes)).

Lemma filter_len_le {A} (f : A -> bool) l : (length (filter f l) <= length l)%nat.
Proof. induction l as [|x l IH]; cbn; [lia|]. destruct (f x); cbn; lia. Qed.

Lemma filter_len_all {A} (f : A -> bool) l : (length l <= length (filter f l))%nat -> forall x, In x l -> f x = true.
Proof.
  induction l as [|x l IH]; cbn; [tauto|]. destruct (f x) eqn:E; cbn; intros H y Hy.
  - destruct Hy as [<-|Hy]; [exact E|]. apply IH; [lia|exact Hy].
  - pose proof (filter_len_le f l). lia.
Qed.

Lemma filter_true_len {A} (l : list A) : length (filter (fun _ => true) l) = length l.
Proof. induction l as [|x l IH]; cbn; [reflexivity|]. rewrite IH. reflexivity. Qed.

Lemma filter_ext_in_iff {A} (f h : A -> bool) l : (filter f l = filter h l) <-> (forall x, In x l -> f x = h x).
Proof.
  split; [|apply filter_ext_in]. intros H x Hx. destruct (f x) eqn:Ef, (h x) eqn:Eh; try reflexivity; exfalso.
  - assert (Hi : In x (filter h l)) by (rewrite <- H; apply filter_In; auto). apply filter_In in Hi. destruct Hi. congruence.
  - assert (Hi : In x (filter f l)) by (rewrite H; apply filter_In; auto). apply filter_In in Hi. destruct Hi. congruence.
Qed.

Lemma filter_len_flip {A} (f f' : A -> bool) (x : A) l :
  NoDup l -> In x l -> f x = false -> f' x = true -> (forall y, y <> x -> f' y = f y) ->
  length (filter f' l) = S (length (filter f l)).
Proof.
  induction l as [|y l IH]; cbn; [tauto|]. intros Hnd Hin Hf Hf' Ho. inversion Hnd as [|? ? Hni Hnd']; subst.
  destruct Hin as [->|Hin].
  - rewrite Hf, Hf'. cbn. f_equal. f_equal. apply filter_ext_in. intros z Hz. apply Ho. intros ->. contradiction.
  - assert (y <> x) by (intros ->; contradiction). rewrite (Ho y) by assumption.
    destruct (f y); cbn; rewrite (IH Hnd' Hin Hf Hf' Ho); reflexivity.
Qed.

Lemma count_step nodes P g n w g' w' i :
  0 <= n < nodes ->
  count nodes (upd3 P g n w (S (P g n w))) g' w' i
  = if (g' =? g) && (w' =? w) && Nat.eqb i (P g n w) then S (count nodes P g' w' i) else count nodes P g' w' i.
Proof.
  intros Hn. unfold count.
  destruct ((g' =? g) && (w' =? w) && Nat.eqb i (P g n w)) eqn:E.
  - rewrite !andb_true_iff, !Z.eqb_eq, Nat.eqb_eq in E. destruct E as [[-> ->] ->].
    apply filter_len_flip with n.
    + apply NoDup_zrange.
    + apply in_zrange. lia.
    + apply Nat.ltb_ge. lia.
    + rewrite upd3_same. apply Nat.ltb_lt. lia.
    + intros y Hy. rewrite upd3_other by congruence. reflexivity.
  - f_equal. apply filter_ext_in. intros y _. unfold upd3.
    destruct (Z.eqb_spec g' g), (Z.eqb_spec y n), (Z.eqb_spec w' w); subst; cbn [andb] in *; try reflexivity.
    apply Nat.eqb_neq in E.
    destruct (Nat.ltb_spec i (P g n w)), (Nat.ltb_spec i (S (P g n w))); try reflexivity; lia.
Qed.

Section Inv.
  Context {C : Type}.
  Definition streams := Z -> Z -> list (C * Z).
  Definition updF (F : streams) (g w : Z) (l : list (C * Z)) : streams :=
    fun g' w' => if (g' =? g) && (w' =? w) then l else F g' w'.
  Lemma updF_same F g w l : updF F g w l g w = l.
  Proof. unfold updF. rewrite !Z.eqb_refl. reflexivity. Qed.
  Lemma updF_other F g w l g' w' : (g', w') <> (g, w) -> updF F g w l g' w' = F g' w'.
  Proof.
    intros H. unfold updF. destruct (Z.eqb_spec g' g), (Z.eqb_spec w' w); subst; cbn; try reflexivity. contradiction.
  Qed.

  Variables dp nodes nw : Z.
  (** Chunks below [B] (before a restored checkpoint) are not kept. *)
  Variable B : Z -> Z -> nat.

  Record core (cache : list (p2 * (C * Z))) (usage : list (p2 * Z)) (next : list (p3 * Z)) (P : posf) (F : streams)
    : Prop := {
    c_nw : 1 <= nw;
    c_next : forall g n w, valid_slot dp nodes nw g n w -> aget p3_eqb (g, n, w) next = Some (w + nw * Z.of_nat (P g n w));
    c_out : forall g n w v, aget p3_eqb (g, n, w) next = Some v -> valid_slot dp nodes nw g n w;
    c_le : forall g n w, valid_slot dp nodes nw g n w -> (P g n w <= length (F g w))%nat;
    c_ndn : NoDup (akeys next);
    c_ndc : NoDup (akeys cache);
    c_ndu : NoDup (akeys usage);
    c_some : forall g id ck, aget p2_eqb (g, id) cache = Some ck ->
      exists w i, 0 <= g < dp /\ 0 <= w < nw /\ id = w + nw * Z.of_nat i /\ nth_error (F g w) i = Some ck
        /\ ~ (forall n, 0 <= n < nodes -> (i + 1 < P g n w)%nat);
    c_base : forall g n w, valid_slot dp nodes nw g n w -> (B g w <= P g n w)%nat;
    c_avail : forall g n w i, valid_slot dp nodes nw g n w -> (P g n w <= i + 1)%nat -> (B g w <= i < length (F g w))%nat ->
      aget p2_eqb (g, w + nw * Z.of_nat i) cache <> None;
    c_udom : forall k, aget p2_eqb k usage = None <-> aget p2_eqb k cache = None;
    c_uval : forall g w i u, 0 <= g < dp -> 0 <= w < nw -> aget p2_eqb (g, w + nw * Z.of_nat i) usage = Some u ->
      u = Z.of_nat (count nodes P g w i)
  }.

  Lemma core_end cache usage next P F g n w :
    core cache usage next P F -> valid_slot dp nodes nw g n w ->
    aget p2_eqb (g, w + nw * Z.of_nat (P g n w)) cache = None -> P g n w = length (F g w).
  Proof.
    intros H Hv Hnone. pose proof (c_le _ _ _ _ _ H _ _ _ Hv).
    destruct (Nat.eq_dec (P g n w) (length (F g w))) as [E|E]; [exact E|].
    pose proof (c_base _ _ _ _ _ H _ _ _ Hv).
    exfalso. apply (c_avail _ _ _ _ _ H g n w (P g n w) Hv); [lia|lia|exact Hnone].
  Qed.

  (** Fetching: a new chunk at the end of a stream. *)
  Lemma core_fetch cache usage next P F g n w c :
    core cache usage next P F -> valid_slot dp nodes nw g n w ->
    aget p2_eqb (g, w + nw * Z.of_nat (P g n w)) cache = None ->
    P g n w = length (F g w)
    /\ core (aset p2_eqb (g, w + nw * Z.of_nat (P g n w)) (c, 0) cache)
            (aset p2_eqb (g, w + nw * Z.of_nat (P g n w)) 0 usage) next P (updF F g w (F g w ++ [(c, 0)])).
  Proof.
    intros Hcore Hv Hnone. pose proof Hcore as [Hnw Hnext Hout Hle Hndn Hndc Hndu Hsome Hbase Hav Hudom Huval].
    assert (HP : P g n w = length (F g w)).
    { eapply core_end; eauto. }
    split; [exact HP|].
    assert (Hext : forall g' w' i ck, nth_error (F g' w') i = Some ck ->
              nth_error (updF F g w (F g w ++ [(c, 0)]) g' w') i = Some ck).
    { intros g' w' i ck H. unfold updF. destruct ((g' =? g) && (w' =? w)) eqn:E; [|exact H].
      rewrite andb_true_iff, !Z.eqb_eq in E. destruct E as [-> ->].
      rewrite nth_error_app1; [exact H|]. apply nth_error_Some. congruence. }
    constructor; auto.
    - intros g' n' w' Hv'. specialize (Hle _ _ _ Hv'). unfold updF. destruct ((g' =? g) && (w' =? w)) eqn:E; [|exact Hle].
      rewrite andb_true_iff, !Z.eqb_eq in E. destruct E as [-> ->]. rewrite app_length. lia.
    - apply (NoDup_akeys_aset _ p2_eqb_spec), Hndc.
    - apply (NoDup_akeys_aset _ p2_eqb_spec), Hndu.
    - intros g' id ck. rewrite (aget_aset _ p2_eqb_spec). destruct (p2_eqb _ (g', id)) eqn:E.
      + apply p2_eqb_spec in E. injection E as <- <-. intros [= <-].
        exists w, (P g n w). destruct Hv as (Hg & Hn & Hw). split; [exact Hg|]. split; [exact Hw|]. split; [reflexivity|].
        split.
        * rewrite updF_same, HP, nth_error_app2, Nat.sub_diag by lia. reflexivity.
        * intros H. specialize (H n Hn). lia.
      + intros H. destruct (Hsome _ _ _ H) as (w1 & i1 & H1 & H2 & H3 & H4 & H5). exists w1, i1.
        split; [exact H1|]. split; [exact H2|]. split; [exact H3|]. split; [apply Hext, H4|exact H5].
    - intros g' n' w' i Hv' Hi1 Hi. rewrite (aget_aset _ p2_eqb_spec). destruct (p2_eqb _ _) eqn:E; [discriminate|].
      apply (Hav g' n' w' i Hv' Hi1). split; [apply Hi|]. unfold updF in Hi.
      destruct ((g' =? g) && (w' =? w)) eqn:E2; [|apply Hi].
      rewrite andb_true_iff, !Z.eqb_eq in E2. destruct E2 as [-> ->]. rewrite app_length in Hi. cbn in Hi.
      assert (i <> P g n w); [|lia]. intros ->.
      rewrite (eqb_refl_ _ p2_eqb_spec) in E. discriminate.
    - intros k. rewrite !(aget_aset _ p2_eqb_spec). destruct (p2_eqb _ k); [split; discriminate|apply Hudom].
    - intros g' w' i u Hg' Hw'. rewrite (aget_aset _ p2_eqb_spec). destruct (p2_eqb _ _) eqn:E.
      + apply p2_eqb_spec in E. injection E as <- E. destruct Hv as (Hg & Hn & Hw).
        destruct (slot_inj nw w w' (P g n w) i Hw Hw' E) as [<- <-]. intros [= <-].
        unfold count. rewrite (proj2 (Forall_forall _ _) (fun _ _ => I)) || idtac.
        assert (Hz : filter (fun n0 => Nat.ltb (P g n w) (P g n0 w)) (zrange 0 nodes) = []).
        { apply (incl_l_nil (l := filter _ _)). intros y Hy. apply filter_In in Hy as [Hy Hlt].
          apply in_zrange in Hy. apply Nat.ltb_lt in Hlt.
          assert (valid_slot dp nodes nw g y w) as Hvy by (repeat split; lia).
          specialize (Hle _ _ _ Hvy). lia. }
        rewrite Hz. reflexivity.
      + intros H. eapply Huval; eauto.
  Qed.

  (** Handing out a chunk that is in memory. *)
  Lemma core_hand (s : dist C) calls cache usage P F g n w ser ck :
    d_nodes s = nodes -> d_nw s = nw ->
    core cache usage (d_next s) P F -> valid_slot dp nodes nw g n w ->
    aget p2_eqb (g, w + nw * Z.of_nat (P g n w)) cache = Some ck ->
    exists cache' usage' next',
      hand_out s calls cache usage g n w (w + nw * Z.of_nat (P g n w)) ser ck
      = (with_dist s calls cache' usage' next', DChunk ser (fst ck) (snd ck))
      /\ nth_error (F g w) (P g n w) = Some ck
      /\ core cache' usage' next' (upd3 P g n w (S (P g n w))) F
      /\ (forall k, aget p2_eqb k cache' = None -> aget p2_eqb k cache = None \/
            exists i, k = (g, w + nw * Z.of_nat i) /\ forall n', 0 <= n' < nodes -> (i + 1 < upd3 P g n w (S (P g n w)) g n' w)%nat).
  Proof.
    intros Hno Hnws [Hnw Hnext Hout Hle Hndn Hndc Hndu Hsome Hbase Hav Hudom Huval] Hv Hck.
    destruct (Hsome _ _ _ Hck) as (w1 & i1 & Hg & Hw1 & Hid & Hnth & Hnall).
    destruct (slot_inj nw w w1 _ _ (proj2 (proj2 Hv)) Hw1 Hid) as [<- <-].
    set (p := P g n w) in *. set (id := w + nw * Z.of_nat p) in *.
    assert (Hlt : (p < length (F g w))%nat) by (apply nth_error_Some; congruence).
    unfold hand_out. rewrite Hno, Hnws.
    destruct (aget p2_eqb (g, id) usage) as [u|] eqn:Eu; [|apply Hudom in Eu; congruence].
    pose proof (Huval g w p u Hg (proj2 (proj2 Hv)) Eu) as Hu.
    assert (Hudom1 : forall k, aget p2_eqb k (aset p2_eqb (g, id) (u + 1) usage) = None <-> aget p2_eqb k cache = None).
    { intros k. rewrite (aget_aset _ p2_eqb_spec). destruct (p2_eqb (g, id) k) eqn:E; [|apply Hudom].
      apply p2_eqb_spec in E. subst k. split; [discriminate|]. congruence. }
    set (purge := (nodes <=? u + 1) && (0 <=? id - nw) && amem p2_eqb (g, id - nw) cache).
    set (cache2 := if purge then adel p2_eqb (g, id - nw) cache else cache).
    set (usage2 := if purge then adel p2_eqb (g, id - nw) (aset p2_eqb (g, id) (u + 1) usage)
                   else aset p2_eqb (g, id) (u + 1) usage).
    assert (Hpu : purge && negb (amem p2_eqb (g, id - nw) (aset p2_eqb (g, id) (u + 1) usage)) = false).
    { destruct purge eqn:Ep; [|reflexivity]. unfold purge in Ep. rewrite !andb_true_iff in Ep. destruct Ep as [_ Em].
      unfold amem in Em |- *. destruct (aget p2_eqb (g, id - nw) (aset _ _ _ _)) eqn:E; [reflexivity|].
      apply Hudom1 in E. rewrite E in Em. discriminate. }
    rewrite Hpu.
    exists cache2, usage2, (aset p3_eqb (g, n, w) (id + nw) (d_next s)).
    split; [reflexivity|]. split; [exact Hnth|].
    (* what a purge means *)
    assert (Hpurge : purge = true -> exists i, p = S i /\ id - nw = w + nw * Z.of_nat i
              /\ forall n', 0 <= n' < nodes -> (i + 1 < upd3 P g n w (S p) g n' w)%nat).
    { intros Ep. unfold purge in Ep. rewrite !andb_true_iff, !Z.leb_le in Ep. destruct Ep as [[Hn Hd] _].
      unfold id in Hd. destruct Hv as (_ & Hnn & Hw). destruct p as [|i] eqn:Ep'; [lia|]. exists i. split; [reflexivity|].
      split; [unfold id; lia|].
      assert (Hall : forall y, In y (zrange 0 nodes) -> Nat.ltb (S i) (upd3 P g n w (S (S i)) g y w) = true).
      { apply filter_len_all.
        pose proof (count_step nodes P g n w g w (S i) Hnn) as Hc. fold p in Hc. rewrite Ep' in Hc.
        rewrite !Z.eqb_refl, Nat.eqb_refl in Hc. cbn [andb] in Hc. unfold count in Hc at 1. rewrite Hc.
        rewrite Hu in Hn. pose proof (zrange_length 0 nodes). lia. }
      intros n' Hn'. assert (Hin : In n' (zrange 0 nodes)) by (apply in_zrange; lia). specialize (Hall n' Hin). apply Nat.ltb_lt in Hall. lia. }
    assert (Hpos : forall g' n' w', (P g' n' w' <= upd3 P g n w (S p) g' n' w')%nat).
    { intros g' n' w'. unfold upd3. destruct (Z.eqb_spec g' g), (Z.eqb_spec n' n), (Z.eqb_spec w' w); subst; cbn [andb]; fold p; lia. }
    assert (Hcache2 : forall k, aget p2_eqb k cache2 = if purge && p2_eqb (g, id - nw) k then None else aget p2_eqb k cache).
    { intros k. unfold cache2. destruct purge; cbn [andb]; [|reflexivity].
      destruct (p2_eqb (g, id - nw) k) eqn:E.
      - apply p2_eqb_spec in E. subst k. apply (aget_adel_same _ p2_eqb_spec), Hndc.
      - apply (aget_adel_other _ p2_eqb_spec). intros H. rewrite H, (eqb_refl_ _ p2_eqb_spec) in E. discriminate. }
    assert (Hndu1 : NoDup (akeys (aset p2_eqb (g, id) (u + 1) usage))) by (apply (NoDup_akeys_aset _ p2_eqb_spec), Hndu).
    assert (Husage2 : forall k, aget p2_eqb k usage2 = if purge && p2_eqb (g, id - nw) k then None
                                else aget p2_eqb k (aset p2_eqb (g, id) (u + 1) usage)).
    { intros k. unfold usage2. destruct purge; cbn [andb]; [|reflexivity].
      destruct (p2_eqb (g, id - nw) k) eqn:E.
      - apply p2_eqb_spec in E. subst k. apply (aget_adel_same _ p2_eqb_spec), Hndu1.
      - apply (aget_adel_other _ p2_eqb_spec). intros H. rewrite H, (eqb_refl_ _ p2_eqb_spec) in E. discriminate. }
    split.
    - constructor; auto.
      + intros g' n' w' Hv'. rewrite (aget_aset _ p3_eqb_spec). destruct (p3_eqb (g, n, w) (g', n', w')) eqn:E.
        * apply p3_eqb_spec in E. injection E as <- <- <-. rewrite upd3_same. unfold id. f_equal. lia.
        * rewrite upd3_other; [apply Hnext, Hv'|]. intros H. injection H as -> -> ->.
          rewrite (eqb_refl_ _ p3_eqb_spec) in E. discriminate.
      + intros g' n' w' v. rewrite (aget_aset _ p3_eqb_spec). destruct (p3_eqb (g, n, w) (g', n', w')) eqn:E.
        * apply p3_eqb_spec in E. injection E as <- <- <-. intros _. exact Hv.
        * apply Hout.
      + intros g' n' w' Hv'. unfold upd3. destruct ((g' =? g) && (n' =? n) && (w' =? w)) eqn:E; [|apply Hle, Hv'].
        rewrite !andb_true_iff, !Z.eqb_eq in E. destruct E as [[-> ->] ->]. lia.
      + apply (NoDup_akeys_aset _ p3_eqb_spec), Hndn.
      + unfold cache2. destruct purge; [apply NoDup_akeys_adel|]; exact Hndc.
      + unfold usage2. destruct purge; [apply NoDup_akeys_adel|]; exact Hndu1.
      + intros g' id' ck'. rewrite Hcache2. destruct (purge && p2_eqb (g, id - nw) (g', id')) eqn:Ed; [discriminate|].
        intros H. destruct (Hsome _ _ _ H) as (w1 & i1 & H1 & H2 & H3 & H4 & H5). exists w1, i1.
        split; [exact H1|]. split; [exact H2|]. split; [exact H3|]. split; [exact H4|].
        intros Hall. destruct (Z.eq_dec g' g) as [->|Hgne].
        2:{ apply H5. intros n' Hn'. specialize (Hall n' Hn'). rewrite upd3_other in Hall by congruence. exact Hall. }
        destruct (Z.eq_dec w1 w) as [->|Hwne].
        2:{ apply H5. intros n' Hn'. specialize (Hall n' Hn'). rewrite upd3_other in Hall by congruence. exact Hall. }
        destruct (Nat.eq_dec (i1 + 1) p) as [Ei|Ei].
        * (* everybody passed p, so chunk p-1 has been purged *)
          assert (Hpt : purge = true).
          { unfold purge. rewrite !andb_true_iff, !Z.leb_le. repeat split.
            - assert (Hc : count nodes (upd3 P g n w (S p)) g w p = Z.to_nat nodes).
              { unfold count. rewrite (proj2 (filter_ext_in_iff _ (fun _ => true) _)).
                - rewrite (filter_true_len (zrange 0 nodes)). pose proof (zrange_length 0 nodes). destruct Hv; lia.
                - intros y Hy. apply in_zrange in Hy. apply Nat.ltb_lt. specialize (Hall y ltac:(lia)). lia. }
              pose proof (count_step nodes P g n w g w p (proj1 (proj2 Hv))) as Hcs. fold p in Hcs.
              rewrite Hc, !Z.eqb_refl, Nat.eqb_refl in Hcs. cbn [andb] in Hcs. lia.
            - unfold id. nia.
            - unfold amem. replace (id - nw) with id' by (unfold id; rewrite H3; nia). rewrite H. reflexivity. }
          rewrite Hpt in Ed. replace (id - nw) with id' in Ed by (unfold id; rewrite H3; nia).
          rewrite (eqb_refl_ _ p2_eqb_spec) in Ed. discriminate.
        * apply H5. intros n' Hn'. specialize (Hall n' Hn').
          destruct (Z.eq_dec n' n) as [->|Hne]; [rewrite upd3_same in Hall; fold p; lia|].
          rewrite upd3_other in Hall by congruence. exact Hall.
      + intros g' n' w' Hv'. specialize (Hbase _ _ _ Hv'). specialize (Hpos g' n' w'). lia.
      + intros g' n' w' i Hv' Hi1 Hi. rewrite Hcache2. destruct (purge && p2_eqb (g, id - nw) (g', w' + nw * Z.of_nat i)) eqn:Ed.
        * exfalso. rewrite andb_true_iff, p2_eqb_spec in Ed. destruct Ed as [Ep Ed]. injection Ed as <- Ed.
          destruct (Hpurge Ep) as (i2 & _ & E2 & Hall). rewrite E2 in Ed.
          destruct (slot_inj nw w w' i2 i (proj2 (proj2 Hv)) (proj2 (proj2 Hv')) Ed) as [<- <-].
          specialize (Hall n' (proj1 (proj2 Hv'))). lia.
        * apply (Hav g' n' w' i Hv'); specialize (Hpos g' n' w'); lia.
      + intros k. rewrite Husage2, Hcache2. destruct (purge && p2_eqb (g, id - nw) k); [tauto|apply Hudom1].
      + intros g' w' i u' Hg' Hw'. rewrite Husage2. destruct (purge && p2_eqb _ _); [discriminate|].
        pose proof (count_step nodes P g n w g' w' i (proj1 (proj2 Hv))) as Hcs. fold p in Hcs. rewrite Hcs.
        rewrite (aget_aset _ p2_eqb_spec). destruct (p2_eqb (g, id) _) eqn:E.
        * apply p2_eqb_spec in E. injection E as <- E. destruct (slot_inj nw w w' p i (proj2 (proj2 Hv)) Hw' E) as [<- <-].
          intros [= <-]. rewrite !Z.eqb_refl, Nat.eqb_refl. cbn [andb]. lia.
        * intros H. destruct ((g' =? g) && (w' =? w) && Nat.eqb i p) eqn:E2; [|eapply Huval; eauto].
          rewrite !andb_true_iff, !Z.eqb_eq, Nat.eqb_eq in E2. destruct E2 as [[-> ->] ->].
          fold id in E. rewrite (eqb_refl_ _ p2_eqb_spec) in E. discriminate.
    - intros k. rewrite Hcache2. destruct (purge && p2_eqb (g, id - nw) k) eqn:Ed; [|left; assumption].
      intros _. right. rewrite andb_true_iff, p2_eqb_spec in Ed. destruct Ed as [Ep <-].
      destruct (Hpurge Ep) as (i2 & _ & E2 & Hall). exists i2. rewrite E2. split; [reflexivity|exact Hall].
  Qed.
End Inv.
