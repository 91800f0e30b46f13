(** Proofs about windows. *)
From Verif Require Import Base MixtureKeyModel MixtureKeyProofs UtilsModel ChunkGenModel MixtureModel SpecRoundRobin RoundRobin TokenModel
  ResultChunkModel ResultChunkProofs.
From Coq Require Import ZifyBool ZifyNat.
Local Open Scope nat_scope.

Lemma zsum_map_le {K} (f g : K -> Z) l : (forall k, In k l -> (f k <= g k)%Z) -> (zsum (map f l) <= zsum (map g l))%Z.
Proof.
  induction l as [|x l IH]; intros H; cbn [map]; rewrite ?zsum_cons; [lia|].
  pose proof (H x (or_introl eq_refl)). specialize (IH (fun k Hk => H k (or_intror Hk))). lia.
Qed.
Lemma zsum_map_eq {K} (f g : K -> Z) l :
  (forall k, In k l -> (f k <= g k)%Z) -> (zsum (map g l) <= zsum (map f l))%Z -> forall k, In k l -> f k = g k.
Proof.
  induction l as [|x l IH]; intros H Hs k Hk; [contradiction|]. cbn [map] in Hs. rewrite !zsum_cons in Hs.
  pose proof (H x (or_introl eq_refl)).
  pose proof (zsum_map_le f g l (fun k Hk => H k (or_intror Hk))).
  destruct Hk as [<-|Hk]; [lia|]. apply IH; [intros; apply H; right; assumption|lia|exact Hk].
Qed.
Lemma zsum_map_upd {K} (eqb : K -> K -> bool) (f g : K -> Z) l k d :
  NoDup l -> In k l -> (f k = g k + d)%Z -> (forall k', In k' l -> k' <> k -> f k' = g k') ->
  zsum (map f l) = (zsum (map g l) + d)%Z.
Proof.
  induction l as [|x l IH]; intros Hnd Hin Hk Ho; [contradiction|]. inversion Hnd as [|? ? Hni Hnd']; subst.
  cbn [map]. rewrite !zsum_cons. destruct Hin as [->|Hin].
  - rewrite (map_ext_in f g l); [lia|]. intros k' Hk'. apply Ho; [right; exact Hk'|]. intros ->. contradiction.
  - rewrite (Ho x); [|left; reflexivity|intros ->; contradiction].
    rewrite IH; [lia|exact Hnd'|exact Hin|exact Hk|]. intros. apply Ho; [right; assumption|assumption].
Qed.

Lemma app_len_inj {B} (a b c d : list B) : length a = length c -> a ++ b = c ++ d -> a = c /\ b = d.
Proof.
  revert c. induction a as [|x a IH]; intros [|y c] Hl H; cbn in *; try discriminate; [auto|].
  injection H as -> H. injection Hl as Hl. destruct (IH c Hl H) as [-> ->]. auto.
Qed.
Lemma skipn_skipn {B} a b (l : list B) : skipn a (skipn b l) = skipn (b + a) l.
Proof.
  revert l. induction b as [|b IH]; intros l; [reflexivity|]. destruct l as [|x l]; cbn [skipn Nat.add]; [apply skipn_nil|apply IH].
Qed.
Lemma in_dec_kmem (k : mkey) (l : list mkey) : {In k l} + {~ In k l}.
Proof. destruct (kmem k l) eqn:E; [left; apply kmem_In, E|right; apply kmem_not_In, E]. Defined.
Lemma mkey_eqb_refl (k : mkey) : mkey_eqb k k = true.
Proof. apply mkey_eqb_spec. reflexivity. Qed.

Section Win.
  Context {S : Type}.
  Variable kid : list (mkey * Z).
  Variable streams0 : list (mkey * stream S).
  Variable counts : list (mkey * Z).
  Notation order := (map fst counts).
  Hypothesis Hkeys : NoDup (map fst streams0).
  Hypothesis Hperm : Permutation order (map fst streams0).
  Hypothesis Hkid : forall k, In k order -> exists i, aget mkey_eqb k kid = Some i.
  Hypothesis Hpos : Forall (fun kn => (0 <= snd kn)%Z) counts.
  Notation window := (zsum (map snd counts)).
  Notation Core := (Core kid streams0 order).
  Notation items := (items streams0).
  Notation fin := (fin streams0).
  Notation tagged := (tagged kid).

  Definition cnt (k : mkey) : Z := lookup0 k counts.
  Definition nn (k : mkey) : nat := Z.to_nat (cnt k).

  Lemma order_nd : NoDup order.
  Proof. eapply order_nodup; eassumption. Qed.
  Lemma cnt_in k n : In (k, n) counts -> cnt k = n /\ (0 <= n)%Z.
  Proof.
    intros H. unfold cnt, lookup0. rewrite (in_aget _ mkey_eqb_spec k n counts order_nd H).
    split; [reflexivity|]. rewrite Forall_forall in Hpos. apply (Hpos _ H).
  Qed.
  Lemma cnt_pos k : In k order -> (0 <= cnt k)%Z.
  Proof. intros H. apply in_map_iff in H as ((k' & n) & E & H). cbn in E. subst k'. destruct (cnt_in _ _ H) as [E Hn]. rewrite E. exact Hn. Qed.
  Lemma window_cnt : window = zsum (map cnt order).
  Proof.
    f_equal. rewrite map_map. apply map_ext_in. intros (k & n) H. cbn. destruct (cnt_in _ _ H) as [E _]. rewrite E. reflexivity.
  Qed.

  Definition zlen (t : mkey -> list (Z * S)) (k : mkey) : Z := Z.of_nat (length (t k)).

  Record WI (out0 : list (Z * S)) (start : mkey -> list S) (j : nat) (dn todo : list mkey) (t : mkey -> list (Z * S)) (w : winst S) : Prop := {
    wi_core : Core out0 start t (w_it w);
    wi_ord : order = dn ++ todo;
    wi_proc : forall k, In k order -> processed k w = zlen t k;
    wi_yield : w_yielded w = zsum (map (zlen t) order);
    wi_cnt : forall k, In k order -> (zlen t k <= cnt k)%Z;
    wi_dn : forall k, In k dn -> length (t k) <= Datatypes.S j /\
              (~ In k (it_deleted (w_it w)) -> (zlen t k < cnt k)%Z -> length (t k) = Datatypes.S j);
    wi_todo : forall k, In k todo -> length (t k) <= j /\
              (~ In k (it_deleted (w_it w)) -> (zlen t k < cnt k)%Z -> length (t k) = j);
    wi_del : forall k, In k (it_deleted (w_it w)) -> (zlen t k < cnt k)%Z;
    wi_stop : w_stop w = true <-> it_deleted (w_it w) <> [] }.

  (** End of a window. *)
  Record WE (out0 : list (Z * S)) (start : mkey -> list S) (t : mkey -> list (Z * S)) (w : winst S) : Prop := {
    we_core : Core out0 start t (w_it w);
    we_cnt : forall k, In k order -> In k (it_deleted (w_it w)) \/ zlen t k = cnt k;
    we_del : forall k, In k (it_deleted (w_it w)) -> (zlen t k < cnt k)%Z;
    we_stop : w_stop w = true <-> it_deleted (w_it w) <> [] }.

  Lemma wi_full out0 start j dn todo t w : WI out0 start j dn todo t w -> (window <= w_yielded w)%Z -> WE out0 start t w.
  Proof.
    intros H Hw. split; [apply (wi_core _ _ _ _ _ _ _ H)| |apply (wi_del _ _ _ _ _ _ _ H)|apply (wi_stop _ _ _ _ _ _ _ H)].
    intros k Hk. right. apply (zsum_map_eq (zlen t) cnt order); [apply (wi_cnt _ _ _ _ _ _ _ H)| |exact Hk].
    rewrite <- window_cnt, <- (wi_yield _ _ _ _ _ _ _ H). exact Hw.
  Qed.

  Definition AnyOk (j : nat) (dn : list mkey) (t : mkey -> list (Z * S)) (w : winst S) : Prop :=
    if w_any w then exists k, In k order /\ length (t k) = Datatypes.S j
    else forall k, In k dn -> In k (it_deleted (w_it w)) \/ zlen t k = cnt k.

  Lemma aset_lookup k v (l : list (mkey * Z)) k' : lookup0 k' (aset mkey_eqb k v l) = if mkey_eqb k k' then v else lookup0 k' l.
  Proof. unfold lookup0. rewrite (aget_aset _ mkey_eqb_spec). destruct (mkey_eqb k k'); reflexivity. Qed.

  Lemma win_pass_spec out0 start j ct : forall dn t w w' r,
    WI out0 start j dn (map fst ct) t w -> AnyOk j dn t w -> (exists c1, counts = c1 ++ ct) ->
    win_pass kid window ct w = (w', r) ->
    match r with
    | None => exists t', (WI out0 start j order [] t' w' /\ AnyOk j order t' w')
                         \/ (WE out0 start t' w' /\ w_any w' = true /\ (window <= w_yielded w')%Z)
    | Some e => exists k, In k order /\ fin k = Some e
    end.
  Proof.
    induction ct as [|[k n] ct IH]; intros dn t w w' r HW HA (c1 & Hc1) Hp; cbn [win_pass] in Hp.
    - injection Hp as <- <-. exists t. left. pose proof (wi_ord _ _ _ _ _ _ _ HW) as Ho. cbn [map] in Ho. rewrite app_nil_r in Ho.
      rewrite Ho. split; assumption.
    - pose proof (wi_ord _ _ _ _ _ _ _ HW) as Ho. cbn [map fst] in Ho, HW.
      assert (Hon : NoDup (dn ++ k :: map fst ct)) by (rewrite <- Ho; apply order_nd).
      assert (Ho' : order = (dn ++ [k]) ++ map fst ct) by (rewrite <- app_assoc; exact Ho).
      pose proof (NoDup_remove_2 _ _ _ Hon) as Hni. rewrite in_app_iff in Hni.
      assert (Hin : In k order) by (rewrite Ho; apply in_or_app; right; left; reflexivity).
      assert (Hkn : cnt k = n). { apply cnt_in. rewrite Hc1. apply in_or_app. right. left. reflexivity. }
      assert (Hc1' : exists c1', counts = c1' ++ ct) by (exists (c1 ++ [(k, n)]); rewrite <- app_assoc; exact Hc1).
      destruct (wi_todo _ _ _ _ _ _ _ HW k (or_introl eq_refl)) as [Hkl Hkt].
      rewrite (wi_proc _ _ _ _ _ _ _ HW k Hin) in Hp.
      destruct (kmem k (it_deleted (w_it w)) || (n <=? zlen t k)%Z) eqn:Eskip.
      + assert (Hskip : In k (it_deleted (w_it w)) \/ zlen t k = cnt k).
        { apply orb_true_iff in Eskip as [E|E]; [left; apply kmem_In, E|right].
          pose proof (wi_cnt _ _ _ _ _ _ _ HW k Hin). lia. }
        apply (IH (dn ++ [k]) t w w' r); [| |exact Hc1'|exact Hp].
        * destruct HW as [W1 W2 W3 W4 W5 W6 W7 W8 W9]. split; auto.
          -- intros k' Hk'. apply in_app_or in Hk' as [Hk'|[<-|[]]]; [auto|]. split; [lia|].
             intros Hnd Hlt. destruct Hskip as [Hd|Hd]; [contradiction|lia].
          -- intros k' Hk'. apply W7. right. exact Hk'.
        * unfold AnyOk in *. destruct (w_any w); [exact HA|].
          intros k' Hk'. apply in_app_or in Hk' as [Hk'|[<-|[]]]; auto.
      + apply orb_false_iff in Eskip as [Ed En]. apply kmem_not_In in Ed.
        assert (Hlt : (zlen t k < cnt k)%Z) by lia. specialize (Hkt Ed Hlt).
        assert (H1 : forall k', In k' dn -> length (t k') <= Datatypes.S j) by (intros k' Hk'; apply (wi_dn _ _ _ _ _ _ _ HW k' Hk')).
        assert (H2 : forall k', In k' (map fst ct) -> length (t k') <= j) by (intros k' Hk'; apply (wi_todo _ _ _ _ _ _ _ HW k'); right; exact Hk').
        pose proof (core_yield kid streams0 order Hkeys Hperm Hkid out0 start t (w_it w) dn k (map fst ct) j
                      (wi_core _ _ _ _ _ _ _ HW) Ho Ed H1 Hkt H2) as Hy.
        destruct (yield_next kid k (w_it w)) as [st1|st1|st1 e].
        * destruct Hy as (x & HC1 & Hdel & _).
          set (t1 := fupd mkey_eqb k (id_of kid k, x) t) in *.
          set (w1 := mkWin st1 (aset mkey_eqb k (zlen t k + 1)%Z (w_processed w)) (w_yielded w + 1)%Z true (w_stop w)) in *.
          assert (Ht1k : length (t1 k) = Datatypes.S j) by (unfold t1; rewrite fupd_same by apply mkey_eqb_spec; rewrite app_length; cbn; lia).
          assert (Ht1o : forall k', k' <> k -> t1 k' = t k') by (intros k' Hk'; apply fupd_other; [apply mkey_eqb_spec|congruence]).
          assert (HW1 : WI out0 start j (dn ++ [k]) (map fst ct) t1 w1).
          { destruct HW as [W1 W2 W3 W4 W5 W6 W7 W8 W9]. split; cbn [w_it w_yielded w_stop w1]; auto.
            - intros k' Hk'. unfold processed. cbn [w_processed w1]. rewrite aset_lookup. destruct (mkey_eqb k k') eqn:E.
              + apply mkey_eqb_spec in E. subst k'. unfold zlen. rewrite Ht1k. lia.
              + assert (k' <> k) by (intros ->; rewrite mkey_eqb_refl in E; discriminate).
                unfold zlen. rewrite Ht1o by assumption. apply W3, Hk'.
            - rewrite W4. symmetry. apply (zsum_map_upd mkey_eqb) with (k := k); [apply order_nd|exact Hin| |].
              + unfold zlen. rewrite Ht1k, Hkt. lia.
              + intros k' _ Hne. unfold zlen. rewrite Ht1o by exact Hne. reflexivity.
            - intros k' Hk'. destruct (mkey_eqb k k') eqn:E.
              + apply mkey_eqb_spec in E. subst k'. unfold zlen in *. rewrite Ht1k. lia.
              + assert (k' <> k) by (intros ->; rewrite mkey_eqb_refl in E; discriminate).
                unfold zlen. rewrite Ht1o by assumption. apply W5, Hk'.
            - intros k' Hk'. rewrite Hdel. apply in_app_or in Hk' as [Hk'|[<-|[]]]; [|lia].
              assert (k' <> k) by (intros ->; tauto). unfold zlen. rewrite Ht1o by assumption. apply W6, Hk'.
            - intros k' Hk'. rewrite Hdel. assert (k' <> k) by (intros ->; tauto). unfold zlen. rewrite Ht1o by assumption.
              apply W7. right. exact Hk'.
            - rewrite Hdel. intros k' Hk'. assert (k' <> k) by (intros ->; contradiction). unfold zlen. rewrite Ht1o by assumption.
              apply W8, Hk'.
            - rewrite Hdel. exact W9. }
          destruct (window <=? w_yielded w1)%Z eqn:Efull.
          -- injection Hp as <- <-. exists t1. right. split; [|split; [reflexivity|lia]].
             eapply wi_full; [exact HW1|lia].
          -- apply (IH (dn ++ [k]) t1 w1 w' r); [exact HW1| |exact Hc1'|exact Hp].
             unfold AnyOk. cbn [w_any w1]. exists k. auto.
        * destruct Hy as (HC1 & Hdel & _).
          apply (IH (dn ++ [k]) t (mkWin st1 (w_processed w) (w_yielded w) (w_any w) true) w' r); [| |exact Hc1'|exact Hp].
          -- destruct HW as [W1 W2 W3 W4 W5 W6 W7 W8 W9]. split; cbn [w_it w_yielded w_stop]; auto; rewrite ?Hdel.
             ++ intros k' Hk'. apply in_app_or in Hk' as [Hk'|[<-|[]]].
                ** destruct (W6 k' Hk') as [L1 L2]. split; [exact L1|]. cbn. tauto.
                ** split; [lia|]. cbn. tauto.
             ++ intros k' Hk'. destruct (W7 k' (or_intror Hk')) as [L1 L2]. split; [exact L1|]. cbn. tauto.
             ++ intros k' [<-|Hk']; auto.
             ++ split; [discriminate|reflexivity].
          -- unfold AnyOk in *. cbn [w_any w_it]. destruct (w_any w); [exact HA|]. rewrite Hdel.
             intros k' Hk'. apply in_app_or in Hk' as [Hk'|[<-|[]]]; [|left; left; reflexivity].
             destruct (HA k' Hk') as [H|H]; [left; right; exact H|right; exact H].
        * injection Hp as _ <-. destruct Hy as (_ & Hf & _). exists k. auto.
  Qed.

  Definition maxcnt : nat := list_max (map nn order).
  Lemma maxcnt_ge k : In k order -> nn k <= maxcnt.
  Proof.
    intros H. unfold maxcnt. pose proof (proj1 (list_max_Forall (map nn order) _) (Nat.le_refl _)) as HF.
    rewrite Forall_map, Forall_forall in HF. apply HF, H.
  Qed.

  Lemma win_inner_spec out0 start fuel : forall j t w w' r,
    WI out0 start j [] order t w -> win_inner fuel kid window counts w = (w', r) ->
    match r with
    | None => exists t', WE out0 start t' w'
    | Some e => (exists k, In k order /\ fin k = Some e) \/ (e = OutOfFuel /\ (fuel + j < maxcnt + 2 \/ fuel <= 1))
    end.
  Proof.
    induction fuel as [|fuel IH]; intros j t w w' r HW Hi; cbn [win_inner] in Hi.
    - injection Hi as <- <-. right. split; [reflexivity|]. right. lia.
    - destruct (alive (w_it w)) eqn:Ea; cbn [andb] in Hi.
      + destruct (w_yielded w <? window)%Z eqn:Ey.
        * set (w0 := mkWin (w_it w) (w_processed w) (w_yielded w) false (w_stop w)) in *.
          assert (HW0 : WI out0 start j [] (map fst counts) t w0) by (destruct HW; split; auto).
          assert (HA0 : AnyOk j [] t w0) by (intros k []).
          destruct (win_pass kid window counts w0) as [w1 [e|]] eqn:Ep.
          -- injection Hi as <- <-. left. exact (win_pass_spec out0 start j counts [] t w0 w1 (Some e) HW0 HA0 (ex_intro _ [] eq_refl) Ep).
          -- pose proof (win_pass_spec out0 start j counts [] t w0 w1 None HW0 HA0 (ex_intro _ [] eq_refl) Ep) as (t' & [[HW1 HA1]|(HE & Hany & Hfull)]).
             ++ unfold AnyOk in HA1. destruct (w_any w1) eqn:Eany; cbn [negb] in Hi.
                ** assert (HW2 : WI out0 start (Datatypes.S j) [] order t' w1).
                   { destruct HW1 as [W1 W2 W3 W4 W5 W6 W7 W8 W9]. split; auto. intros k []. }
                   specialize (IH _ _ _ _ _ HW2 Hi). destruct r as [e|]; [|exact IH].
                   destruct IH as [IH|[-> IH]]; [left; exact IH|right; split; [reflexivity|left]].
                   destruct HA1 as (k & Hk & Hlk). pose proof (wi_cnt _ _ _ _ _ _ _ HW1 k Hk) as Hc.
                   unfold zlen in Hc. pose proof (maxcnt_ge k Hk) as Hm. unfold nn in Hm. lia.
                ** injection Hi as <- <-. exists t'. destruct HW1 as [W1 W2 W3 W4 W5 W6 W7 W8 W9]. split; auto.
             ++ rewrite Hany in Hi. cbn [negb] in Hi. destruct fuel as [|fuel].
                ** cbn in Hi. injection Hi as <- <-. right. split; [reflexivity|]. right. lia.
                ** cbn [win_inner] in Hi. replace (w_yielded w1 <? window)%Z with false in Hi by lia.
                   rewrite andb_false_r in Hi. injection Hi as <- <-. exists t'. exact HE.
        * injection Hi as <- <-. exists t. eapply wi_full; [exact HW|lia].
      + injection Hi as <- <-. exists t. destruct HW as [W1 W2 W3 W4 W5 W6 W7 W8 W9]. split; auto.
        intros k Hk. left. eapply (core_alive kid streams0 order Hkeys Hperm); [exact W1|exact Ea|exact Hk].
  Qed.

  (** ** The windows *)
  Definition share (v : nat) (k : mkey) : list S := firstn (nn k) (skipn (v * nn k) (items k)).
  Definition one_window (v : nat) : list (Z * S) := round_robin (map (fun k => tagged k (share v k)) order).
  Definition windows (n : nat) : list (Z * S) := flat_map one_window (seq 0 n).

  Record OI (v : nat) (st : itst S) (stop : bool) : Prop := {
    oi_core : Core (windows v) (fun k => skipn (v * nn k) (items k)) (fun _ => []) st;
    oi_stop : stop = true <-> it_deleted st <> [];
    oi_del : forall k, In k order -> (In k (it_deleted st) <-> length (items k) < v * nn k) }.

  Lemma oi_init : OI 0 (mkIt streams0 [] []) false.
  Proof.
    split; cbn [it_deleted Nat.mul].
    - pose proof (core_init kid streams0 order Hperm) as H. destruct H as [C1 C2 C3 C4 C5]. split; auto.
    - split; [discriminate|congruence].
    - intros k _. cbn. lia.
  Qed.

  Lemma tagged_app k (a b : list S) : tagged k (a ++ b) = tagged k a ++ tagged k b.
  Proof. apply map_app. Qed.
  Lemma tagged_inj_len k (a : list S) (x : list (Z * S)) (b : list S) : x ++ tagged k a = tagged k b -> x = tagged k (firstn (length x) b) /\ a = skipn (length x) b /\ length x <= length b.
  Proof.
    intros H. assert (Hl : length x + length a = length b).
    { apply (f_equal (@length _)) in H. unfold ResultChunkProofs.tagged in H. rewrite app_length, !map_length in H. exact H. }
    rewrite <- (firstn_skipn (length x) b), tagged_app in H.
    assert (Hx : length x = length (tagged k (firstn (length x) b))).
    { unfold ResultChunkProofs.tagged. rewrite map_length, firstn_length. lia. }
    destruct (app_len_inj _ _ _ _ Hx H) as [E E2].
    split; [exact E|]. split; [|lia].
    apply (f_equal (map snd)) in E2. unfold ResultChunkProofs.tagged in E2. rewrite !map_map in E2. cbn in E2. rewrite !map_id in E2. exact E2.
  Qed.

  (** A window moves on by one share of each key. *)
  Lemma oi_window v st stop fuel w r :
    OI v st stop ->
    win_inner fuel kid window counts (mkWin st (map (fun kn => (fst kn, 0%Z)) counts) 0%Z false stop) = (w, r) ->
    match r with
    | None => OI (Datatypes.S v) (w_it w) (w_stop w)
    | Some e => (exists k, In k order /\ fin k = Some e) \/ (e = OutOfFuel /\ fuel < maxcnt + 2)
    end.
  Proof.
    intros [HC Hs Hd] Hi.
    assert (HW : WI (windows v) (fun k => skipn (v * nn k) (items k)) 0 [] order (fun _ => [])
                    (mkWin st (map (fun kn => (fst kn, 0%Z)) counts) 0%Z false stop)).
    { split; cbn [w_it w_yielded w_stop]; auto.
      - intros k _. unfold processed, zlen. cbn [w_processed length]. unfold lookup0.
        assert (E : forall l : list (mkey * Z), match aget mkey_eqb k (map (fun kn => (fst kn, 0%Z)) l) with Some v0 => v0 | None => 0%Z end = 0%Z);
          [|apply E].
        induction l as [|[k' n'] l IH]; [reflexivity|]. cbn. destruct (mkey_eqb k k'); [reflexivity|exact IH].
      - unfold zlen. cbn. clear. induction order as [|x l IH]; [reflexivity|]. cbn [map]. rewrite zsum_cons, <- IH. reflexivity.
      - intros k Hk. unfold zlen. cbn. apply cnt_pos, Hk.
      - intros k [].
      - intros k Hk. assert (Hko : In k order) by apply (co_del _ _ _ _ _ _ _ HC k Hk).
        apply (Hd k Hko) in Hk. unfold zlen. cbn. unfold nn in Hk. pose proof (cnt_pos k Hko).
        destruct (Z.eq_dec (cnt k) 0) as [E|]; [rewrite E in Hk; lia|lia]. }
    pose proof (win_inner_spec _ _ fuel 0 _ _ w r HW Hi) as Hr. destruct r as [e|].
    { destruct Hr as [Hr|[-> Hr]]; [left; exact Hr|right]. split; [reflexivity|lia]. }
    destruct Hr as (t' & HE). destruct HE as [E1 E2 E3 E4].
    assert (Ht : forall k, In k order -> t' k = tagged k (share v k)
                 /\ exists rest, aget mkey_eqb k (it_streams (w_it w)) = Some (rest, fin k) /\ rest = skipn (Datatypes.S v * nn k) (items k)
                 /\ (In k (it_deleted (w_it w)) <-> length (items k) < Datatypes.S v * nn k)).
    { intros k Hk. destruct (co_str _ _ _ _ _ _ _ E1 k Hk) as (rest & Hg & Hrest).
      destruct (tagged_inj_len _ _ _ _ Hrest) as (T1 & T2 & T3). rewrite skipn_length in T3.
      pose proof (cnt_pos k Hk) as Hp.
      assert (Hsk : skipn (Datatypes.S v * nn k) (items k) = skipn (nn k) (skipn (v * nn k) (items k))).
      { rewrite skipn_skipn. f_equal. lia. }
      destruct (in_dec_kmem k (it_deleted (w_it w))) as [Hdk|Hdk].
      - destruct (co_del _ _ _ _ _ _ _ E1 k Hdk) as (_ & D2 & _).
        pose proof (E3 k Hdk) as Hlt. unfold zlen in Hlt.
        assert (Hll : length (t' k) = length (items k) - v * nn k).
        { rewrite D2. unfold ResultChunkProofs.tagged. rewrite map_length, skipn_length. reflexivity. }
        split; [|exists rest; split; [exact Hg|split]].
        + rewrite D2. unfold share. rewrite firstn_all2; [reflexivity|]. rewrite skipn_length. unfold nn in *. lia.
        + rewrite Hsk. rewrite T2. rewrite !skipn_all2; [reflexivity| |]; rewrite skipn_length; unfold nn in *; lia.
        + split; [|tauto]. intros _. unfold nn in *. lia.
      - destruct (E2 k Hk) as [|Heq]; [contradiction|]. unfold zlen in Heq.
        assert (Hlen : length (t' k) = nn k) by (unfold nn; lia).
        split; [|exists rest; split; [exact Hg|split]].
        + rewrite T1. rewrite Hlen. reflexivity.
        + rewrite Hsk, T2, Hlen. reflexivity.
        + split; [tauto|]. intros Hlt. exfalso. rewrite Hlen in T3. cbn in Hlt. unfold nn in *. nia. }
    split.
    - split.
      + unfold windows. rewrite seq_S, flat_map_app. cbn [flat_map Nat.add]. rewrite app_nil_r.
        rewrite (co_out _ _ _ _ _ _ _ E1). fold (windows v). rewrite <- app_assoc. f_equal. unfold one_window.
        rewrite (rr_nil (fun _ : mkey => @nil (Z * S)) order) by reflexivity. rewrite app_nil_r. f_equal.
        apply map_ext_in. intros k Hk. apply Ht, Hk.
      + apply (co_keys _ _ _ _ _ _ _ E1).
      + intros k Hk. destruct (Ht k Hk) as (_ & rest & Hg & Hrest & _). exists rest. split; [exact Hg|]. cbn [app]. f_equal. exact Hrest.
      + apply (co_nd _ _ _ _ _ _ _ E1).
      + intros k Hk. destruct (co_del _ _ _ _ _ _ _ E1 k Hk) as (Hko & _ & Hf). split; [exact Hko|]. split; [|exact Hf].
        destruct (Ht k Hko) as (_ & rest & _ & _ & Hiff). apply Hiff in Hk. rewrite skipn_all2 by lia. reflexivity.
    - exact E4.
    - intros k Hk. destruct (Ht k Hk) as (_ & rest & _ & _ & Hiff). exact Hiff.
  Qed.

  (** ** All windows.  The iteration is over when every key has run dry, or, without best effort, when one has. *)
  Definition over (best : bool) (v : nat) : Prop :=
    (forall k, In k order -> length (items k) < v * nn k)
    \/ (best = false /\ exists k, In k order /\ length (items k) < v * nn k).

  Lemma over_test best v st stop : OI v st stop -> (alive st && (best || negb stop) = false <-> over best v).
  Proof.
    intros [HC Hs Hd]. pose proof (core_alive kid streams0 order Hkeys Hperm _ _ _ _ HC) as Ha. unfold alive.
    rewrite andb_false_iff, orb_false_iff, negb_false_iff. split.
    - intros [H|[Hb H]].
      + left. intros k Hk. apply Hd; [exact Hk|]. apply Ha; assumption.
      + right. split; [exact Hb|]. apply Hs in H. destruct (it_deleted st) as [|k l] eqn:E; [congruence|].
        assert (Hko : In k order) by (apply (co_del _ _ _ _ _ _ _ HC k); rewrite E; left; reflexivity).
        exists k. split; [exact Hko|]. apply Hd; [exact Hko|]. left. reflexivity.
    - intros [H|[Hb (k & Hk & H)]].
      + left. apply Ha. intros k Hk. apply Hd; auto.
      + right. split; [exact Hb|]. apply Hs. apply Hd in H; [|exact Hk]. destruct (it_deleted st); [destruct H|discriminate].
  Qed.

  Lemma over_mono best v v' : v <= v' -> over best v -> over best v'.
  Proof.
    intros Hv [H|[Hb (k & Hk & H)]].
    - left. intros k Hk. specialize (H k Hk). nia.
    - right. split; [exact Hb|]. exists k. split; [exact Hk|]. nia.
  Qed.

  Lemma win_outer_spec best fuel : forall v st stop st' r,
    OI v st stop -> (forall u, u < v -> ~ over best u) -> win_outer fuel kid window best counts st stop = (st', r) ->
    match r with
    | StopIter => exists v', it_out st' = windows v' /\ over best v' /\ (forall u, u < v' -> ~ over best u)
                    /\ forall k, In k order -> length (items k) < v' * nn k -> fin k = None
    | Raise e => (exists k, In k order /\ fin k = Some e)
                 \/ (e = OutOfFuel /\ forall U, over best U -> fuel + v < U + maxcnt + 3)
    | Yield _ => False
    end.
  Proof.
    induction fuel as [|fuel IH]; intros v st stop st' r HO Hnot Hw; cbn [win_outer] in Hw.
    - injection Hw as <- <-. right. split; [reflexivity|]. intros U HU.
      destruct (Nat.lt_ge_cases U v) as [Hlt|Hge]; [|lia]. destruct (Hnot U Hlt HU).
    - destruct (alive st && (best || negb stop)) eqn:Et.
      + assert (Hnv : ~ over best v).
        { intros H. apply (over_test best v st stop HO) in H. congruence. }
        assert (Hnot' : forall u, u < Datatypes.S v -> ~ over best u).
        { intros u Hu HU. apply Hnv. eapply over_mono; [|exact HU]. lia. }
        destruct (win_inner fuel kid window counts _) as [w [e|]] eqn:Ei in Hw.
        * injection Hw as <- <-. pose proof (oi_window v st stop fuel w (Some e) HO Ei) as [H|[-> H]]; [left; exact H|right].
          split; [reflexivity|]. intros U HU. destruct (Nat.le_gt_cases U v) as [Hle|Hgt]; [|lia].
          destruct Hnv. eapply over_mono; eassumption.
        * pose proof (oi_window v st stop fuel w None HO Ei) as HO'.
          specialize (IH _ _ _ _ _ HO' Hnot' Hw). destruct r as [?| |e]; [exact IH|exact IH|].
          destruct IH as [IH|[-> IH]]; [left; exact IH|right; split; [reflexivity|]]. intros U HU. specialize (IH U HU). lia.
      + injection Hw as <- <-. exists v. destruct HO as [HC Hs Hd]. split; [|split; [|split; [exact Hnot|]]].
        * rewrite (co_out _ _ _ _ _ _ _ HC). rewrite (rr_nil (fun _ : mkey => @nil (Z * S)) order) by reflexivity. apply app_nil_r.
        * apply (over_test best v st stop); [split; assumption|exact Et].
        * intros k Hk Hlt. apply Hd in Hlt; [|exact Hk]. apply (co_del _ _ _ _ _ _ _ HC k Hlt).
  Qed.
End Win.
