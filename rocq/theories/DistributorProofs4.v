(** Checkpoint rounds. *)
From Verif Require Import Base MixtureKeyModel UtilsModel ChunkGenModel DistributorModel SpecDistributor DistributorProofs
  DistributorProofs2 DistributorProofs3.
From Coq Require Import ZifyBool ZifyNat.
Open Scope Z_scope.

Lemma existsb_p2 t l : existsb (p2_eqb t) l = true <-> In t l.
Proof.
  rewrite existsb_exists. split.
  - intros (x & Hx & E). apply p2_eqb_spec in E. subst. exact Hx.
  - intros H. exists t. split; [exact H|]. apply p2_eqb_spec. reflexivity.
Qed.

Definition all_nodes (dp nodes : Z) : list p2 := flat_map (fun g => map (fun n => (g, n)) (zrange 0 nodes)) (zrange 0 dp).
Lemma in_all_nodes dp nodes g n : In (g, n) (all_nodes dp nodes) <-> 0 <= g < dp /\ 0 <= n < nodes.
Proof.
  unfold all_nodes. rewrite in_flat_map. split.
  - intros (g' & Hg & H). apply in_map_iff in H as (n' & [= -> ->] & Hn). apply in_zrange in Hg, Hn. auto.
  - intros (Hg & Hn). exists g. split; [apply in_zrange, Hg|]. apply in_map_iff. exists n. split; [reflexivity|apply in_zrange, Hn].
Qed.
Lemma NoDup_all_nodes dp nodes : NoDup (all_nodes dp nodes).
Proof.
  unfold all_nodes. apply NoDup_flat_map; [apply NoDup_zrange| |].
  - intros g _. apply FinFun.Injective_map_NoDup; [|apply NoDup_zrange]. intros a b [= ->]. reflexivity.
  - intros a b t _ _ Ha Hb. apply in_map_iff in Ha as (? & <- & _), Hb as (? & E & _). congruence.
Qed.
Lemma all_nodes_length dp nodes : 0 <= dp -> 0 <= nodes -> Z.of_nat (length (all_nodes dp nodes)) = dp * nodes.
Proof.
  intros Hd Hn. unfold all_nodes.
  assert (H : forall l : list Z, length (flat_map (fun g => map (fun n => (g, n)) (zrange 0 nodes)) l) = (length l * length (zrange 0 nodes))%nat).
  { induction l as [|x l IH]; cbn; [reflexivity|]. rewrite app_length, map_length, IH. reflexivity. }
  rewrite H. pose proof (zrange_length 0 dp). pose proof (zrange_length 0 nodes). nia.
Qed.

(** A list of different nodes has full length iff it has all nodes. *)
Lemma covers dp nodes (l : list p2) :
  0 <= dp -> 0 <= nodes -> NoDup l -> (forall g n, In (g, n) l -> 0 <= g < dp /\ 0 <= n < nodes) ->
  Z.of_nat (length l) <= dp * nodes /\
  (Z.of_nat (length l) = dp * nodes <-> forall g n, 0 <= g < dp -> 0 <= n < nodes -> In (g, n) l).
Proof.
  intros Hd Hn Hnd Hv.
  assert (Hincl : incl l (all_nodes dp nodes)) by (intros [g n] H; apply in_all_nodes, Hv, H).
  pose proof (NoDup_incl_length Hnd Hincl) as Hle. pose proof (all_nodes_length dp nodes Hd Hn) as Hal.
  split; [lia|]. split.
  - intros Hl g n Hg Hn'. assert (Hi : incl (all_nodes dp nodes) l).
    { apply NoDup_length_incl; [exact Hnd|lia|exact Hincl]. }
    apply Hi, in_all_nodes. auto.
  - intros H. assert (Hi : incl (all_nodes dp nodes) l) by (intros [g n] Hi; apply in_all_nodes in Hi; apply H; tauto).
    pose proof (NoDup_incl_length (NoDup_all_nodes dp nodes) Hi). lia.
Qed.

(** ** The largest reported index *)
Definition pushes (l : list (p2 * Z)) (m : list (p2 * Z)) : list (p2 * Z) :=
  fold_left (fun m kx => push_max (fst kx) (snd kx) m) l m.

Lemma pushes_get l : forall m k x,
  aget p2_eqb k (pushes l m) = Some x <->
  (aget p2_eqb k m = Some x \/ In (k, x) l) /\ (forall y, aget p2_eqb k m = Some y \/ In (k, y) l -> y <= x).
Proof.
  induction l as [|[k0 x0] l IH]; intros m k x; unfold pushes; cbn [fold_left].
  - split.
    + intros H. split; [auto|]. intros y [H'|[]]. rewrite H in H'. injection H' as <-. lia.
    + intros [[H|[]] _]. exact H.
  - fold (pushes l (push_max k0 x0 m)). cbn [fst snd]. rewrite IH.
    assert (Hp : forall z, aget p2_eqb k (push_max k0 x0 m) = Some z <->
      if p2_eqb k0 k then z = match aget p2_eqb k m with Some y => Z.max x0 y | None => x0 end else aget p2_eqb k m = Some z).
    { intros z. unfold push_max. rewrite (aget_aset _ p2_eqb_spec). destruct (p2_eqb k0 k) eqn:E; [|tauto].
      apply p2_eqb_spec in E. subst k0. split; [intros [= <-]; reflexivity|intros ->; reflexivity]. }
    setoid_rewrite Hp. destruct (p2_eqb k0 k) eqn:E.
    + apply p2_eqb_spec in E. subst k0. destruct (aget p2_eqb k m) as [y0|] eqn:Em.
      * split.
        -- intros [Ha Hb]. split.
           ++ destruct Ha as [->|Ha]; [|right; right; exact Ha].
              destruct (Z.le_ge_cases x0 y0); [left; f_equal; lia|right; left; f_equal; lia].
           ++ pose proof (Hb _ (or_introl eq_refl)). intros y [[= <-]|[[= <-]|Hy]]; [lia|lia|apply Hb; auto].
        -- intros [Ha Hb]. pose proof (Hb _ (or_introl eq_refl)) as H1. pose proof (Hb x0 (or_intror (or_introl eq_refl))) as H2. split.
           ++ destruct Ha as [[= ->]|[[= ->]|Ha]]; [left; lia|left; lia|auto].
           ++ intros y [->|Hy]; [lia|apply Hb; right; right; exact Hy].
      * split.
        -- intros [Ha Hb]. split.
           ++ destruct Ha as [->|Ha]; [right; left; reflexivity|right; right; exact Ha].
           ++ pose proof (Hb _ (or_introl eq_refl)). intros y [[=]|[[= <-]|Hy]]; [lia|apply Hb; auto].
        -- intros [Ha Hb]. split.
           ++ destruct Ha as [[=]|[[= ->]|Ha]]; auto.
           ++ intros y [->|Hy]; apply Hb; right; [left; reflexivity|right; exact Hy].
    + assert (Hne : k0 <> k) by (intros ->; rewrite (eqb_refl_ _ p2_eqb_spec) in E; discriminate).
      split; intros [Ha Hb]; (split; [destruct Ha as [Ha|Ha]; [auto|]|intros y [Hy|Hy]; apply Hb; auto]).
      * right; right; exact Ha.
      * destruct Hy as [[= <- <-]|Hy]; [congruence|auto].
      * destruct Ha as [[= <- <-]|Ha]; [congruence|auto].
      * right; right; exact Hy.
Qed.

Definition status_pairs (stat : list (p2 * list Z)) : list (p2 * Z) :=
  flat_map (fun kv => map (fun wx => ((fst (fst kv), fst wx), snd wx)) (zenum 0 (snd kv))) stat.
Lemma max_status_pushes stat : max_status stat = pushes (status_pairs stat) [].
Proof.
  unfold max_status. generalize (@nil (p2 * Z)) as m. induction stat as [|[[g n] st] stat IH]; intros m; [reflexivity|].
  cbn [fold_left]. rewrite IH. unfold status_pairs. cbn [flat_map fst snd]. unfold pushes. rewrite fold_left_app. f_equal.
  generalize (zenum 0 st) as l. intros l. revert m. induction l as [|wx l IHl]; intros m; [reflexivity|]. cbn. apply IHl.
Qed.
Lemma in_zenum l : forall i w x, In (w, x) (zenum i l) <-> i <= w /\ nth_error l (Z.to_nat (w - i)) = Some x.
Proof.
  induction l as [|y l IH]; intros i w x; cbn [zenum In].
  - split; [tauto|]. intros [_ H]. destruct (Z.to_nat (w - i)); discriminate.
  - rewrite IH. split.
    + intros [[= <- <-]|[Hw Hn]]; [rewrite Z.sub_diag; split; [lia|reflexivity]|]. split; [lia|].
      replace (Z.to_nat (w - i)) with (S (Z.to_nat (w - (i + 1)))) by lia. exact Hn.
    + intros [Hw Hn]. destruct (Z.eq_dec w i) as [->|Hne].
      * rewrite Z.sub_diag in Hn. cbn in Hn. injection Hn as <-. auto.
      * right. split; [lia|]. replace (Z.to_nat (w - i)) with (S (Z.to_nat (w - (i + 1)))) in Hn by lia. exact Hn.
Qed.
Lemma in_status_pairs stat g w x : 0 <= w ->
  In ((g, w), x) (status_pairs stat) <-> exists n st, In ((g, n), st) stat /\ nth_error st (Z.to_nat w) = Some x.
Proof.
  intros Hw. unfold status_pairs. rewrite in_flat_map. split.
  - intros ([[g' n] st] & Hin & H). cbn in H. apply in_map_iff in H as ([w' x'] & [= -> -> ->] & H).
    apply in_zenum in H as [_ H]. rewrite Z.sub_0_r in H. eauto.
  - intros (n & st & Hin & H). exists ((g, n), st). split; [exact Hin|]. cbn. apply in_map_iff. exists (w, x).
    split; [reflexivity|]. apply in_zenum. rewrite Z.sub_0_r. auto.
Qed.
Lemma max_status_spec stat g w x : 0 <= w ->
  aget p2_eqb (g, w) (max_status stat) = Some x <-> largest_reported stat g w x.
Proof.
  intros Hw. rewrite max_status_pushes, pushes_get. unfold largest_reported. cbn [aget].
  rewrite (in_status_pairs stat g w x Hw). split.
  - intros [[H|H] Hm]; [discriminate|]. split; [exact H|]. intros n st y Hin Hn. apply Hm. right.
    apply (in_status_pairs stat g w y Hw). eauto.
  - intros [H Hm]. split; [auto|]. intros y [H'|H']; [discriminate|].
    apply (in_status_pairs stat g w y Hw) in H' as (n & st & Hin & Hn). eauto.
Qed.
Lemma max_status_total stat g w n st : 0 <= w -> In ((g, n), st) stat -> w < Z.of_nat (length st) ->
  exists x, aget p2_eqb (g, w) (max_status stat) = Some x.
Proof.
  intros Hw Hin Hl. rewrite max_status_pushes.
  assert (Hp : exists y, In ((g, w), y) (status_pairs stat)).
  { destruct (nth_error st (Z.to_nat w)) as [y|] eqn:E; [|apply nth_error_None in E; lia].
    exists y. apply in_status_pairs; [exact Hw|]. eauto. }
  destruct Hp as [y Hy]. generalize dependent y. generalize (@nil (p2 * Z)) as m. induction (status_pairs stat) as [|[k x] l IH]; intros m y Hy; [destruct Hy|].
  unfold pushes. cbn [fold_left fst snd]. fold (pushes l (push_max k x m)). destruct Hy as [[= -> ->]|Hy]; [|eauto].
  assert (Hk : exists z, aget p2_eqb (g, w) (push_max (g, w) y m) = Some z).
  { unfold push_max. rewrite (aget_aset_same _ p2_eqb_spec). eauto. }
  clear - Hk. revert Hk. generalize (push_max (g, w) y m). induction l as [|[k' x'] l IH]; intros m' [z Hz]; [exists z; exact Hz|].
  unfold pushes. cbn [fold_left fst snd]. fold (pushes l (push_max k' x' m')). apply IH.
  unfold push_max. rewrite (aget_aset _ p2_eqb_spec). destruct (p2_eqb k' (g, w)); eauto.
Qed.

(** ** Agreement of positions *)
Lemma same_chunk_spec {C} dp nodes nw B (cache : list (p2 * (C * Z))) usage next P F :
  core dp nodes nw B cache usage next P F ->
  (same_chunk next = true <-> forall g a b w, valid_slot dp nodes nw g a w -> valid_slot dp nodes nw g b w -> P g a w = P g b w).
Proof.
  intros H. unfold same_chunk. rewrite forallb_forall. split.
  - intros Hs g a b w Ha Hb. pose proof (c_next _ _ _ _ _ _ _ _ _ H _ _ _ Ha) as Ea. pose proof (c_next _ _ _ _ _ _ _ _ _ H _ _ _ Hb) as Eb.
    apply (aget_in _ p3_eqb_spec) in Ea, Eb. specialize (Hs _ Ea). cbn in Hs. rewrite forallb_forall in Hs.
    specialize (Hs _ Eb). cbn in Hs. rewrite !Z.eqb_refl in Hs. cbn in Hs. pose proof (c_nw _ _ _ _ _ _ _ _ _ H). nia.
  - intros Hs [[[g a] w] v] Hin. rewrite forallb_forall. intros [[[g' b] w'] v'] Hin'.
    destruct (Z.eqb_spec g g') as [<-|]; [|reflexivity]. destruct (Z.eqb_spec w w') as [<-|]; [|reflexivity]. cbn.
    pose proof (in_aget _ p3_eqb_spec _ _ _ (c_ndn _ _ _ _ _ _ _ _ _ H) Hin) as E1.
    pose proof (in_aget _ p3_eqb_spec _ _ _ (c_ndn _ _ _ _ _ _ _ _ _ H) Hin') as E2.
    pose proof (c_out _ _ _ _ _ _ _ _ _ H _ _ _ _ E1) as V1. pose proof (c_out _ _ _ _ _ _ _ _ _ H _ _ _ _ E2) as V2.
    rewrite (c_next _ _ _ _ _ _ _ _ _ H _ _ _ V1) in E1. rewrite (c_next _ _ _ _ _ _ _ _ _ H _ _ _ V2) in E2.
    injection E1 as <-. injection E2 as <-. rewrite (Hs g a b w V1 V2). apply Z.eqb_refl.
Qed.

(** ** Rounds *)
Section Rounds.
  Context {C : Type}.
  Variable src : nat -> qout C.
  Variables dp nodes : Z.
  Variable m0 : Z.   (** the checkpoint counter this process started with *)
  Hypothesis Hdp : 1 <= dp.

  Record ck_inv (s : dist C) (acc : list (p2 * list Z)) (m : Z) : Prop := {
    k_dp : d_dp s = dp; k_nodes : d_nodes s = nodes;
    k_rep : d_rep s = map fst acc; k_stat : d_stat s = acc; k_nd : NoDup (map fst acc);
    k_valid : forall g n, In (g, n) (map fst acc) -> 0 <= g < dp /\ 0 <= n < nodes;
    k_m : m0 <= m;
    k_ctr : d_ctr s = match acc with [] => m | _ => m + 1 end;
    k_cur : d_cur s = match acc with [] => None | _ => Some (m + 1) end;
    k_info : forall id, aget Z.eqb id (d_info s)
             = if (m0 + 1 <=? id) && (id <=? m) then Some CStarted
               else match acc with [] => None | _ => if id =? m + 1 then Some CEmpty else None end
  }.

  Inductive ck_result (g n : Z) (st : list Z) (srv qd : bool) (s : dist C) (acc : list (p2 * list Z)) (m : Z)
    : dist C -> ckout -> option (job C) -> list (p2 * list Z) -> Z -> Prop :=
  | cr_unsupported : dp = 1 -> nodes = 1 -> 0 < d_og s -> srv = false ->
      ck_result g n st srv qd s acc m s (CkErr NotImplementedError) None acc m
  | cr_forked : d_forked s = true -> ck_result g n st srv qd s acc m s (CkErr RuntimeError) None acc m
  | cr_again : In (g, n) (map fst acc) -> ck_result g n st srv qd s acc m s (CkErr RuntimeError) None acc m
  | cr_wait s' : ~ In (g, n) (map fst acc) -> Z.of_nat (length acc) + 1 < dp * nodes ->
      ck_result g n st srv qd s acc m s' (CkId (m + 1)) None (acc ++ [((g, n), st)]) m
  | cr_fail s' : ~ In (g, n) (map fst acc) -> Z.of_nat (length acc) + 1 = dp * nodes ->
      same_chunk (d_next s) = false \/ (m = 0 /\ d_cached s = false /\ qd = false) ->
      ck_result g n st srv qd s acc m s' (CkErr RuntimeError) None (acc ++ [((g, n), st)]) m
  | cr_start s' : ~ In (g, n) (map fst acc) -> Z.of_nat (length acc) + 1 = dp * nodes ->
      same_chunk (d_next s) = true -> ~ (m = 0 /\ d_cached s = false /\ qd = false) ->
      ck_result g n st srv qd s acc m s' (CkId (m + 1))
        (Some (mkJob (m + 1) (mkSaved (d_cache s) (d_usage s) (d_next s) (d_dp s) (d_nw s) (d_nodes s) (m + 1) (d_calls s))
                     (max_status (acc ++ [((g, n), st)])) ((m + 1 =? 1) && d_cached s))) [] (m + 1).

  Lemma ck_step g n st srv qd s acc m s' r j :
    ck_inv s acc m -> 0 <= g < dp -> 0 <= n < nodes -> checkpoint g n st srv qd s = (s', r, j) ->
    exists acc' m', ck_inv s' acc' m' /\ ck_result g n st srv qd s acc m s' r j acc' m'.
  Proof.
    intros Hi Hg Hn Hc. pose proof Hi as [H1 H2 H3 H4 H5 H6 H7 H8 H9 H10]. unfold checkpoint in Hc.
    destruct ((d_dp s =? 1) && (d_nodes s =? 1) && (0 <? d_og s) && negb srv) eqn:Eu.
    { injection Hc as <- <- <-. exists acc, m. split; [exact Hi|]. rewrite !andb_true_iff in Eu. destruct srv; cbn in Eu.
      - destruct Eu; discriminate.
      - apply cr_unsupported; lia || reflexivity. }
    destruct (d_forked s) eqn:Ef.
    { injection Hc as <- <- <-. exists acc, m. split; [exact Hi|]. apply cr_forked, Ef. }
    rewrite H3 in Hc. destruct (existsb (p2_eqb (g, n)) (map fst acc)) eqn:Ee.
    { injection Hc as <- <- <-. exists acc, m. split; [exact Hi|]. apply cr_again, existsb_p2, Ee. }
    assert (Hni : ~ In (g, n) (map fst acc)) by (intros H; apply existsb_p2 in H; congruence).
    set (acc1 := acc ++ [((g, n), st)]).
    assert (Hst : aset p2_eqb (g, n) st (d_stat s) = acc1).
    { rewrite H4. apply aset_perm_new. apply (aget_none _ p2_eqb_spec). exact Hni. }
    assert (Hmap : map fst acc ++ [(g, n)] = map fst acc1) by (unfold acc1; rewrite map_app; reflexivity).
    set (info1 := match acc with [] => aset Z.eqb (m + 1) CEmpty (d_info s) | _ => d_info s end).
    set (s1 := with_ck s acc1 (map fst acc1) (m + 1) (Some (m + 1)) info1).
    assert (Hform : (if Z.of_nat (length (map fst acc1)) =? d_dp s * d_nodes s
                     then match validate s1 with
                          | Err e => (s1, CkErr e, None)
                          | Ok ids => match start_checkpointing s1 (m + 1) ids qd with
                                      | Err e => (s1, CkErr e, None)
                                      | Ok j => (with_ck s1 [] [] (m + 1) None (aset Z.eqb (m + 1) CStarted info1), CkId (m + 1), Some j)
                                      end
                          end
                     else (s1, CkId (m + 1), None)) = (s', r, j)).
    { rewrite <- Hc, Hst, Hmap, H9, H8. unfold s1, info1. destruct acc; reflexivity. }
    clear Hc. assert (Hne : match acc1 with [] => False | _ => True end) by (unfold acc1; destruct acc; exact I).
    assert (Hi1 : ck_inv s1 acc1 m).
    { constructor; try assumption; try reflexivity.
      - unfold acc1. rewrite map_app. cbn. apply NoDup_app_iff. split; [exact H5|]. split; [repeat constructor; intros []|].
        intros x Hx [<-|[]]. contradiction.
      - intros a b. unfold acc1. rewrite map_app, in_app_iff. cbn. intros [H|[[= <- <-]|[]]]; auto.
      - unfold s1. cbn. destruct acc1; [contradiction|reflexivity].
      - unfold s1. cbn. destruct acc1; [contradiction|reflexivity].
      - intros id. unfold s1. cbn. assert (Ha1 : forall (X : Type) (a b : X), match acc1 with [] => a | _ => b end = b).
        { intros. destruct acc1; [contradiction|reflexivity]. }
        rewrite Ha1. unfold info1. destruct acc as [|x acc].
        + rewrite (aget_aset _ Z.eqb_eq), H10. rewrite (Z.eqb_sym (m + 1) id). destruct (Z.eqb_spec id (m + 1)) as [->|]; [|reflexivity].
          replace ((m0 + 1 <=? m + 1) && (m + 1 <=? m)) with false by lia. reflexivity.
        + rewrite H10. reflexivity. }
    assert (Hlen : length (map fst acc1) = S (length acc)) by (unfold acc1; rewrite map_length, app_length; cbn; lia).
    assert (Hnodes : 0 <= nodes) by lia.
    assert (Hcov : Z.of_nat (length (map fst acc1)) <= dp * nodes).
    { apply covers; [lia|exact Hnodes|apply (k_nd _ _ _ Hi1)|apply (k_valid _ _ _ Hi1)]. }
    rewrite H1, H2 in Hform. destruct (Z.eqb_spec (Z.of_nat (length (map fst acc1))) (dp * nodes)) as [El|El].
    - unfold validate in Hform. cbn [s1 with_ck d_next d_stat] in Hform.
      destruct (same_chunk (d_next s)) eqn:Es.
      + unfold start_checkpointing in Hform. cbn [s1 with_ck d_ctr d_cached] in Hform.
        destruct ((m + 1 =? 1) && negb (d_cached s) && negb qd) eqn:Est.
        * injection Hform as <- <- <-. exists acc1, m. split; [exact Hi1|]. apply cr_fail; [exact Hni|lia|].
          right. destruct (d_cached s), qd; cbn in *; try lia. all: repeat split; lia.
        * injection Hform as <- <- <-. exists [], (m + 1). split.
          -- constructor; cbn; try assumption; try reflexivity; try (constructor); try (intros ? ? []); try lia.
             intros id. rewrite (aget_aset _ Z.eqb_eq). unfold info1. rewrite (Z.eqb_sym (m + 1) id).
             destruct (Z.eqb_spec id (m + 1)) as [->|Hid].
             { replace ((m0 + 1 <=? m + 1) && (m + 1 <=? m + 1)) with true by lia. reflexivity. }
             replace ((m0 + 1 <=? id) && (id <=? m + 1)) with ((m0 + 1 <=? id) && (id <=? m)) by lia.
             destruct acc; rewrite ?(aget_aset _ Z.eqb_eq), H10, ?(Z.eqb_sym (m + 1) id).
             { destruct (Z.eqb_spec id (m + 1)); [contradiction|reflexivity]. }
             destruct (Z.eqb_spec id (m + 1)); [contradiction|reflexivity].
          -- apply cr_start; [exact Hni|lia|exact Es|]. intros (-> & Hca & ->). rewrite Hca in Est. discriminate.
      + injection Hform as <- <- <-. exists acc1, m. split; [exact Hi1|]. apply cr_fail; [exact Hni|lia|]. left. exact Es.
    - injection Hform as <- <- <-. exists acc1, m. split; [exact Hi1|]. apply cr_wait; [exact Hni|lia].
  Qed.
End Rounds.
