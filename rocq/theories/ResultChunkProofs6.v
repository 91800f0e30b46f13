(** Proofs about iterating a chunk: the two kinds of mixing. *)
From Verif Require Import Base MixtureKeyModel MixtureKeyProofs UtilsModel ChunkGenModel MixtureModel SpecSubseq SpecRoundRobin RoundRobin TokenModel
  ResultChunkModel ResultChunkProofs ResultChunkProofs2 ResultChunkProofs3 ResultChunkProofs4 ResultChunkProofs5 SpecToken SpecResultChunk.
From Coq Require Import QArith Qabs ZifyBool ZifyNat.
Local Open Scope nat_scope.

Lemma zsum_perm (a b : list Z) : Permutation a b -> zsum a = zsum b.
Proof. induction 1; rewrite ?zsum_cons; lia. Qed.

Lemma iterate_window_spec {S} fuel fl sh kid w c best mix (its : list (mkey * stream S)) ec out r :
  shuffle_ok sh -> element_counts fl w c mix = Ok ec -> zsum (map snd ec) = w -> Forall (fun kn => (0 <= snd kn)%Z) ec ->
  NoDup (map fst its) -> Permutation (map fst ec) (map fst its) ->
  (forall k, In k (map fst its) -> exists i, aget mkey_eqb k kid = Some i) ->
  iterate_window fuel fl sh kid w c best mix its = (out, r) ->
  let counts := sh_counts sh ec in let order := map fst counts in let n := nn counts in
  match r with
  | StopIter => exists v, first_over best order (items its) n v
      /\ out = flat_map (window_at order (key_id kid) n (items its)) (seq 0 v)
      /\ (forall k, In k order -> dry (items its) n v k -> fin its k = None)
  | Raise e => (exists k, In k order /\ fin its k = Some e)
               \/ (e = OutOfFuel /\ forall U, over best order (items its) n U -> fuel < U + maxcnt counts + 3)
  | Yield _ => False
  end.
Proof.
  intros Hsh He Hsum Hpos Hnd Hk Hkid Hi counts order n.
  assert (Hc : Permutation counts ec) by apply (so_counts _ Hsh).
  assert (Ho : Permutation order (map fst its)) by (unfold order; rewrite (Permutation_map fst Hc); exact Hk).
  assert (Hw : zsum (map snd counts) = w) by (rewrite <- Hsum; apply zsum_perm, Permutation_map, Hc).
  assert (Hp : Forall (fun kn => (0 <= snd kn)%Z) counts) by (eapply perm_Forall; [symmetry; exact Hc|exact Hpos]).
  assert (Hki : forall k, In k order -> exists i, aget mkey_eqb k kid = Some i).
  { intros k H. apply Hkid. eapply Permutation_in; [exact Ho|exact H]. }
  unfold iterate_window in Hi. rewrite He in Hi. fold counts in Hi.
  assert (Ht : forallb (fun kn : mkey * Z => amem mkey_eqb (fst kn) its) counts && forallb (fun ks : mkey * stream S => kmem (fst ks) (map fst counts)) its = true).
  { apply andb_true_iff. split; apply forallb_forall.
    - intros kn H. unfold amem. destruct (aget_some_in mkey_eqb mkey_eqb_spec (fst kn) its) as (x & ->); [|reflexivity].
      eapply Permutation_in; [exact Ho|]. apply in_map, H.
    - intros ks H. apply kmem_In. eapply Permutation_in; [symmetry; exact Ho|]. apply in_map, H. }
  rewrite Ht in Hi. cbn [negb] in Hi.
  destruct (win_outer fuel kid w best counts (mkIt its [] []) false) as [st r0] eqn:Ew. injection Hi as <- <-.
  rewrite <- Hw in Ew.
  pose proof (win_outer_spec kid its counts Hnd Ho Hki Hp best fuel 0 _ _ st r0 (oi_init kid its counts Ho Hki) ltac:(intros u Hu; lia) Ew) as H.
  destruct r0 as [u| |e]; [exact H| |].
  - destruct H as (v & H1 & H2 & H3 & H4). exists v. split; [split; [exact H2|exact H3]|]. split; [exact H1|]. intros k Hk' Hd. apply H4; assumption.
  - destruct H as [H|[-> H]]; [left; exact H|right]. split; [reflexivity|]. intros U HU. specialize (H U HU). lia.
Qed.

(** ** What windows contain *)
Lemma shares_concat {B} n (l : list B) v : concat (map (fun u => share n u l) (seq 0 v)) = firstn (v * n) l.
Proof.
  induction v as [|v IH]; [reflexivity|]. rewrite seq_S, map_app, concat_app, IH. cbn [map concat Nat.add]. rewrite app_nil_r.
  unfold share. replace (Datatypes.S v * n) with (v * n + n) by lia.
  rewrite <- (firstn_skipn (v * n) (firstn (v * n + n) l)) . f_equal.
  - rewrite firstn_firstn. f_equal. lia.
  - rewrite <- firstn_skipn_comm. reflexivity.
Qed.

Lemma flat_map_swap {X Y Z0} (f : X -> Y -> list Z0) (xs : list X) (ys : list Y) :
  Permutation (flat_map (fun x => flat_map (f x) ys) xs) (flat_map (fun y => flat_map (fun x => f x y) xs) ys).
Proof.
  induction xs as [|x xs IH]; cbn.
  - induction ys as [|y ys IH]; [constructor|exact IH].
  - rewrite IH. clear IH. induction ys as [|y ys IH]; cbn; [constructor|].
    rewrite <- !app_assoc. apply Permutation_app_head. rewrite <- IH. rewrite !app_assoc. apply Permutation_app_tail, Permutation_app_comm.
Qed.

Lemma windows_perm {B} order tag n (items : mkey -> list B) v :
  Permutation (flat_map (window_at order tag n items) (seq 0 v))
              (flat_map (fun k => map (pair (tag k)) (firstn (v * n k) (items k))) order).
Proof.
  transitivity (flat_map (fun u => flat_map (fun k => map (pair (tag k)) (share (n k) u (items k))) order) (seq 0 v)).
  - induction (seq 0 v) as [|u l IH]; [constructor|]. cbn. apply Permutation_app; [|exact IH].
    unfold window_at. rewrite rr_perm, flat_map_concat_map. reflexivity.
  - rewrite flat_map_swap. assert (E : forall k, flat_map (fun u => map (pair (tag k)) (share (n k) u (items k))) (seq 0 v) = map (pair (tag k)) (firstn (v * n k) (items k))).
    { intros k. rewrite <- shares_concat, concat_map, map_map, flat_map_concat_map. reflexivity. }
    rewrite (flat_map_ext_in' _ (fun k => map (pair (tag k)) (firstn (v * n k) (items k)))); [reflexivity|]. intros k _. apply E.
Qed.

(** Items of one key among the round robin. *)
Lemma rr_filter_key {B} order (tag : mkey -> Z) (f : mkey -> list B) k :
  NoDup order -> In k order -> (forall k', In k' order -> tag k' = tag k -> k' = k) ->
  filter (fun x => (fst x =? tag k)%Z) (round_robin (map (fun k => map (pair (tag k)) (f k)) order)) = map (pair (tag k)) (f k).
Proof.
  intros Hnd Hin Hinj. apply in_split in Hin as (o1 & o2 & ->). rewrite map_app. cbn [map].
  assert (Hno : forall k', In k' (o1 ++ o2) -> Forall (fun x : Z * B => (fst x =? tag k)%Z = false) (map (pair (tag k')) (f k'))).
  { intros k' Hk'. rewrite Forall_map. apply Forall_forall. intros b _. cbn. apply Z.eqb_neq. intros E.
    assert (k' = k) by (apply Hinj; [apply in_app_or in Hk'; apply in_or_app; cbn; tauto|exact E]). subst k'.
    apply NoDup_remove_2 in Hnd. contradiction. }
  apply rr_filter.
  - rewrite Forall_map. apply Forall_forall. intros k' Hk'. apply Hno, in_or_app. auto.
  - rewrite Forall_map. apply Forall_forall. intros b _. cbn. apply Z.eqb_refl.
  - rewrite Forall_map. apply Forall_forall. intros k' Hk'. apply Hno, in_or_app. auto.
Qed.

Section Iter.
  Context {A : Type}.
  Variable fl : Q -> Q.
  Variable read : Z -> Z -> list range -> stream A.
  Variable is_end is_none : A -> bool.
  Variable sh : shuffles.
  Variable cpu : Z.
  Hypothesis Hsh : shuffle_ok sh.

  Definition tags {B} (out : list (nat * Z * B)) : list (Z * B) := map (fun x => (snd (fst x), snd x)) out.
  Definition positions {B} (out : list (nat * Z * B)) : list nat := map (fun x => fst (fst x)) out.

  Lemma numbered_spec {B} (l : list (Z * B)) : tags (numbered 0 l) = l /\ positions (numbered 0 l) = seq 0 (length l).
  Proof.
    unfold numbered, tags, positions. rewrite numbered_shift. cbn [Nat.add]. rewrite !map_map. cbn [fst snd].
    split.
    - generalize 0. induction l as [|[i b] l IH]; intros a; [reflexivity|]. cbn. f_equal. apply IH.
    - generalize 0. induction l as [|[i b] l IH]; intros a; [reflexivity|]. cbn. f_equal. apply IH.
  Qed.
  Lemma numbered_len {B} (l : list (Z * B)) : length (numbered 0 l) = length l.
  Proof. unfold numbered. rewrite map_length, combine_length, seq_length. apply Nat.min_id. Qed.

  Variables (c : rc) (cf : rconf A).
  Hypothesis Hskip : rc_skip c = 0.
  Hypothesis Hnd : NoDup (map fst (rc_index c)).
  Hypothesis Hids : ids_known (rc_kid c) (rc_index c).

  Lemma kid_some k : In k (map fst (rc_index c)) -> exists i, aget mkey_eqb k (rc_kid c) = Some i.
  Proof. intros H. apply (aget_some_in mkey_eqb mkey_eqb_spec). apply Hids, H. Qed.

  Lemma in_index_get k : In k (map fst (rc_index c)) -> exists p, In (k, p) (rc_index c).
  Proof. intros H. apply in_map_iff in H as ([k' p] & <- & H). exists p. exact H. Qed.

  (** Round robin over the keys. *)
  Lemma iterate_simple_gen :
    rf_type cf = MSimple -> rf_tok cf = None -> reads_ok read (rc_index c) ->
    (rf_dop cf <> 1%Z -> plain read is_end (rc_index c) /\ mix_for c cf /\ rc_csize c <> 0%Z /\ rc_index c <> []) ->
    (rf_prefetch cf = true -> plain read is_none (rc_index c)) ->
    exists order (l : mkey -> list A) N,
      Permutation order (map fst (rc_index c))
      /\ (forall k p, In (k, p) (rc_index c) -> Permutation (l k) (part_samples read p) /\ delivered_order read sh cf k p (l k))
      /\ forall fuel, N <= fuel ->
           iterate fl read is_end is_none sh cpu fuel c cf
           = (numbered 0 (round_robin (map (fun k => map (pair (key_id (rc_kid c) k)) (map Text (l k))) order)), StopIter).
  Proof.
    intros Hty Htok Hok Hpar Hpf.
    destruct (init_text fl read is_end is_none sh cpu Hsh 0 c cf Hnd Hok Htok Hpar Hpf) as (its & E0 & Hp & _ & Hget).
    assert (E : forall fuel, init_iterators fl read is_end is_none sh cpu fuel c cf = Ok its).
    { intros fuel. rewrite <- E0. unfold init_iterators. rewrite Htok. reflexivity. }
    set (order := sh_keys sh (map fst its)).
    assert (Ho : Permutation order (map fst its)) by apply (so_keys _ Hsh).
    assert (Hoi : Permutation order (map fst (rc_index c))) by (rewrite Ho; exact Hp).
    assert (Hn : NoDup (map fst its)) by (eapply Permutation_NoDup; [symmetry; exact Hp|exact Hnd]).
    set (l := fun k => map (fun x => match x with Text a => [a] | Tokens _ => [] end) (items its k)).
    exists order, (fun k => concat (l k)), (longest its order + 2).
    assert (Hit : forall k p, In (k, p) (rc_index c) -> exists l0, items its k = map Text l0 /\ fin its k = None /\ concat (l k) = l0
        /\ Permutation l0 (part_samples read p) /\ delivered_order read sh cf k p l0).
    { intros k p Hin. destruct (Hget k p Hin) as (l0 & Hl & H1 & H2). exists l0. unfold l, items, fin. rewrite Hl. cbn [fst snd].
      split; [reflexivity|]. split; [reflexivity|]. split; [|split; assumption]. rewrite map_map. clear. induction l0; cbn; congruence. }
    split; [exact Hoi|]. split.
    { intros k p Hin. destruct (Hit k p Hin) as (l0 & _ & _ & E3 & E4 & E5). rewrite E3. auto. }
    intros fuel Hf. unfold iterate. rewrite E, Hty. unfold iterate_overall. fold order.
    destruct (ov_loop fuel (rc_kid c) order (mkIt its [] [])) as [st r] eqn:El.
    pose proof (ov_spec (rc_kid c) its order Hn Ho) as Hs.
    assert (Hki : forall k, In k order -> exists i, aget mkey_eqb k (rc_kid c) = Some i).
    { intros k Hk. apply kid_some. eapply Permutation_in; [exact Hoi|exact Hk]. }
    specialize (Hs Hki fuel st r Hf El). destruct r as [u| |e].
    - contradiction.
    - destruct Hs as [Hout _]. rewrite Hskip. cbn [skipn]. f_equal.
      assert (Eo : it_out st = round_robin (map (fun k => map (pair (key_id (rc_kid c) k)) (map Text (concat (l k)))) order)).
      { rewrite Hout. f_equal. apply map_ext_in. intros k Hk. unfold tagged.
        destruct (in_index_get k) as (p & Hin); [eapply Permutation_in; [exact Hoi|exact Hk]|].
        destruct (Hit k p Hin) as (l0 & E1 & _ & E3 & _). rewrite E3, E1. reflexivity. }
      rewrite Eo. reflexivity.
    - exfalso. destruct Hs as (k & Hk & Hfk). destruct (in_index_get k) as (p & Hin); [eapply Permutation_in; [exact Hoi|exact Hk]|].
      destruct (Hit k p Hin) as (l0 & _ & E2 & _). congruence.
  Qed.

  (** One reader at a time, no prefetching: a failing read is never hidden. *)
  Lemma iterate_simple_fail :
    rf_type cf = MSimple -> rf_tok cf = None -> rf_dop cf = 1%Z -> rf_prefetch cf = false -> ~ reads_ok read (rc_index c) ->
    exists N, forall fuel, N <= fuel -> exists out e k p d fs f rs,
      iterate fl read is_end is_none sh cpu fuel c cf = (out, Raise e)
      /\ In (k, p) (rc_index c) /\ In (d, fs) p /\ In (f, rs) fs /\ snd (read d f rs) = Some e.
  Proof.
    intros Hty Htok Hdop Hpf Hbad.
    set (its := map (fun ks => (fst ks, smap (@Text A) (snd ks))) (map (fun kw => (fst kw, st_iter read (snd kw))) (prepare_workloads sh (rc_index c)))).
    assert (E : forall fuel, init_iterators fl read is_end is_none sh cpu fuel c cf = Ok its).
    { intros fuel. unfold init_iterators, base_iterators. rewrite Hdop, Htok, Hpf. reflexivity. }
    assert (Hk : map fst its = map fst (rc_index c)).
    { unfold its, prepare_workloads. rewrite !map_map. reflexivity. }
    assert (Hg : forall k p, In (k, p) (rc_index c) -> aget mkey_eqb k its = Some (smap Text (st_iter read (sh_work sh k (flat_work p))))).
    { intros k p Hin. unfold its. rewrite (aget_map (fun _ s => smap Text s)), (aget_map (fun _ ws => st_iter read ws)).
      rewrite (in_work sh k p _ Hnd Hin). reflexivity. }
    set (order := sh_keys sh (map fst its)).
    assert (Ho : Permutation order (map fst its)) by apply (so_keys _ Hsh).
    assert (Hn : NoDup (map fst its)) by (rewrite Hk; exact Hnd).
    exists (longest its order + 2). intros fuel Hf. unfold iterate. rewrite E, Hty. unfold iterate_overall. fold order.
    destruct (ov_loop fuel (rc_kid c) order (mkIt its [] [])) as [st r] eqn:El.
    assert (Hki : forall k, In k order -> exists i, aget mkey_eqb k (rc_kid c) = Some i).
    { intros k H. apply kid_some. rewrite <- Hk. eapply Permutation_in; [exact Ho|exact H]. }
    pose proof (ov_spec (rc_kid c) its order Hn Ho Hki fuel st r Hf El) as Hs. destruct r as [u| |e].
    - contradiction.
    - exfalso. destruct Hs as [_ Hs]. apply Hbad. intros k p d fs f rs Hin Hd Hf'.
      assert (Hko : In k order). { eapply Permutation_in; [symmetry; exact Ho|]. rewrite Hk. apply in_map_iff. exists (k, p). auto. }
      specialize (Hs k Hko). unfold fin in Hs. rewrite (Hg k p Hin) in Hs. cbn [smap snd] in Hs. apply st_iter_none in Hs.
      assert (Hw : In (d, f, rs) (sh_work sh k (flat_work p))).
      { eapply Permutation_in; [symmetry; apply (so_work _ Hsh)|]. unfold flat_work. apply in_flat_map. exists (d, fs). split; [exact Hd|].
        apply in_map_iff. exists (f, rs). auto. }
      rewrite Forall_forall in Hs. apply (Hs _ Hw).
    - destruct Hs as (k & Hko & Hfk). destruct (in_index_get k) as (p & Hin); [rewrite <- Hk; eapply Permutation_in; [exact Ho|exact Hko]|].
      unfold fin in Hfk. rewrite (Hg k p Hin) in Hfk. cbn [smap snd] in Hfk.
      assert (Hex : exists d f rs, In (d, f, rs) (sh_work sh k (flat_work p)) /\ snd (read d f rs) = Some e).
      { revert Hfk. generalize (sh_work sh k (flat_work p)). induction l as [|[[d f] rs] l IH]; cbn; [discriminate|].
        destruct (read d f rs) as [x [e'|]] eqn:Er.
        - cbn. intros H. injection H as ->. exists d, f, rs. rewrite Er. auto.
        - destruct (st_iter read l) as [y o]. cbn. intros H. destruct (IH H) as (d' & f' & rs' & H1 & H2). exists d', f', rs'. auto. }
      destruct Hex as (d & f & rs & Hw & He). eapply Permutation_in in Hw; [|apply (so_work _ Hsh)].
      unfold flat_work in Hw. apply in_flat_map in Hw as ([d' fs] & Hd & Hff). apply in_map_iff in Hff as ([f' rs'] & Ee & Hff).
      injection Ee as <- <- <-. eexists _, e, k, p, d', fs, f', rs'. split; [reflexivity|]. auto.
  Qed.

  (** Windows. *)
  Definition float_ok (u : Q) : Prop := (0 <= u)%Q /\ (u <= 1)%Q /\ (forall x, (0 <= x)%Q -> (Qabs (fl x - x) <= x * u)%Q).

  Lemma first_over_unique {B} best order (it : mkey -> list B) n v v' : first_over best order it n v -> first_over best order it n v' -> v = v'.
  Proof.
    intros [H1 H2] [H3 H4]. destruct (Nat.lt_trichotomy v v') as [H|[H|H]]; [|auto|].
    - destruct (H4 v H H1).
    - destruct (H2 v' H H3).
  Qed.
  Lemma first_over_exists {B} best order (it : mkey -> list B) n U : over best order it n U -> exists v, first_over best order it n v.
  Proof.
    assert (Hdec : forall v, {over best order it n v} + {~ over best order it n v}).
    { intros v.
      set (b := forallb (fun k => length (it k) <? v * n k) order || (negb best && existsb (fun k => length (it k) <? v * n k) order)).
      assert (Hb : b = true <-> over best order it n v).
      { unfold b, over, dry. rewrite orb_true_iff, andb_true_iff, forallb_forall, existsb_exists, negb_true_iff. split.
        - intros [H|[H (k & Hk & H')]]; [left|right; split; [exact H|exists k; split; [exact Hk|]]].
          + intros k Hk. apply Nat.ltb_lt, H, Hk.
          + apply Nat.ltb_lt, H'.
        - intros [H|[H (k & Hk & H')]]; [left|right; split; [exact H|exists k; split; [exact Hk|]]].
          + intros k Hk. apply Nat.ltb_lt, H, Hk.
          + apply Nat.ltb_lt, H'. }
      destruct b; [left; apply Hb; reflexivity|right; intros H; apply Hb in H; discriminate]. }
    intros HU.
    assert (HX : (exists v, first_over best order it n v) \/ (forall u, u <= U -> ~ over best order it n u)).
    { clear HU. induction U as [|U IH].
      - destruct (Hdec 0) as [H|H]; [left; exists 0; split; [exact H|intros u Hu; lia]|right; intros u Hu; replace u with 0 by lia; exact H].
      - destruct IH as [IH|IH]; [left; exact IH|]. destruct (Hdec (Datatypes.S U)) as [H|H].
        + left. exists (Datatypes.S U). split; [exact H|]. intros u Hu. apply IH. lia.
        + right. intros u Hu. destruct (Nat.eq_dec u (Datatypes.S U)) as [->|]; [exact H|]. apply IH. lia. }
    destruct HX as [H|H]; [exact H|]. destruct (H U (Nat.le_refl _) HU).
  Qed.

  Lemma iterate_window_core u mix its N0 :
    float_ok u -> rf_type cf <> MSimple ->
    rf_mix cf = Some mix -> NoDup (map fst mix) -> Permutation (map fst mix) (map fst (rc_index c)) ->
    Forall (fun kv => (0 <= snd kv)%Z) mix -> zsum (map snd mix) = rc_csize c -> (0 < rc_csize c)%Z -> (0 < rf_window cf)%Z ->
    (3 * u * inject_Z (rf_window cf * rc_csize c) < 1)%Q ->
    (forall fuel, N0 <= fuel -> init_iterators fl read is_end is_none sh cpu fuel c cf = Ok its) ->
    Permutation (map fst its) (map fst (rc_index c)) ->
    (forall k, In k (map fst (rc_index c)) -> fin its k = None) ->
    exists order (n : mkey -> nat),
      Permutation order (map fst (rc_index c))
      /\ zsum (map (fun k => Z.of_nat (n k)) order) = rf_window cf
      /\ (forall i k v, nth_error mix i = Some (k, v) ->
            let x := (rf_window cf * v / rc_csize c)%Z in
            (x - 1 <= Z.of_nat (n k) <= x + 2 * Z.of_nat (length mix))%Z
            /\ (i <> 0 -> (Z.of_nat (n k) <= x)%Z /\ ((u == 0)%Q -> Z.of_nat (n k) = x)) /\ ((u == 0)%Q -> (x <= Z.of_nat (n k))%Z))
      /\ ((rf_best cf = false \/ forall k, In k order -> 0 < n k) ->
          exists N v, first_over (rf_best cf) order (items its) n v /\ forall fuel, N <= fuel ->
           iterate fl read is_end is_none sh cpu fuel c cf
           = (numbered 0 (flat_map (window_at order (key_id (rc_kid c)) n (items its)) (seq 0 v)), StopIter))
      /\ (rf_best cf = true -> (exists k, In k order /\ n k = 0) ->
          forall fuel, N0 <= fuel -> snd (iterate fl read is_end is_none sh cpu fuel c cf) = Raise OutOfFuel).
  Proof.
    intros (Hu0 & Hu1 & Hfl) Hty Hmix Hmnd Hmp Hpos Hsum Hcs Hw Hsm E Hp Hfin.
    assert (Hn : NoDup (map fst its)) by (eapply Permutation_NoDup; [symmetry; exact Hp|exact Hnd]).
    destruct (element_counts_spec fl u (rf_window cf) (rc_csize c) mix Hu0 Hu1 Hfl Hcs ltac:(lia) Hsm Hpos Hsum) as (ec & Hec & Heck & Hecs & Hecp & Hecn).
    set (counts := sh_counts sh ec).
    assert (Hc : Permutation counts ec) by apply (so_counts _ Hsh).
    assert (Hci : Permutation (map fst counts) (map fst (rc_index c))) by (rewrite (Permutation_map fst Hc), Heck; exact Hmp).
    assert (Hcnd : NoDup (map fst counts)) by (eapply Permutation_NoDup; [symmetry; exact Hci|exact Hnd]).
    assert (Hcnt : forall k x, In (k, x) ec -> nn counts k = Z.to_nat x /\ (0 <= x)%Z).
    { intros k x Hin. rewrite Forall_forall in Hecp. split; [|apply (Hecp _ Hin)]. unfold nn, cnt, lookup0.
      rewrite (in_aget _ mkey_eqb_spec k x counts); [reflexivity|exact Hcnd|]. eapply Permutation_in; [symmetry; exact Hc|exact Hin]. }
    assert (Hki : forall k, In k (map fst its) -> exists i, aget mkey_eqb k (rc_kid c) = Some i).
    { intros k Hk. apply kid_some. eapply Permutation_in; [exact Hp|exact Hk]. }
    assert (Hkp : Permutation (map fst ec) (map fst its)) by (rewrite Heck, Hp; exact Hmp).
    assert (Hiter : forall fuel, N0 <= fuel -> iterate fl read is_end is_none sh cpu fuel c cf =
      let '(out, e) := iterate_window fuel fl sh (rc_kid c) (rf_window cf) (rc_csize c) (rf_best cf) mix its in (numbered 0 out, e)).
    { intros fuel Hf. unfold iterate. rewrite (E fuel Hf), Hmix, Hskip. destruct (rf_type cf); [congruence|reflexivity|reflexivity]. }
    exists (map fst counts), (nn counts). split; [exact Hci|]. split; [|split; [|split]].
    - rewrite map_map. rewrite <- Hecs. rewrite (zsum_perm _ _ (Permutation_map (fun kn => Z.of_nat (nn counts (fst kn))) Hc)). f_equal. apply map_ext_in.
      intros [k x] Hin. cbn. destruct (Hcnt k x Hin) as [-> Hx]. lia.
    - intros i k v Hi x. destruct (Hecn i k v Hi) as (nk & Hnk & B1 & B2 & B3). destruct (Hcnt k nk (nth_error_In _ _ Hnk)) as [Ex Hx].
      rewrite Ex, Z2Nat.id by exact Hx. auto.
    - (* the iteration ends *)
      intros Hbest.
      set (U := Datatypes.S (longest its (map fst counts))).
      assert (Hlong : forall k, In k (map fst counts) -> length (items its k) <= longest its (map fst counts)) by (intros; apply longest_ge; assumption).
      assert (Hover : over (rf_best cf) (map fst counts) (items its) (nn counts) U).
      { destruct Hbest as [Hb|Hb].
        - right. split; [exact Hb|].
          destruct (existsb (fun k => 0 <? nn counts k) (map fst counts)) eqn:Ex.
          + apply existsb_exists in Ex as (k & Hk & Hkn). exists k. split; [exact Hk|]. unfold dry, U. specialize (Hlong k Hk). apply Nat.ltb_lt in Hkn. nia.
          + exfalso. assert (Hz : zsum (map snd ec) = 0%Z); [|lia].
            assert (Hall : forall k x, In (k, x) ec -> x = 0%Z).
            { intros k x Hin. destruct (Hcnt k x Hin) as [E1 E2]. destruct (Nat.eq_dec (nn counts k) 0); [lia|].
              assert (existsb (fun k => 0 <? nn counts k) (map fst counts) = true); [|congruence]. apply existsb_exists. exists k.
              split; [|apply Nat.ltb_lt; lia]. apply in_map_iff. exists (k, x). split; [reflexivity|]. eapply Permutation_in; [symmetry; exact Hc|exact Hin]. }
            clear - Hall. induction ec as [|[k x] ec IH]; [reflexivity|]. cbn [map snd]. rewrite zsum_cons, (Hall k x (or_introl eq_refl)), IH; [reflexivity|].
            intros k' x' H. eapply Hall. right. exact H.
        - left. intros k Hk. unfold dry, U. specialize (Hlong k Hk). specialize (Hb k Hk). nia. }
      destruct (first_over_exists _ _ _ _ _ Hover) as (v & Hv). exists (N0 + U + maxcnt counts + 3), v. split; [exact Hv|]. intros fuel Hf.
      rewrite Hiter by lia.
      destruct (iterate_window fuel fl sh (rc_kid c) (rf_window cf) (rc_csize c) (rf_best cf) mix its) as [out r] eqn:Ei.
      pose proof (iterate_window_spec _ _ _ _ _ _ _ _ _ _ _ _ Hsh Hec Hecs Hecp Hn Hkp Hki Ei) as Hs. cbv zeta in Hs. fold counts in Hs.
      destruct r as [x| |e]; [contradiction| |].
      + destruct Hs as (v' & Hv' & Hout & _). rewrite (first_over_unique _ _ _ _ _ _ Hv Hv'), Hout. reflexivity.
      + exfalso. destruct Hs as [(k & Hk & Hfk)|[-> H]].
        * rewrite Hfin in Hfk; [discriminate|]. eapply Permutation_in; [exact Hci|exact Hk].
        * specialize (H U Hover). lia.
    - (* a key without a share *)
      intros Hb (k0 & Hk0 & Hn0) fuel Hf. rewrite Hiter by exact Hf.
      destruct (iterate_window fuel fl sh (rc_kid c) (rf_window cf) (rc_csize c) (rf_best cf) mix its) as [out r] eqn:Ei.
      pose proof (iterate_window_spec _ _ _ _ _ _ _ _ _ _ _ _ Hsh Hec Hecs Hecp Hn Hkp Hki Ei) as Hs. cbv zeta in Hs. fold counts in Hs.
      cbn [snd]. destruct r as [x| |e]; [contradiction| |].
      + exfalso. destruct Hs as (v' & [[H|[H _]] _] & _); [|congruence]. specialize (H k0 Hk0). unfold dry in H. rewrite Hn0 in H. lia.
      + f_equal. destruct Hs as [(k & Hk & Hfk)|[-> _]]; [|reflexivity].
        rewrite Hfin in Hfk; [discriminate|]. eapply Permutation_in; [exact Hci|exact Hk].
  Qed.

  Lemma over_len {B C} best order (it : mkey -> list B) (it' : mkey -> list C) n v :
    (forall k, In k order -> length (it k) = length (it' k)) -> over best order it n v -> over best order it' n v.
  Proof.
    intros Hl [H|[Hb (k & Hk & H)]].
    - left. intros k Hk. unfold dry. rewrite <- (Hl k Hk). apply H, Hk.
    - right. split; [exact Hb|]. exists k. split; [exact Hk|]. unfold dry. rewrite <- (Hl k Hk). exact H.
  Qed.
  Lemma first_over_len {B C} best order (it : mkey -> list B) (it' : mkey -> list C) n v :
    (forall k, In k order -> length (it k) = length (it' k)) -> first_over best order it n v -> first_over best order it' n v.
  Proof.
    intros Hl [H1 H2]. split; [eapply over_len; eassumption|]. intros u Hu H. apply (H2 u Hu). eapply over_len; [|exact H]. intros k Hk. symmetry. auto.
  Qed.
  Lemma windows_ext {B} order tag n (it it' : mkey -> list B) l :
    (forall k, In k order -> it k = it' k) -> flat_map (window_at order tag n it) l = flat_map (window_at order tag n it') l.
  Proof.
    intros H. apply flat_map_ext_in'. intros u _. unfold window_at. f_equal. apply map_ext_in. intros k Hk. rewrite (H k Hk). reflexivity.
  Qed.

  Lemma iterate_window_gen u mix :
    float_ok u -> rf_type cf = MWindow -> rf_tok cf = None -> reads_ok read (rc_index c) ->
    rf_mix cf = Some mix -> NoDup (map fst mix) -> Permutation (map fst mix) (map fst (rc_index c)) ->
    Forall (fun kv => (0 <= snd kv)%Z) mix -> zsum (map snd mix) = rc_csize c -> (0 < rc_csize c)%Z -> (0 < rf_window cf)%Z ->
    (3 * u * inject_Z (rf_window cf * rc_csize c) < 1)%Q ->
    (rf_dop cf <> 1%Z -> plain read is_end (rc_index c)) ->
    (rf_prefetch cf = true -> plain read is_none (rc_index c)) ->
    exists order (n : mkey -> nat) (l : mkey -> list A),
      Permutation order (map fst (rc_index c))
      /\ zsum (map (fun k => Z.of_nat (n k)) order) = rf_window cf
      /\ (forall i k v, nth_error mix i = Some (k, v) ->
            let x := (rf_window cf * v / rc_csize c)%Z in
            (x - 1 <= Z.of_nat (n k) <= x + 2 * Z.of_nat (length mix))%Z
            /\ (i <> 0 -> (Z.of_nat (n k) <= x)%Z /\ ((u == 0)%Q -> Z.of_nat (n k) = x)) /\ ((u == 0)%Q -> (x <= Z.of_nat (n k))%Z))
      /\ (forall k p, In (k, p) (rc_index c) -> Permutation (l k) (part_samples read p) /\ delivered_order read sh cf k p (l k))
      /\ ((rf_best cf = false \/ forall k, In k order -> 0 < n k) ->
          exists N v, first_over (rf_best cf) order l n v /\ forall fuel, N <= fuel ->
           iterate fl read is_end is_none sh cpu fuel c cf
           = (numbered 0 (flat_map (window_at order (key_id (rc_kid c)) n (fun k => map Text (l k))) (seq 0 v)), StopIter))
      /\ (rf_best cf = true -> (exists k, In k order /\ n k = 0) ->
          forall fuel, snd (iterate fl read is_end is_none sh cpu fuel c cf) = Raise OutOfFuel).
  Proof.
    intros (Hu0 & Hu1 & Hfl) Hty Htok Hok Hmix Hmnd Hmp Hpos Hsum Hcs Hw Hsm Hend Hpf.
    assert (Hne : rc_index c <> []).
    { intros E. rewrite E in Hmp. apply Permutation_sym, Permutation_nil in Hmp. apply map_eq_nil in Hmp. subst mix. cbn in Hsum. lia. }
    assert (Hpar : rf_dop cf <> 1%Z -> plain read is_end (rc_index c) /\ mix_for c cf /\ rc_csize c <> 0%Z /\ rc_index c <> []).
    { intros H. split; [auto|]. split; [exists mix; auto|]. split; [lia|exact Hne]. }
    destruct (init_text fl read is_end is_none sh cpu Hsh 0 c cf Hnd Hok Htok Hpar Hpf) as (its & E0 & Hp & _ & Hget).
    assert (E : forall fuel, init_iterators fl read is_end is_none sh cpu fuel c cf = Ok its).
    { intros fuel. rewrite <- E0. unfold init_iterators. rewrite Htok. reflexivity. }
    assert (Hn : NoDup (map fst its)) by (eapply Permutation_NoDup; [symmetry; exact Hp|exact Hnd]).
    set (l0 := fun k => map (fun x => match x with Text a => [a] | Tokens _ => [] end) (items its k)).
    set (l := fun k => concat (l0 k)).
    assert (Hit : forall k p, In (k, p) (rc_index c) -> items its k = map Text (l k) /\ fin its k = None
        /\ Permutation (l k) (part_samples read p) /\ delivered_order read sh cf k p (l k)).
    { intros k p Hin. destruct (Hget k p Hin) as (l1 & Hl & H1 & H2).
      assert (El : l k = l1).
      { unfold l, l0, items. rewrite Hl. cbn [fst]. rewrite map_map. clear. induction l1; cbn; congruence. }
      rewrite El. unfold items, fin. rewrite Hl. auto. }
    destruct (iterate_window_core u mix its 0) as (order & n & C1 & C2 & C3 & C4 & C5); auto.
    { split; auto. }
    { congruence. }
    { intros k Hk. destruct (in_index_get k Hk) as (p & Hin). apply (Hit k p Hin). }
    assert (Hio : forall k, In k order -> items its k = map Text (l k)).
    { intros k Hk. destruct (in_index_get k) as (p & Hin); [eapply Permutation_in; [exact C1|exact Hk]|]. apply (Hit k p Hin). }
    exists order, n, l. split; [exact C1|]. split; [exact C2|]. split; [exact C3|]. split; [|split].
    - intros k p Hin. apply (Hit k p Hin).
    - intros Hb. destruct (C4 Hb) as (N & v & Hv & Hrun). exists N, v. split.
      + eapply first_over_len; [|exact Hv]. intros k Hk. rewrite (Hio k Hk), map_length. reflexivity.
      + intros fuel Hf. rewrite (Hrun fuel Hf). do 2 f_equal. apply windows_ext. exact Hio.
    - intros Hb Hz fuel. apply C5; [exact Hb|exact Hz|lia].
  Qed.

  (** Token mode: the same over the token windows of the keys, never best effort. *)
  Lemma iterate_token_gen u mix tc :
    float_ok u -> rf_type cf = MToken -> rf_tok cf = Some tc -> tk_valid tc = true -> 1 <= tk_len tc -> 1 <= tk_batch tc ->
    reads_ok read (rc_index c) -> rf_best cf = false ->
    rf_mix cf = Some mix -> NoDup (map fst mix) -> Permutation (map fst mix) (map fst (rc_index c)) ->
    Forall (fun kv => (0 <= snd kv)%Z) mix -> zsum (map snd mix) = rc_csize c -> (0 < rc_csize c)%Z -> (0 < rf_window cf)%Z ->
    (3 * u * inject_Z (rf_window cf * rc_csize c) < 1)%Q ->
    (rf_dop cf <> 1%Z -> plain read is_end (rc_index c)) ->
    exists order (n : mkey -> nat) (l : mkey -> list A) N v,
      let toks := fun k => token_spec (tk_len tc) (tk_overlap tc) (tk_one tc) (token_stream (tk_ids tc) (l k)) in
      Permutation order (map fst (rc_index c))
      /\ zsum (map (fun k => Z.of_nat (n k)) order) = rf_window cf
      /\ (forall i k v, nth_error mix i = Some (k, v) ->
            let x := (rf_window cf * v / rc_csize c)%Z in
            (x - 1 <= Z.of_nat (n k) <= x + 2 * Z.of_nat (length mix))%Z
            /\ (i <> 0 -> (Z.of_nat (n k) <= x)%Z /\ ((u == 0)%Q -> Z.of_nat (n k) = x)) /\ ((u == 0)%Q -> (x <= Z.of_nat (n k))%Z))
      /\ (forall k p, In (k, p) (rc_index c) -> Permutation (l k) (part_samples read p) /\ delivered_order read sh cf k p (l k))
      /\ first_over false order toks n v
      /\ forall fuel, N <= fuel ->
           iterate fl read is_end is_none sh cpu fuel c cf
           = (numbered 0 (flat_map (window_at order (key_id (rc_kid c)) n (fun k => map Tokens (toks k))) (seq 0 v)), StopIter).
  Proof.
    intros Hfl Hty Htok Hval Hlen Hbat Hok Hbest Hmix Hmnd Hmp Hpos Hsum Hcs Hw Hsm Hend.
    assert (Hne : rc_index c <> []).
    { intros E. rewrite E in Hmp. apply Permutation_sym, Permutation_nil in Hmp. apply map_eq_nil in Hmp. subst mix. cbn in Hsum. lia. }
    assert (Hpar : rf_dop cf <> 1%Z -> plain read is_end (rc_index c) /\ mix_for c cf /\ rc_csize c <> 0%Z /\ rc_index c <> []).
    { intros H. split; [auto|]. split; [exists mix; auto|]. split; [lia|exact Hne]. }
    destruct (init_tokens fl read is_end is_none sh cpu Hsh c cf tc Hnd Hok Htok Hval Hlen Hbat Hpar) as (its & N0 & E0 & Hp & Hget).
    assert (Hbase : exists l : mkey -> list A, forall k p, In (k, p) (rc_index c) ->
        aget mkey_eqb k its = Some (map Tokens (token_spec (tk_len tc) (tk_overlap tc) (tk_one tc) (token_stream (tk_ids tc) (l k))), None)
           /\ Permutation (l k) (part_samples read p) /\ delivered_order read sh cf k p (l k)).
    { clear - Hget Hnd. revert Hget Hnd. generalize (rc_index c). induction i as [|[k p] i IH]; intros Hget Hnd.
      - exists (fun _ => []). intros k p [].
      - cbn in Hnd. inversion Hnd as [|? ? Hni Hnd']; subst. destruct IH as (l & IH); [intros; apply Hget; right; assumption|exact Hnd'|].
        destruct (Hget k p (or_introl eq_refl)) as (lk & Hlk). exists (fun k' => if mkey_eqb k k' then lk else l k').
        intros k' p' [H|H].
        + injection H as <- <-. rewrite mkey_eqb_refl. exact Hlk.
        + destruct (mkey_eqb k k') eqn:Ek; [|apply IH, H]. apply mkey_eqb_spec in Ek. subst k'. destruct Hni. apply in_map_iff. exists (k, p'). auto. }
    destruct Hbase as (l & Hl).
    set (toks := fun k => token_spec (tk_len tc) (tk_overlap tc) (tk_one tc) (token_stream (tk_ids tc) (l k))).
    destruct (iterate_window_core u mix its N0) as (order & n & C1 & C2 & C3 & C4 & _); auto.
    { congruence. }
    { intros k Hk. destruct (in_index_get k Hk) as (p & Hin). unfold fin. rewrite (proj1 (Hl k p Hin)). reflexivity. }
    destruct (C4 (or_introl Hbest)) as (N & v & Hv & Hrun). rewrite Hbest in Hv.
    assert (Hio : forall k, In k order -> items its k = map Tokens (toks k)).
    { intros k Hk. destruct (in_index_get k) as (p & Hin); [eapply Permutation_in; [exact C1|exact Hk]|]. unfold items. rewrite (proj1 (Hl k p Hin)). reflexivity. }
    exists order, n, l, N, v. cbv zeta. fold toks. split; [exact C1|]. split; [exact C2|]. split; [exact C3|]. split; [|split].
    - intros k p Hin. apply (Hl k p Hin).
    - eapply first_over_len; [|exact Hv]. intros k Hk. rewrite (Hio k Hk), map_length. reflexivity.
    - intros fuel Hf. rewrite (Hrun fuel Hf). do 2 f_equal. apply windows_ext. exact Hio.
  Qed.
End Iter.

(** ** Consequences for windows *)
Lemma share_len {B} n u (l : list B) : S u * n <= length l -> length (share n u l) = n.
Proof. intros H. unfold share. rewrite firstn_length, skipn_length. cbn in H. lia. Qed.

(** Best effort: every item comes out. *)
Lemma windows_all {B} order tag n (it : mkey -> list B) v :
  first_over true order it n v ->
  Permutation (flat_map (window_at order tag n it) (seq 0 v)) (flat_map (fun k => map (pair (tag k)) (it k)) order).
Proof.
  intros [[H|[H _]] _]; [|discriminate]. rewrite windows_perm.
  rewrite (flat_map_ext_in' _ (fun k => map (pair (tag k)) (it k))); [reflexivity|].
  intros k Hk. rewrite firstn_all2; [reflexivity|]. specialize (H k Hk). unfold dry in H. lia.
Qed.
(** Otherwise: all windows but the last are complete. *)
Lemma windows_full {B} order n (it : mkey -> list B) v u k :
  first_over false order it n v -> S u < v -> In k order -> length (share (n k) u (it k)) = n k.
Proof.
  intros [_ H] Hu Hk. apply share_len. destruct (Nat.le_gt_cases (S u * n k) (length (it k))) as [Hle|Hgt]; [exact Hle|].
  destruct (H (S u) Hu). right. split; [reflexivity|]. exists k. auto.
Qed.
(** A window in which every key has its share. *)
Lemma window_full_count {B} order tag n (it : mkey -> list B) u k :
  NoDup order -> In k order -> (forall k', In k' order -> tag k' = tag k -> k' = k) -> S u * n k <= length (it k) ->
  length (filter (fun x => (fst x =? tag k)%Z) (window_at order tag n it u)) = n k.
Proof.
  intros Hnd Hk Hinj Hl. unfold window_at.
  rewrite (rr_filter_key order tag (fun k => share (n k) u (it k)) k Hnd Hk Hinj), map_length. apply share_len, Hl.
Qed.
