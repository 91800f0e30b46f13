(** Ranges inside a chunk stay sorted and disjoint per file. *)
From Verif Require Import Base MixtureKeyModel MixtureKeyProofs UtilsModel UtilsProofs ChunkGenModel SpecChunk ChunkGenProofs1
  ChunkGenProofs2 ChunkGenProofs3.
From Coq Require Import ZifyBool ZifyNat.
Open Scope Z_scope.

Definition in_part (d f : Z) (rs : list range) (p : part) : Prop := exists fs, In (d, fs) p /\ In (f, rs) fs.

Lemma in_aset {K V} (eqb : K -> K -> bool) (spec : forall a b, eqb a b = true <-> a = b) k v k' v' (l : list (K * V)) :
  In (k', v') (aset eqb k v l) -> In (k', v') l \/ (k' = k /\ v' = v).
Proof.
  induction l as [|[k0 v0] l IH]; cbn.
  - intros [E|[]]. injection E as -> ->. auto.
  - destruct (eqb k k0) eqn:E.
    + apply spec in E. subst. intros [E|H]; [injection E as <- <-; auto|auto].
    + intros [H|H]; [auto|]. destruct (IH H); auto.
Qed.

Lemma in_part_set d f d0 f0 rs rs' p :
  in_part d f rs (aset Z.eqb d0 (aset Z.eqb f0 rs' (match aget Z.eqb d0 p with Some fs => fs | None => [] end)) p) ->
  in_part d f rs p \/ (d = d0 /\ f = f0 /\ rs = rs').
Proof.
  intros (fs & H1 & H2). apply (in_aset _ Zeqb_spec) in H1 as [H1|[-> ->]]; [left; exists fs; auto|].
  apply (in_aset _ Zeqb_spec) in H2 as [H2|[-> ->]]; [|auto]. left.
  destruct (aget Z.eqb d0 p) as [fs0|] eqn:E; [|destruct H2]. exists fs0. split; [|exact H2].
  apply (aget_in _ Zeqb_spec), E.
Qed.

Lemma aget_in_part d f rs p :
  aget Z.eqb f (match aget Z.eqb d p with Some fs => fs | None => [] end) = Some rs -> in_part d f rs p.
Proof.
  destruct (aget Z.eqb d p) as [fs|] eqn:E; [|discriminate]. intros H. exists fs.
  split; [apply (aget_in _ Zeqb_spec), E|apply (aget_in _ Zeqb_spec), H].
Qed.

Lemma in_part_padd d f rs d0 f0 r p : in_part d f rs (padd d0 f0 r p) ->
  in_part d f rs p \/ (d = d0 /\ f = f0 /\ exists old, rs = old ++ [r] /\ (old = [] \/ in_part d f old p)).
Proof.
  intros H. unfold padd in H. apply in_part_set in H as [H|(-> & -> & ->)]; [auto|right]. split; [reflexivity|]. split; [reflexivity|].
  eexists. split; [reflexivity|].
  destruct (aget Z.eqb f0 _) as [rs|] eqn:E; [|auto]. right. apply aget_in_part, E.
Qed.

Lemma in_part_file_put d f rs d0 f0 new p : in_part d f rs (file_put d0 f0 new p) ->
  in_part d f rs p \/ (d = d0 /\ f = f0 /\ (rs = new \/ exists old, in_part d f old p /\ rs = merge_sorted_lists old new)).
Proof.
  intros H. unfold file_put in H. apply in_part_set in H as [H|(-> & -> & ->)]; [auto|right]. split; [reflexivity|]. split; [reflexivity|].
  destruct (aget Z.eqb f0 _) as [old|] eqn:E; [|auto]. right. exists old. split; [apply aget_in_part, E|reflexivity].
Qed.

(** unique dataset and file ids *)
Definition part_nd (p : part) : Prop := NoDup (map fst p) /\ Forall (fun df => NoDup (map fst (snd df))) p.

Lemma part_nd_set d f rs p : part_nd p ->
  part_nd (aset Z.eqb d (aset Z.eqb f rs (match aget Z.eqb d p with Some fs => fs | None => [] end)) p).
Proof.
  intros [H1 H2]. split; [apply NoDup_akeys_aset; [apply Zeqb_spec|exact H1]|].
  apply (Forall_aset Z.eqb (fun fs : list (Z * list range) => NoDup (map fst fs))); [exact H2|].
  apply NoDup_akeys_aset; [apply Zeqb_spec|].
  destruct (aget Z.eqb d p) as [fs|] eqn:E; [|constructor].
  eapply (Forall_aget Z.eqb (fun fs : list (Z * list range) => NoDup (map fst fs))); eassumption.
Qed.
Lemma padd_nd d f r p : part_nd p -> part_nd (padd d f r p).
Proof. apply part_nd_set. Qed.
Lemma part_nd_nil : part_nd [].
Proof. split; constructor. Qed.

Definition triples (q : part) : list ((Z * Z) * list range) :=
  flat_map (fun df => map (fun fr => ((fst df, fst fr), snd fr)) (snd df)) q.

Lemma in_triples d f rs q : In ((d, f), rs) (triples q) <-> in_part d f rs q.
Proof.
  unfold triples, in_part. rewrite in_flat_map. split.
  - intros ([d0 fs] & Hin & H). apply in_map_iff in H as ([f0 rs0] & E & H). cbn in E. injection E as -> -> ->. eauto.
  - intros (fs & H1 & H2). exists (d, fs). split; [exact H1|]. apply in_map_iff. exists (f, rs). auto.
Qed.

Lemma triples_NoDup q : part_nd q -> NoDup (map fst (triples q)).
Proof.
  intros [H1 H2]. induction q as [|[d fs] q IH]; [constructor|]. cbn in *. rewrite map_app.
  inversion H1 as [|? ? Hni Hnd]; subst. inversion H2 as [|? ? Hf Hq]; subst. cbn in Hf.
  apply NoDup_app_iff. split; [|split; [apply IH; assumption|]].
  - rewrite map_map. cbn. clear - Hf. induction fs as [|[f rs] fs IH]; cbn in *; [constructor|].
    inversion Hf as [|? ? Hni Hnd]; subst. constructor; [|apply IH, Hnd].
    rewrite in_map_iff. intros ([f' rs'] & E & Hin). cbn in E. injection E as ->. apply Hni. apply (in_map fst) in Hin. exact Hin.
  - intros [d' f'] Hx Hy. rewrite map_map in Hx. apply in_map_iff in Hx as (fr & E & _). cbn in E. injection E as -> _.
    apply in_map_iff in Hy as ([[d'' f''] rs] & E & Hin). cbn in E. injection E as -> ->.
    apply in_triples in Hin as (fs' & Hin & _). apply Hni. apply (in_map fst) in Hin. exact Hin.
Qed.

Lemma part_merge_triples p q :
  part_merge p q = fold_left (fun acc t => file_put (fst (fst t)) (snd (fst t)) (snd t) acc) (triples q) p.
Proof.
  unfold part_merge, triples. revert p. induction q as [|[d fs] q IH]; intros p; [reflexivity|].
  cbn [fold_left flat_map]. rewrite fold_left_app, IH. f_equal. cbn [fst snd]. clear IH. revert p.
  induction fs as [|[f rs] fs IH]; intros p; [reflexivity|]. cbn. apply IH.
Qed.

Lemma in_part_fold L : forall p d f rs, NoDup (map fst L) ->
  in_part d f rs (fold_left (fun acc t => file_put (fst (fst t)) (snd (fst t)) (snd t) acc) L p) ->
  in_part d f rs p \/ exists new, In ((d, f), new) L /\ (rs = new \/ exists old, in_part d f old p /\ rs = merge_sorted_lists old new).
Proof.
  induction L as [|[[d0 f0] new0] L IH]; intros p d f rs Hnd H; [left; exact H|].
  cbn [fold_left fst snd] in H. inversion Hnd as [|? ? Hni Hnd']; subst. cbn in Hni.
  apply (IH _ _ _ _ Hnd') in H as [H|(new & Hin & H)].
  - apply in_part_file_put in H as [H|(-> & -> & H)]; [auto|right]. exists new0. cbn. auto.
  - right. exists new. split; [cbn; auto|]. destruct H as [H|(old & Ho & ->)]; [auto|right]. exists old. split; [|reflexivity].
    apply in_part_file_put in Ho as [Ho|(-> & -> & _)]; [exact Ho|exfalso]. apply Hni. apply (in_map fst) in Hin. exact Hin.
Qed.

Lemma in_part_merge p q d f rs : part_nd q -> in_part d f rs (part_merge p q) ->
  in_part d f rs p \/ exists new, in_part d f new q /\ (rs = new \/ exists old, in_part d f old p /\ rs = merge_sorted_lists old new).
Proof.
  intros Hq H. rewrite part_merge_triples in H. apply in_part_fold in H; [|apply triples_NoDup, Hq].
  destruct H as [H|(new & Hin & H)]; [auto|right]. exists new. split; [apply in_triples, Hin|exact H].
Qed.

(** ** Merging non-crossing sorted lists *)
Definition nc (a b : range) : Prop := snd a <= fst b \/ (snd b <= fst a /\ fst b < fst a).

Lemma ranges_sorted_ok l : ranges_sorted l -> Forall range_ok l.
Proof. induction l as [|r l IH]; cbn; [constructor|]. intros (H1 & H2 & H3). constructor; auto. Qed.

Lemma merge_ranges_sorted l1 : forall l2, ranges_sorted l1 -> ranges_sorted l2 ->
  (forall a b, In a l1 -> In b l2 -> nc a b) -> ranges_sorted (merge_sorted_lists l1 l2).
Proof.
  induction l1 as [|x l1 IH1]; intros l2 H1 H2 Hnc; [rewrite merge_nil_l; exact H2|].
  induction l2 as [|y l2 IH2]; [rewrite merge_nil_r; exact H1|].
  rewrite merge_cons. destruct H1 as (H1a & H1b & H1c). destruct H2 as (H2a & H2b & H2c).
  destruct (fst x <=? fst y) eqn:E.
  - cbn [ranges_sorted]. split; [exact H1a|]. split.
    + assert (Hxy : snd x <= fst y). { destruct (Hnc x y) as [H|H]; cbn; auto. lia. }
      rewrite Forall_forall in *. intros z Hz. apply (Permutation_in _ (merge_perm _ _)), in_app_or in Hz as [Hz|[<-|Hz]].
      * apply H1b, Hz.
      * exact Hxy.
      * specialize (H2b z Hz). cbn in *. lia.
    + apply IH1; [exact H1c|cbn; auto|]. intros a b Ha Hb. apply Hnc; cbn; auto.
  - cbn [ranges_sorted]. split; [exact H2a|]. split.
    + assert (Hyx : snd y <= fst x). { destruct (Hnc x y) as [H|H]; cbn; auto; lia. }
      rewrite Forall_forall in *. intros z Hz. apply (Permutation_in _ (merge_perm _ _)), in_app_or in Hz as [[<-|Hz]|Hz].
      * exact Hyx.
      * specialize (H1b z Hz). cbn in *. lia.
      * apply H2b, Hz.
    + apply IH2; [exact H2c|]. intros a b Ha Hb. apply Hnc; cbn; auto.
Qed.

(** ** Component: sorted output, sorted rest *)
Definition fle (a b : frange) : Prop := fst a = fst b -> snd (snd a) <= fst (snd b).
Definition fsorted (l : list frange) : Prop := StronglySorted fle l.

Definition pinv (S : row -> Prop) (st0 : list frange) (acc : part) (rest : list frange) : Prop :=
  forall d f rs, in_part d f rs acc -> ranges_sorted rs /\ forall r, In r rs ->
    S (d, f, fst r) /\ (forall x, In x (range_rows d f r) -> S x)
    /\ (forall r', In ((d, f), r') rest -> snd r <= fst r')
    /\ (exists r0, In ((d, f), r0) st0 /\ fst r0 <= fst r).

Lemma ranges_sorted_snoc l r : ranges_sorted l -> range_ok r -> Forall (fun x => snd x <= fst r) l -> ranges_sorted (l ++ [r]).
Proof.
  induction l as [|x l IH]; cbn; intros H1 H2 H3; [unfold range_ok in H2; auto|].
  inversion H3; subst. destruct H1 as (Ha & Hb & Hc). split; [exact Ha|]. split; [|apply IH; auto].
  apply Forall_app. split; [exact Hb|auto].
Qed.

Lemma pinv_padd S st0 d f s e e' acc rest rest' :
  pinv S st0 acc (((d, f), (s, e)) :: rest) -> s < e -> s <= e' <= e -> (forall x, In x (range_rows d f (s, e)) -> S x) ->
  (forall d' f' r', In ((d', f'), r') rest' -> In ((d', f'), r') rest \/ (d' = d /\ f' = f /\ fst r' = e')) ->
  (forall r', In ((d, f), r') rest' -> e' <= fst r') ->
  (exists r0, In ((d, f), r0) st0 /\ fst r0 <= s) ->
  pinv S st0 (padd d f (s, e') acc) rest'.
Proof.
  intros Hp Hse He HS Hr Hr2 H0 d1 f1 rs Hin. apply in_part_padd in Hin as [Hin|(-> & -> & old & -> & Hold)].
  - destruct (Hp _ _ _ Hin) as [H1 H2]. split; [exact H1|]. intros r Hrin. destruct (H2 r Hrin) as (Ha & Hb & Hc & Hd).
    split; [exact Ha|]. split; [exact Hb|]. split; [|exact Hd].
    intros r' Hr'. destruct (Hr _ _ _ Hr') as [H|(-> & -> & <-)]; [apply Hc; cbn; auto|].
    specialize (Hc (s, e)). cbn in Hc. specialize (Hc (or_introl eq_refl)). cbn in *. lia.
  - assert (Hold' : ranges_sorted old /\ forall r, In r old -> S (d, f, fst r) /\ (forall x, In x (range_rows d f r) -> S x)
        /\ (forall r', In ((d, f), r') (((d, f), (s, e)) :: rest) -> snd r <= fst r')
        /\ (exists r0, In ((d, f), r0) st0 /\ fst r0 <= fst r)).
    { destruct Hold as [-> |Hold]; [split; [exact I|intros r []]|]. apply Hp, Hold. }
    destruct Hold' as [H1 H2].
    assert (Hs : forall r, In r old -> snd r <= s).
    { intros r Hrin. destruct (H2 r Hrin) as (_ & _ & Hc & _). apply (Hc (s, e)). cbn; auto. }
    split.
    + apply ranges_sorted_snoc; [exact H1|unfold range_ok; cbn; lia|]. apply Forall_forall. intros r Hrin. cbn. apply Hs, Hrin.
    + intros r Hrin. apply in_app_or in Hrin as [Hrin|[<-|[]]].
      * destruct (H2 r Hrin) as (Ha & Hb & Hc & Hd). split; [exact Ha|]. split; [exact Hb|]. split; [|exact Hd].
        intros r' Hr'. specialize (Hs r Hrin). specialize (Hr2 r' Hr'). lia.
      * cbn [fst snd]. split; [|split; [|split]].
        -- apply HS. apply in_range_rows. cbn. repeat split; lia.
        -- intros x Hx. apply HS. apply in_range_rows in Hx. apply in_range_rows. cbn in *. repeat split; try tauto; lia.
        -- exact Hr2.
        -- exact H0.
Qed.

Lemma comp_take_sorted (S : row -> Prop) st0 rest : forall acc cur n p rest',
  comp_take rest acc cur n = Some (p, rest') -> 0 <= cur <= n -> fsorted rest ->
  (forall x, In x (frows rest) -> S x) -> (forall x, In x rest -> exists x0, In x0 st0 /\ fst x0 = fst x /\ fst (snd x0) <= fst (snd x)) ->
  pinv S st0 acc rest -> part_nd acc ->
  pinv S st0 p rest' /\ fsorted rest' /\ part_nd p
  /\ (forall x, In x rest' -> exists x0, In x0 st0 /\ fst x0 = fst x /\ fst (snd x0) <= fst (snd x)).
Proof.
  induction rest as [|[[d f] [s e]] rest IH]; intros acc cur n p rest' H Hcur Hs HS H0 Hp Hnd; cbn in H.
  - destruct (0 <? cur); [|discriminate]. injection H as <- <-. auto.
  - inversion Hs as [|? ? Hs' Hf]; subst. rewrite frows_cons in HS. cbn [fst snd] in HS.
    assert (HS1 : forall x, In x (range_rows d f (s, e)) -> S x) by (intros; apply HS, in_or_app; auto).
    assert (HS2 : forall x, In x (frows rest) -> S x) by (intros; apply HS, in_or_app; auto).
    assert (H02 : forall x, In x rest -> exists x0, In x0 st0 /\ fst x0 = fst x /\ fst (snd x0) <= fst (snd x))
      by (intros; apply H0; cbn; auto).
    assert (H01 : exists r0, In ((d, f), r0) st0 /\ fst r0 <= s).
    { destruct (H0 ((d, f), (s, e))) as ([df0 r0] & Hi & E & Hle); [cbn; auto|]. cbn in *. subst. eauto. }
    assert (Hfle : forall r', In ((d, f), r') rest -> e <= fst r').
    { intros r' Hr'. rewrite Forall_forall in Hf. specialize (Hf _ Hr'). unfold fle in Hf. cbn in Hf. auto. }
    destruct (s <? e) eqn:Ese.
    + destruct (cur + (e - s) <? n) eqn:En.
      * apply IH in H; [exact H|lia|exact Hs'|exact HS2|exact H02| |apply padd_nd, Hnd].
        eapply pinv_padd; eauto; try lia.
      * set (diff := cur + (e - s) - n) in *. injection H as <- <-.
        split; [|split; [|split; [apply padd_nd, Hnd|]]].
        -- eapply pinv_padd; eauto; try lia.
           ++ intros d' f' r' [E|Hr']; [injection E as <- <- <-; right; auto|auto].
           ++ intros r' [E|Hr']; [injection E as <-; cbn; lia|]. specialize (Hfle r' Hr'). lia.
        -- constructor; [exact Hs'|]. eapply Forall_impl; [|exact Hf]. intros x Hx. unfold fle in *. cbn in *. exact Hx.
        -- intros x [<-|Hx]; [|apply H02, Hx]. destruct H01 as (r0 & Hi & Hle). exists ((d, f), r0). cbn. repeat split; auto; lia.
    + apply IH in H; auto.
      intros d1 f1 rs Hin. destruct (Hp _ _ _ Hin) as [H1 H2]. split; [exact H1|]. intros r Hrin.
      destruct (H2 r Hrin) as (Ha & Hb & Hc & Hd). repeat split; auto. intros r' Hr'. apply Hc. cbn; auto.
Qed.

Lemma comp_send_sorted (S : row -> Prop) st n p st' :
  comp_send st n = Some (p, st') -> 0 <= n -> fsorted st -> (forall x, In x (frows st) -> S x) ->
  pinv S st p st' /\ fsorted st' /\ part_nd p
  /\ (forall x, In x st' -> exists x0, In x0 st /\ fst x0 = fst x /\ fst (snd x0) <= fst (snd x)).
Proof.
  intros H Hn Hs HS. eapply comp_take_sorted; eauto; [lia| | |apply part_nd_nil].
  - intros x Hx. exists x. split; [exact Hx|]. split; [reflexivity|]. apply Z.le_refl.
  - intros d f rs (fs & [] & _).
Qed.

(** ** flatten is sorted *)
Lemma StronglySorted_app {A} (R : A -> A -> Prop) a b :
  StronglySorted R a -> StronglySorted R b -> (forall x y, In x a -> In y b -> R x y) -> StronglySorted R (a ++ b).
Proof.
  induction 1 as [|x a Ha IH Hf]; cbn; intros Hb Hc; [exact Hb|]. constructor; [apply IH; auto|].
  apply Forall_app. split; [exact Hf|]. apply Forall_forall. auto.
Qed.

Lemma StronglySorted_flat_map {A B} (R : B -> B -> Prop) (g : A -> list B) (l : list A) :
  (forall x, In x l -> StronglySorted R (g x)) ->
  StronglySorted (fun x y => forall a b, In a (g x) -> In b (g y) -> R a b) l -> StronglySorted R (flat_map g l).
Proof.
  intros Hg H. induction H as [|x l Hl IH Hf]; cbn; [constructor|]. cbn in Hg. apply StronglySorted_app; auto.
  intros a b Ha Hb. apply in_flat_map in Hb as (y & Hy & Hb). rewrite Forall_forall in Hf. eapply Hf; eauto.
Qed.

Lemma NoDup_keys_SS {V} (l : list (Z * V)) (R : Z * V -> Z * V -> Prop) : NoDup (map fst l) ->
  (forall x y, fst x <> fst y -> R x y) -> StronglySorted R l.
Proof.
  intros Hnd HR. induction l as [|x l IH]; [constructor|]. cbn in Hnd. inversion Hnd as [|? ? Hni Hnd']; subst.
  constructor; [auto|]. apply Forall_forall. intros y Hy. apply HR. intros E. apply Hni. rewrite E. apply in_map, Hy.
Qed.

Definition part_sorted (p : part) : Prop := forall d f rs, in_part d f rs p -> ranges_sorted rs.

Lemma flatten_sorted p : part_nd p -> part_sorted p -> fsorted (flatten p).
Proof.
  intros [Hn1 Hn2] Hs. unfold flatten. apply StronglySorted_flat_map.
  - intros [d fs] Hin. apply in_isort in Hin. cbn. apply StronglySorted_flat_map.
    + intros [f rs] Hin2. apply in_isort in Hin2. cbn.
      assert (Hrs : ranges_sorted rs) by (apply (Hs d f); exists fs; auto).
      clear - Hrs. induction rs as [|r rs IH]; cbn; [constructor|]. destruct Hrs as (H1 & H2 & H3).
      constructor; [apply IH, H3|]. rewrite Forall_map. eapply Forall_impl; [|exact H2]. intros a Ha _. exact Ha.
    + apply NoDup_keys_SS.
      * eapply Permutation_NoDup; [apply Permutation_map; symmetry; apply isort_perm|].
        rewrite Forall_forall in Hn2. apply (Hn2 _ Hin).
      * intros x y Hne a b Ha Hb E. apply in_map_iff in Ha as (r1 & <- & _). apply in_map_iff in Hb as (r2 & <- & _).
        cbn in E. congruence.
  - apply NoDup_keys_SS.
    + eapply Permutation_NoDup; [apply Permutation_map; symmetry; apply isort_perm|exact Hn1].
    + intros x y Hne a b Ha Hb E.
      apply in_flat_map in Ha as (u & _ & Ha). apply in_map_iff in Ha as (r1 & <- & _).
      apply in_flat_map in Hb as (v & _ & Hb). apply in_map_iff in Hb as (r2 & <- & _). cbn in E. congruence.
Qed.

(** ** The invariant *)
Section Sorted.
  (** [R ck]: the rows of index key [ck]. *)
  Variable R : mkey -> row -> Prop.
  Hypothesis R_disj : forall ck ck' x, R ck x -> R ck' x -> ck = ck'.

  Definition origin (cs : list (mkey * list frange)) (ck : mkey) (d f : Z) (r : range) : Prop :=
    R ck (d, f, fst r) /\ (forall x, In x (range_rows d f r) -> R ck x)
    /\ forall st, aget mkey_eqb ck cs = Some st -> forall r', In ((d, f), r') st -> snd r <= fst r'.

  Definition comps_sorted (cs : list (mkey * list frange)) : Prop :=
    forall ck st, aget mkey_eqb ck cs = Some st -> fsorted st /\ forall x, In x (frows st) -> R ck x.

  (** under key [mk], every range comes from a component matching [mk] *)
  Definition sinv (x : cc) : Prop :=
    comps_sorted (fst x) /\
    forall mk p, In (mk, p) (snd x) -> forall d f rs, in_part d f rs p ->
      ranges_sorted rs /\ forall r, In r rs -> exists ck, key_eq mk ck = true /\ origin (fst x) ck d f r.

  Lemma nc_origins cs ck1 ck2 d f a b :
    origin cs ck1 d f a -> R ck2 (d, f, fst b) -> (forall x, In x (range_rows d f b) -> R ck2 x) ->
    ck1 <> ck2 -> range_ok a -> range_ok b -> nc a b.
  Proof.
    intros (H1 & H2 & _) H3 H4 Hne Ha Hb. unfold nc, range_ok in *.
    assert (Hs : fst a <> fst b). { intros E. rewrite E in H1. apply Hne. eapply R_disj; eauto. }
    destruct (Z_le_gt_dec (snd a) (fst b)) as [|Hg1]; [auto|right].
    destruct (Z_lt_ge_dec (fst b) (fst a)) as [Hlt|Hge].
    - split; [|exact Hlt]. destruct (Z_le_gt_dec (snd b) (fst a)) as [|Hg2]; [assumption|exfalso].
      apply Hne. eapply R_disj; [exact H1|]. apply H4. apply in_range_rows. cbn. repeat split; lia.
    - exfalso. apply Hne. eapply R_disj; [|exact H3]. apply H2. apply in_range_rows. cbn. repeat split; lia.
  Qed.

  Lemma take1_sinv mks x y : take1 mks x y -> sinv x -> sinv y.
  Proof.
    intros H [Hc Hch]. destruct H as [mk ck cs ch st n p st' Hin Hk Hg Hn Hs]. cbn [fst snd] in *.
    destruct (Hc _ _ Hg) as [Hst HstR].
    destruct (comp_send_sorted (R ck) st n p st' Hs Hn Hst HstR) as (Hp & Hst' & Hpnd & Hx0).
    assert (Horig : forall c d f r, origin cs c d f r -> origin (aset mkey_eqb ck st' cs) c d f r).
    { intros c d f r (H1 & H2 & H3). split; [exact H1|]. split; [exact H2|].
      intros st1 E r' Hr'. rewrite (aget_aset _ mkey_eqb_spec) in E. destruct (mkey_eqb ck c) eqn:Ec.
      - apply mkey_eqb_spec in Ec. subst. injection E as <-. destruct (Hx0 _ Hr') as ([df r0] & Hi & E1 & Hle). cbn in *. subst.
        specialize (H3 _ Hg _ Hi). lia.
      - eapply H3; eauto. }
    split; cbn [fst snd].
    - intros c st1 E. rewrite (aget_aset _ mkey_eqb_spec) in E. destruct (mkey_eqb ck c) eqn:Ec; [|apply Hc, E].
      apply mkey_eqb_spec in Ec. subst. injection E as <-. split; [exact Hst'|].
      destruct (comp_send_spec _ _ _ _ Hs Hn) as (tk & Htk & _). intros x Hx. apply HstR. rewrite Htk. apply in_or_app; auto.
    - assert (Hnew : forall d f rs, in_part d f rs p -> ranges_sorted rs /\
          forall r, In r rs -> exists c, key_eq mk c = true /\ origin (aset mkey_eqb ck st' cs) c d f r).
      { intros d f rs Hrs. destruct (Hp _ _ _ Hrs) as [H1 H2]. split; [exact H1|]. intros r Hr.
        destruct (H2 r Hr) as (Ha & Hb & Hcc & _). exists ck. split; [exact Hk|]. split; [exact Ha|]. split; [exact Hb|].
        intros st1 E r' Hr'. rewrite (aget_aset_same _ mkey_eqb_spec) in E. injection E as <-. apply Hcc, Hr'. }
      intros mk1 p1 Hin1. unfold chunk_merge in Hin1. apply (in_aset _ mkey_eqb_spec) in Hin1 as [Hin1|[-> ->]].
      + intros d f rs Hrs. destruct (Hch _ _ Hin1 _ _ _ Hrs) as [H1 H2]. split; [exact H1|].
        intros r Hr. destruct (H2 r Hr) as (c & Hkc & Ho). eauto.
      + set (p0 := match aget mkey_eqb mk ch with Some p => p | None => [] end).
        assert (Hp0 : forall d f rs, in_part d f rs p0 -> ranges_sorted rs /\
            forall r, In r rs -> exists c, key_eq mk c = true /\ origin cs c d f r).
        { unfold p0. destruct (aget mkey_eqb mk ch) as [p'|] eqn:E.
          - apply (aget_in _ mkey_eqb_spec) in E. apply (Hch _ _ E).
          - intros d f rs (fs & [] & _). }
        intros d f rs Hrs. apply in_part_merge in Hrs; [|exact Hpnd].
        destruct Hrs as [Hrs|(new & Hnw & Hrs)].
        * destruct (Hp0 _ _ _ Hrs) as [H1 H2]. split; [exact H1|]. intros r Hr. destruct (H2 r Hr) as (c & Hkc & Ho). eauto.
        * destruct (Hnew _ _ _ Hnw) as [N1 N2]. destruct Hrs as [-> |(old & Hold & ->)]; [auto|].
          destruct (Hp0 _ _ _ Hold) as [O1 O2]. split.
          -- apply merge_ranges_sorted; auto. intros a b Ha Hb.
             destruct (O2 a Ha) as (c & Hkc & Ho). destruct (Hp _ _ _ Hnw) as [_ P2].
             destruct (P2 b Hb) as (B1 & B2 & _ & (r0 & B3 & B4)).
             destruct (mkey_eq_dec c ck) as [-> |Hne].
             ++ left. destruct Ho as (_ & _ & Ho). specialize (Ho _ Hg _ B3). lia.
             ++ eapply nc_origins; eauto.
                ** apply ranges_sorted_ok in O1. rewrite Forall_forall in O1. auto.
                ** apply ranges_sorted_ok in N1. rewrite Forall_forall in N1. auto.
          -- intros r Hr. apply (Permutation_in _ (merge_perm _ _)), in_app_or in Hr as [Hr|Hr]; [|auto].
             destruct (O2 r Hr) as (c & Hkc & Ho). eauto.
  Qed.

  Lemma takes_sinv mks x y : takes mks x y -> sinv x -> sinv y.
  Proof. induction 1 as [|x y z _ IH H]; [auto|]. intros Hx. eapply take1_sinv; [exact H|auto]. Qed.
End Sorted.

(** ** No empty range lists *)
Definition part_full (p : part) : Prop := forall d f rs, in_part d f rs p -> rs <> [].
Lemma padd_full d f r acc : part_full acc -> part_full (padd d f r acc).
Proof.
  intros H d1 f1 rs Hin. apply in_part_padd in Hin as [Hin|(-> & -> & old & -> & _)]; [apply (H _ _ _ Hin)|]. destruct old; discriminate.
Qed.
Lemma comp_take_full rest : forall acc cur n p rest', comp_take rest acc cur n = Some (p, rest') -> part_full acc -> part_nd acc -> part_full p /\ part_nd p.
Proof.
  induction rest as [|[[d f] [s e]] rest IH]; intros acc cur n p rest' H Hf Hn; cbn in H.
  - destruct (0 <? cur); [|discriminate]. injection H as <- <-. auto.
  - destruct (s <? e).
    + destruct (cur + (e - s) <? n); [apply IH in H; auto using padd_full, padd_nd|]. injection H as <- <-. auto using padd_full, padd_nd.
    + apply IH in H; auto.
Qed.
Lemma comp_send_full st n p st' : comp_send st n = Some (p, st') -> part_full p /\ part_nd p.
Proof. intros H. eapply comp_take_full; [exact H| |apply part_nd_nil]. intros d f rs (fs & [] & _). Qed.
Definition chunk_full (c : index) : Prop := forall k p, In (k, p) c -> part_full p.
Lemma take1_full mks x y : take1 mks x y -> chunk_full (snd x) -> chunk_full (snd y).
Proof.
  intros H Hf. destruct H as [mk ck cs ch st n p st' Hin Hk Hg Hn Hs]. cbn [snd] in *. destruct (comp_send_full _ _ _ _ Hs) as [Pf Pn].
  intros k q Hq. unfold chunk_merge in Hq. apply (in_aset _ mkey_eqb_spec) in Hq as [Hq|[-> ->]]; [apply (Hf k q Hq)|].
  assert (P0 : part_full (match aget mkey_eqb mk ch with Some p => p | None => [] end)).
  { destruct (aget mkey_eqb mk ch) as [p0|] eqn:E; [apply (aget_in _ mkey_eqb_spec) in E; apply (Hf _ _ E)|]. intros d f rs (fs & [] & _). }
  intros d f rs Hrs. apply in_part_merge in Hrs; [|exact Pn]. destruct Hrs as [Hrs|(new & Hnw & [-> |(old & Hold & ->)])].
  - apply (P0 _ _ _ Hrs).
  - apply (Pf _ _ _ Hnw).
  - intros E. assert (P := merge_perm old new). rewrite E in P. apply Permutation_nil in P. apply app_eq_nil in P as [_ P]. apply (Pf _ _ _ Hnw P).
Qed.
Lemma takes_full mks x y : takes mks x y -> chunk_full (snd x) -> chunk_full (snd y).
Proof. induction 1 as [|x y z _ IH H]; [auto|]. intros Hx. eapply take1_full; [exact H|auto]. Qed.
