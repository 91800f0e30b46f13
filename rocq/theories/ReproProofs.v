(** Proofs for C74: the order of dicts does not matter. *)
From Verif Require Import Base MixtureKeyModel MixtureKeyProofs UtilsModel ChunkGenModel ChunkGenProofs6 ChunkerModel SpecSerial SpecChunk ReproModel SpecRepro.
Open Scope Z_scope.

Lemma in_fst_of {K V} (k : K) (v : V) l : In (k, v) l -> In k (map fst l).
Proof. intros H. apply in_map_iff. exists (k, v). auto. Qed.

(** ** Sorting permuted lists *)
Lemma sorted_unique {A} (R : A -> A -> Prop) l : forall l', StronglySorted R l -> StronglySorted R l' -> Permutation l l' ->
  (forall a b, In a l -> In b l -> R a b -> R b a -> a = b) -> l = l'.
Proof.
  induction l as [|x l IH]; intros l' S S' P H; [apply Permutation_nil in P; congruence|].
  destruct l' as [|y l']; [apply Permutation_sym, Permutation_nil in P; discriminate|].
  apply StronglySorted_inv in S as [S F], S' as [S' F']. rewrite Forall_forall in F, F'.
  assert (x = y).
  { assert (Hy : In y (x :: l)) by (apply (Permutation_in _ (Permutation_sym P)); left; reflexivity). assert (Hx : In x (y :: l')) by (apply (Permutation_in _ P); left; reflexivity).
    destruct Hy as [<-|Hy]; [reflexivity|]. destruct Hx as [->|Hx]; [reflexivity|]. apply H; [left; reflexivity|right; exact Hy|apply F, Hy|apply F', Hx]. }
  subst y. f_equal. apply IH; [exact S|exact S'|eapply Permutation_cons_inv, P|]. intros a b Ha Hb. apply H; right; assumption.
Qed.
Lemma ksort_ext l l' : one_spelling l -> Permutation l l' -> ksort l = ksort l'.
Proof.
  intros O P. apply (sorted_unique _ _ _ (ksort_sorted l) (ksort_sorted l')).
  - rewrite (ksort_perm l), (ksort_perm l'). exact P.
  - intros a b Ha Hb H1 H2. apply O; [apply (Permutation_in _ (ksort_perm l)), Ha|apply (Permutation_in _ (ksort_perm l)), Hb|]. apply key_ltb_total; assumption.
Qed.
Lemma one_spelling_perm l l' : Permutation l l' -> one_spelling l -> one_spelling l'.
Proof. intros P O k k' H H'. apply O; apply (Permutation_in _ (Permutation_sym P)); assumption. Qed.
Lemma one_spelling_incl l l' : incl l' l -> one_spelling l -> one_spelling l'.
Proof. intros I O k k' H H'. apply O; apply I; assumption. Qed.
Lemma isort_str_ext l l' : Permutation l l' -> isort str_ltb l = isort str_ltb l'.
Proof.
  intros P. assert (T : forall a b, str_ltb a b = false -> str_ltb b a = false -> a = b).
  { intros a b. unfold str_ltb. rewrite (str_cmp_anti a b). destruct (str_cmp a b) eqn:E; cbn; try discriminate. intros _ _. apply str_cmp_eq, E. }
  assert (A : forall a b, str_ltb a b = true -> str_ltb b a = false).
  { intros a b. unfold str_ltb. rewrite (str_cmp_anti a b). destruct (str_cmp a b); cbn; try discriminate; reflexivity. }
  assert (N : forall a b c, str_ltb b a = false -> str_ltb c b = false -> str_ltb c a = false).
  { intros a b c H1 H2. destruct (str_ltb c a) eqn:E; [|reflexivity]. destruct (str_ltb a b) eqn:E1.
    - assert (X : str_ltb c b = true); [|congruence]. revert E E1. unfold str_ltb. destruct (str_cmp c a) eqn:Q1; try discriminate. destruct (str_cmp a b) eqn:Q2; try discriminate. rewrite (str_cmp_trans _ _ _ Q1 Q2). reflexivity.
    - rewrite (T a b E1 H1) in E. congruence. }
  assert (S : forall l, StronglySorted (fun a b => str_ltb b a = false) (isort str_ltb l)) by (intros; apply isort_sorted; assumption).
  apply (sorted_unique _ _ _ (S l) (S l')).
  - rewrite !isort_perm. exact P.
  - intros a b _ _ H1 H2. apply T; assumption.
Qed.
Lemma isort_fst_sorted {V} (l : list (Z * V)) : StronglySorted Z.le (map fst (isort (fun a b => fst a <? fst b) l)).
Proof.
  induction l as [|x l IH]; [constructor|]. cbn [isort]. induction (isort _ l) as [|y m IHm]; [repeat constructor|]. cbn [insert_sorted map] in *.
  apply StronglySorted_inv in IH as [S F]. destruct (fst y <? fst x) eqn:E; [apply Z.ltb_lt in E|apply Z.ltb_ge in E].
  2: { cbn [map]. constructor; [constructor; assumption|]. rewrite Forall_forall in *. intros z [<-|Hz]; [lia|]. specialize (F z Hz). lia. }
  - cbn [map]. constructor; [apply IHm, S|]. rewrite Forall_forall in *. intros z Hz. apply in_map_iff in Hz as (w & <- & Hw). apply (Permutation_in _ (insert_sorted_perm _ _ _)) in Hw as [<-|Hw]; [lia|]. apply F, in_map, Hw.
Qed.
Lemma isort_fst_ext {V} (l l' : list (Z * V)) : NoDup (map fst l) -> NoDup (map fst l') -> (forall k, In k (map fst l) <-> In k (map fst l')) ->
  map fst (isort (fun a b => fst a <? fst b) l) = map fst (isort (fun a b => fst a <? fst b) l').
Proof.
  intros N N' H. apply (sorted_unique Z.le); [apply isort_fst_sorted|apply isort_fst_sorted| |intros; lia].
  rewrite !(Permutation_map fst (isort_perm _ _)). apply NoDup_Permutation; assumption.
Qed.
Lemma flat_map_aligned {V C} (F : Z * V -> list C) l : forall l', map fst l = map fst l' ->
  (forall e e', In e l -> In e' l' -> fst e = fst e' -> F e = F e') -> flat_map F l = flat_map F l'.
Proof.
  induction l as [|e l IH]; intros [|e' l'] E H; try discriminate; [reflexivity|]. cbn [map] in E. injection E as E1 E2. cbn [flat_map].
  rewrite (H e e' (or_introl eq_refl) (or_introl eq_refl) E1). f_equal. apply IH; [exact E2|]. intros a b Ha Hb. apply H; right; assumption.
Qed.
Lemma flatten_ext (p p' : part) : NoDup (map fst p) -> NoDup (map fst p') ->
  (forall d fs, In (d, fs) p -> NoDup (map fst fs)) -> (forall d fs, In (d, fs) p' -> NoDup (map fst fs)) ->
  (forall d, In d (map fst p) <-> In d (map fst p')) ->
  (forall d fs fs', In (d, fs) p -> In (d, fs') p' -> forall f, aget Z.eqb f fs = aget Z.eqb f fs') -> flatten p = flatten p'.
Proof.
  intros N N' F F' D E. unfold flatten. apply flat_map_aligned; [apply isort_fst_ext; assumption|].
  intros [d fs] [d' fs'] H H' X. cbn [fst snd] in *. subst d'. apply (Permutation_in _ (isort_perm _ _)) in H, H'. specialize (F d fs H). specialize (F' d fs' H'). specialize (E d fs fs' H H').
  apply flat_map_aligned.
  - apply isort_fst_ext; [exact F|exact F'|]. intros f. split; intros Hf.
    + apply (aget_some_in _ Z.eqb_eq) in Hf as (v & Hf). rewrite E in Hf. apply (in_map fst _ (f, v)), (aget_in _ Z.eqb_eq), Hf.
    + apply (aget_some_in _ Z.eqb_eq) in Hf as (v & Hf). rewrite <- E in Hf. apply (in_map fst _ (f, v)), (aget_in _ Z.eqb_eq), Hf.
  - intros [f rs] [f' rs'] I I' X. cbn [fst snd] in *. subst f'. apply (Permutation_in _ (isort_perm _ _)) in I, I'.
    apply (in_aget _ Z.eqb_eq _ _ _ F) in I. apply (in_aget _ Z.eqb_eq _ _ _ F') in I'. rewrite E in I. congruence.
Qed.

(** ** Two indexes that are equal as Python dicts *)
Section Same.
  Variables idx idx' : index.
  Hypothesis Hi : is_index idx.
  Hypothesis Hi' : is_index idx'.
  Hypothesis Hs : same_index idx idx'.
  Lemma keys_perm : Permutation (map fst idx) (map fst idx').
  Proof using Hi Hi' Hs.
    apply NoDup_Permutation; [apply Hi|apply Hi'|]. intros k. destruct Hs as [H _]. specialize (H k). change (aget mkey_eqb k idx = None <-> aget mkey_eqb k idx' = None) in H.
    assert (A := aget_none mkey_eqb mkey_eqb_spec k idx). assert (A' := aget_none mkey_eqb mkey_eqb_spec k idx').
    destruct (aget mkey_eqb k idx) as [p|] eqn:E, (aget mkey_eqb k idx') as [p'|] eqn:E'.
    - apply (aget_in _ mkey_eqb_spec) in E, E'. split; intros _; eapply in_fst_of; eassumption.
    - discriminate (proj2 H eq_refl).
    - discriminate (proj1 H eq_refl).
    - split; intros X; exfalso; [apply (proj1 A eq_refl X)|apply (proj1 A' eq_refl X)].
  Qed.
  Lemma comps_same k : match aget mkey_eqb k idx with Some p => flatten p | None => [] end = match aget mkey_eqb k idx' with Some p => flatten p | None => [] end.
  Proof using Hi Hi' Hs.
    destruct Hs as (H1 & H2 & H3). specialize (H1 k). specialize (H2 k). specialize (H3 k). unfold at_kdf, at_kd, at_k in *. change (aget mkey_eqb k idx = None <-> aget mkey_eqb k idx' = None) in H1.
    assert (H2' : forall d, match aget mkey_eqb k idx with None => None | Some ds => aget Z.eqb d ds end = None <-> match aget mkey_eqb k idx' with None => None | Some ds => aget Z.eqb d ds end = None) by exact H2.
    assert (H3' : forall d f, match match aget mkey_eqb k idx with None => None | Some ds => aget Z.eqb d ds end with None => None | Some fs => aget Z.eqb f fs end = match match aget mkey_eqb k idx' with None => None | Some ds => aget Z.eqb d ds end with None => None | Some fs => aget Z.eqb f fs end) by exact H3.
    clear H2 H3. rename H2' into H2, H3' into H3.
    destruct (aget mkey_eqb k idx) as [p|] eqn:E, (aget mkey_eqb k idx') as [p'|] eqn:E'; [|discriminate (proj2 H1 eq_refl)|discriminate (proj1 H1 eq_refl)|reflexivity].
    apply (aget_in _ mkey_eqb_spec) in E, E'. destruct Hi as (_ & _ & _ & W), Hi' as (_ & _ & _ & W'). destruct (W k p E) as [N F], (W' k p' E') as [N' F'].
    apply flatten_ext; [exact N|exact N'|exact F|exact F'| |].
    - intros d. assert (A := aget_none Z.eqb Z.eqb_eq d p). assert (A' := aget_none Z.eqb Z.eqb_eq d p'). specialize (H2 d).
      destruct (aget Z.eqb d p) as [fs|] eqn:G, (aget Z.eqb d p') as [fs'|] eqn:G'.
      + apply (aget_in _ Z.eqb_eq) in G, G'. split; intros _; eapply in_fst_of; eassumption.
      + discriminate (proj2 H2 eq_refl).
      + discriminate (proj1 H2 eq_refl).
      + split; intros X; exfalso; [apply (proj1 A eq_refl X)|apply (proj1 A' eq_refl X)].
    - intros d fs fs' I I' f. specialize (H3 d f). assert (G : aget Z.eqb d p = Some fs) by exact (in_aget _ Z.eqb_eq _ _ _ N I). assert (G' : aget Z.eqb d p' = Some fs') by exact (in_aget _ Z.eqb_eq _ _ _ N' I').
      change (match aget Z.eqb d p with None => None | Some fs => aget Z.eqb f fs end = match aget Z.eqb d p' with None => None | Some fs => aget Z.eqb f fs end) in H3. rewrite G, G' in H3. exact H3.
  Qed.
  Lemma order_same xxh64 shuffle : key_order xxh64 shuffle idx = key_order xxh64 shuffle idx'.
  Proof using Hi Hi' Hs.
    unfold key_order, seed_of. assert (P := keys_perm). f_equal.
    - do 3 f_equal. apply isort_str_ext, Permutation_map, P.
    - apply ksort_ext; [|exact P]. intros k k' A B. apply (proj1 (proj2 Hi)); assumption.
  Qed.
  Lemma NoDup_dedup_ l : NoDup (dedup l).
  Proof using.
    induction l as [|x l IH]; [constructor|]. cbn [dedup]. destruct (existsb (mkey_eqb x) l) eqn:E; [exact IH|]. constructor; [|exact IH].
    rewrite dedup_in. intros H. assert (X : existsb (mkey_eqb x) l = true) by (apply existsb_exists; exists x; split; [exact H|apply mkey_eqb_refl]). congruence.
  Qed.
  Lemma kid_same rows kid : one_spelling (map fst rows ++ map fst idx) -> update_key_id_map idx rows kid = update_key_id_map idx' rows kid.
  Proof using Hi Hi' Hs.
    intros O. destruct kid; [|reflexivity]. cbn [update_key_id_map]. f_equal. apply ksort_ext.
    - apply (one_spelling_incl (map fst rows ++ map fst idx)); [|exact O]. intros k. apply dedup_in.
    - apply NoDup_Permutation; [apply NoDup_dedup_|apply NoDup_dedup_|]. intros k. rewrite !dedup_in, !in_app_iff.
      assert (X : In k (map fst idx) <-> In k (map fst idx')) by (split; apply Permutation_in; [apply keys_perm|apply Permutation_sym, keys_perm]). tauto.
  Qed.
  Lemma loop_same h : spelled h idx -> forall fuel g sf, gen_loop fuel idx h g sf = gen_loop fuel idx' h g sf.
  Proof using Hi Hi' Hs.
    intros O. induction fuel as [|fuel IH]; intros g sf; [reflexivity|]. cbn [gen_loop]. destruct (10 <? g_fail g); [reflexivity|].
    destruct (m_rows (h (g_base g))) as [|kv rows].
    - destruct (note_arbitrary g sf) as [g1 sf1]. destruct (round_robin _ _ _ _ _ _) as [[[? ?] ?] [key p| |e]]; try reflexivity.
      destruct (g_cur g1 =? g_target g1); [reflexivity|apply IH].
    - assert (E : note_mixture idx h g sf (h (g_base g)) = note_mixture idx' h g sf (h (g_base g))) by (unfold note_mixture; rewrite kid_same by apply O; reflexivity).
      rewrite E. clear E. destruct (note_mixture idx' h g sf (h (g_base g))) as [g1 sf1]. destruct (run_attempt (m_strict (h (g_base g))) (g_comps g1) (kv :: rows)) as [a|e]; [|reflexivity]. destruct (att_success a); [|reflexivity]. destruct (g_cur g1 =? g_target g1); [reflexivity|apply IH].
  Qed.
  Definition on (q : qr) (i : index) (o : list mkey) : qr := mkQR i o (q_self q) (q_count q) (q_gen q) (q_nret q) (q_son q).
  Lemma run_same order fuel ops : Forall (fun o => spelled (op_heap o) idx) ops -> forall q, q_idx q = idx -> q_order q = order ->
    forall q2 os, qrun fuel ops q = (q2, os) -> qrun fuel ops (on q idx' order) = (on q2 idx' order, os) /\ q_idx q2 = idx /\ q_order q2 = order.
  Proof using Hi Hi' Hs.
    induction 1 as [|o ops Ho F IH]; intros q Eq Er q2 os R; [injection R as <- <-; auto|]. destruct o as [h|h r]; cbn [qrun op_heap] in *.
    - assert (N : qr_next fuel h (on q idx' order) = (on (fst (qr_next fuel h q)) idx' order, snd (qr_next fuel h q)) /\ q_idx (fst (qr_next fuel h q)) = idx /\ q_order (fst (qr_next fuel h q)) = order).
      { unfold qr_next. cbn [on q_idx q_order q_self q_count q_gen q_nret q_son]. rewrite Eq, Er.
        assert (G : gen_init idx' order = gen_init idx order) by (unfold gen_init; do 2 f_equal; apply map_ext; intros k; f_equal; symmetry; apply comps_same).
        rewrite G. set (gn := match q_gen q with Some g => g | None => _ end). match goal with |- context [if ?b then _ else _] => destruct b end; [cbn; auto|].
        assert (X : gen_send fuel idx' h gn (q_self q) (s_mix (q_self q)) (q_count q) = gen_send fuel idx h gn (q_self q) (s_mix (q_self q)) (q_count q)).
        { unfold gen_send. destruct gn; try reflexivity; symmetry; apply loop_same, Ho. }
        rewrite X. clear X. destruct (gen_send fuel idx h gn (q_self q) (s_mix (q_self q)) (q_count q)) as [[gn' sf'] [c| | |e]]; cbn [fst snd q_idx q_order]; auto. }
      destruct (qr_next fuel h q) as [q1 o1]. cbn [fst snd] in N. destruct N as (N1 & N2 & N3). destruct (qrun fuel ops q1) as [q3 os3] eqn:E3. injection R as <- <-.
      rewrite N1. destruct (IH q1 N2 N3 _ _ E3) as (I1 & I2 & I3). rewrite I1. auto.
    - assert (X : qr_update_mixture h r (on q idx' order) = on (qr_update_mixture h r q) idx' order).
      { unfold qr_update_mixture, on. cbn. rewrite Eq, kid_same by apply Ho. reflexivity. }
      rewrite X. apply IH; [exact Eq|exact Er|exact R].
  Qed.
End Same.
