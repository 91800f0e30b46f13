(** Proofs for C74: the order in which a mixture lists its keys does not matter. *)
From Verif Require Import Base MixtureKeyModel MixtureKeyProofs UtilsModel ChunkGenModel ChunkGenProofs2 ChunkGenProofs6 SpecChunk SpecRepro ReproProofs.
From Coq Require Import QArith.
Open Scope Z_scope.

Lemma reord_iff {V} (a b : list (mkey * V)) : reordered a b <-> NoDup (map fst a) /\ NoDup (map fst b) /\ forall k, aget mkey_eqb k a = aget mkey_eqb k b.
Proof.
  split.
  - intros [N P]. assert (N' : NoDup (map fst b)) by (eapply Permutation_NoDup; [apply Permutation_map, P|exact N]). split; [exact N|]. split; [exact N'|].
    intros k. destruct (aget mkey_eqb k a) as [v|] eqn:E.
    + symmetry. apply (in_aget _ mkey_eqb_spec); [exact N'|]. apply (Permutation_in _ P), (aget_in _ mkey_eqb_spec), E.
    + apply (aget_none _ mkey_eqb_spec) in E. symmetry. apply (aget_none _ mkey_eqb_spec). intros H. apply E. apply (Permutation_in _ (Permutation_map fst (Permutation_sym P))), H.
  - intros (N & N' & H). split; [exact N|]. apply NoDup_Permutation; [eapply NoDup_map_inv, N|eapply NoDup_map_inv, N'|].
    intros [k v]. split; intros I.
    + apply (aget_in _ mkey_eqb_spec). rewrite <- H. apply (in_aget _ mkey_eqb_spec); assumption.
    + apply (aget_in _ mkey_eqb_spec). rewrite H. apply (in_aget _ mkey_eqb_spec); assumption.
Qed.
Lemma reord_lookup a b k : reordered a b -> lookup0 k a = lookup0 k b.
Proof. intros H. apply reord_iff in H as (_ & _ & H). unfold lookup0. rewrite H. reflexivity. Qed.
Lemma reord_aset {V} k (v : V) a b : reordered a b -> reordered (aset mkey_eqb k v a) (aset mkey_eqb k v b).
Proof.
  rewrite !reord_iff. intros (N & N' & H). split; [apply NoDup_akeys_aset; [exact mkey_eqb_spec|exact N]|]. split; [apply NoDup_akeys_aset; [exact mkey_eqb_spec|exact N']|].
  intros k0. rewrite !(aget_aset _ mkey_eqb_spec), H. reflexivity.
Qed.
Lemma reord_adel {V} k (a b : list (mkey * V)) : reordered a b -> reordered (adel mkey_eqb k a) (adel mkey_eqb k b).
Proof.
  rewrite !reord_iff. intros (N & N' & H). split; [apply NoDup_akeys_adel, N|]. split; [apply NoDup_akeys_adel, N'|].
  intros k0. destruct (mkey_eqb k k0) eqn:E.
  - apply mkey_eqb_spec in E. subst k0. rewrite !(aget_adel_same _ mkey_eqb_spec) by assumption. reflexivity.
  - assert (k <> k0) by (intros ->; rewrite mkey_eqb_refl in E; discriminate). rewrite !(aget_adel_other _ mkey_eqb_spec) by assumption. apply H.
Qed.
Lemma reord_add_each kds : forall a b, reordered a b -> reordered (add_each kds a) (add_each kds b).
Proof.
  induction kds as [|kd kds IH]; intros a b H; [exact H|]. unfold add_each. cbn [fold_left]. apply IH. rewrite (reord_lookup _ _ (fst kd) H). apply reord_aset, H.
Qed.
Lemma reord_keys {V} (a b : list (mkey * V)) : reordered a b -> Permutation (map fst a) (map fst b).
Proof. intros [_ P]. apply Permutation_map, P. Qed.
Lemma reord_sum a b : reordered a b -> zsum (map snd a) = zsum (map snd b).
Proof.
  intros [_ P]. apply zsum_perm, Permutation_map, P.
Qed.
Lemma forallb_perm {A} (f : A -> bool) l l' : Permutation l l' -> forallb f l = forallb f l'.
Proof. induction 1; cbn; [reflexivity|congruence|destruct (f x), (f y); reflexivity|congruence]. Qed.
Lemma existsb_perm {A} (f : A -> bool) l l' : Permutation l l' -> existsb f l = existsb f l'.
Proof. induction 1; cbn; [reflexivity|congruence|destruct (f x), (f y); reflexivity|congruence]. Qed.
Lemma forallb_ext_in {A} (f g : A -> bool) l : (forall x, f x = g x) -> forallb f l = forallb g l.
Proof. intros H. induction l as [|x l IH]; [reflexivity|]. cbn. rewrite H, IH. reflexivity. Qed.
Lemma dict_eqb_same a a' b b' : reordered a a' -> reordered b b' -> dict_eqb a b = dict_eqb a' b'.
Proof.
  intros H H'. unfold dict_eqb. f_equal.
  - rewrite (Permutation_length (proj2 H)), (Permutation_length (proj2 H')). reflexivity.
  - rewrite (forallb_perm _ _ _ (proj2 H)). apply forallb_ext_in. intros x. apply reord_iff in H' as (_ & _ & E). rewrite E. reflexivity.
Qed.

(** ** An attempt *)
Definition att_sim (a a' : att) : Prop :=
  a_comps a = a_comps a' /\ a_chunk a = a_chunk a' /\ reordered (a_rem a) (a_rem a') /\ reordered (a_mix a) (a_mix a') /\ a_prog a = a_prog a'.
Definition res_sim (r r' : res att) : Prop := match r, r' with Ok a, Ok a' => att_sim a a' | Err e, Err e' => e = e' | _, _ => False end.
Lemma att_mk c k r r' m m' p : reordered r r' -> reordered m m' -> att_sim (mkAtt c k r m p) (mkAtt c k r' m' p).
Proof. intros H H'. split; [reflexivity|]. split; [reflexivity|]. split; [exact H|]. split; [exact H'|reflexivity]. Qed.
Lemma serve_sim mk cks : forall a a', att_sim a a' -> res_sim (serve mk cks a) (serve mk cks a').
Proof.
  induction cks as [|ck cks IH]; intros a a' S; [exact S|]. cbn [serve]. destruct (key_eq mk ck); [|apply IH, S].
  destruct S as (S1 & S2 & S3 & S4 & S5). rewrite <- S1, <- (reord_lookup _ _ mk S3). destruct (aget mkey_eqb ck (a_comps a)) as [st|]; [|reflexivity].
  destruct (comp_send st (lookup0 mk (a_rem a))) as [[p st']|]; [|apply IH; unfold att_sim; auto].
  cbv zeta. destruct (lookup0 mk (a_rem a) <? part_size p); [reflexivity|]. rewrite <- S2, <- S5. cbn [a_rem]. rewrite !lookup0_aset, mkey_eqb_refl.
  match goal with |- res_sim (if _ then Ok ?x else _) (if _ then Ok ?y else _) => assert (A : att_sim x y) end.
  { apply att_mk; [apply reord_aset, S3|exact S4]. }
  destruct (_ =? 0); [exact A|apply IH, A].
Qed.
Lemma best_effort_sim mk a a' : one_spelling (map fst (a_rem a)) -> att_sim a a' -> res_sim (best_effort mk a) (best_effort mk a').
Proof.
  intros O (S1 & S2 & S3 & S4 & S5). unfold best_effort. cbv zeta. rewrite <- !(reord_lookup _ _ mk S3), <- !(reord_lookup _ _ mk S4).
  destruct (lookup0 mk (a_mix a) <? lookup0 mk (a_rem a)); [reflexivity|].
  set (mix1 := if _ =? _ then adel mkey_eqb mk (a_mix a) else _). set (mix1' := if _ =? _ then adel mkey_eqb mk (a_mix a') else _).
  assert (M : reordered mix1 mix1') by (unfold mix1, mix1'; destruct (_ =? _); [apply reord_adel|apply reord_aset]; exact S4).
  assert (R := reord_adel mk _ _ S3). assert (T : ksort (map fst (adel mkey_eqb mk (a_rem a))) = ksort (map fst (adel mkey_eqb mk (a_rem a')))).
  { apply ksort_ext; [|apply reord_keys, R]. eapply one_spelling_incl; [|exact O]. apply akeys_adel. }
  destruct (adel mkey_eqb mk (a_rem a)) as [|x r] eqn:E, (adel mkey_eqb mk (a_rem a')) as [|x' r'] eqn:E'.
  - rewrite <- S1, <- S2, <- S5. apply att_mk; [exact R|exact M].
  - exfalso. destruct R as [_ P]. apply Permutation_nil in P. discriminate.
  - exfalso. destruct R as [_ P]. apply Permutation_sym, Permutation_nil in P. discriminate.
  - rewrite <- E, <- E' in *. clear E E'. rewrite <- T. set (target := ksort _) in *.
    assert (L : map (fun k => lookup0 k mix1) target = map (fun k => lookup0 k mix1') target) by (apply map_ext; intros; apply reord_lookup, M). rewrite <- L.
    destruct (_ =? 0); [reflexivity|].
    assert (L2 : map (fun k => (inject_Z (lookup0 k mix1) / inject_Z (zsum (map (fun k => lookup0 k mix1) target)))%Q) target = map (fun k => (inject_Z (lookup0 k mix1') / inject_Z (zsum (map (fun k => lookup0 k mix1) target)))%Q) target) by (apply map_ext; intros; rewrite (reord_lookup _ _ _ M); reflexivity).
    rewrite <- L2. destruct (distribute_by_ratio _ _) as [ds|]; [|reflexivity]. destruct (negb (zsum ds =? _)); [reflexivity|].
    rewrite <- (reord_sum _ _ S4), <- (reord_sum _ _ (reord_add_each (combine target ds) _ _ M)). destruct (negb _); [reflexivity|].
    rewrite <- S1, <- S2. apply att_mk; apply reord_add_each; assumption.
Qed.
Lemma aset_keys_incl k (v : Z) l K : incl (map fst l) K -> In k K -> incl (map fst (aset mkey_eqb k v l)) K.
Proof.
  intros I H x Hx. destruct (aget mkey_eqb k l) as [v0|] eqn:E.
  - rewrite akeys_aset_in in Hx; [apply I, Hx|]. apply (aget_in _ mkey_eqb_spec) in E. eapply in_fst_of, E.
  - rewrite (aset_perm_new _ k v l E), map_app in Hx. apply in_app_or in Hx as [Hx|[<-|[]]]; [apply I, Hx|exact H].
Qed.
Lemma serve_incl K mk cks : In mk K -> forall a b, incl (map fst (a_rem a)) K -> serve mk cks a = Ok b -> incl (map fst (a_rem b)) K.
Proof.
  intros H. induction cks as [|ck cks IH]; intros a b I R; cbn [serve] in R; [injection R as <-; exact I|]. destruct (key_eq mk ck); [|eapply IH; eassumption].
  destruct (aget mkey_eqb ck (a_comps a)) as [st|]; [|discriminate]. destruct (comp_send st _) as [[p st']|]; [|eapply IH; eassumption].
  cbv zeta in R. destruct (_ <? _); [discriminate|]. assert (I' := aset_keys_incl mk (lookup0 mk (a_rem a) - part_size p) _ _ I H).
  destruct (lookup0 _ _ =? 0); [injection R as <-; exact I'|]. eapply IH; [|exact R]. exact I'.
Qed.
Lemma add_each_incl K kds : incl (map fst kds) K -> forall l, incl (map fst l) K -> incl (map fst (add_each kds l)) K.
Proof.
  induction kds as [|kd kds IH]; intros J l I; [exact I|]. unfold add_each. cbn [fold_left]. apply IH; [intros x Hx; apply J; right; exact Hx|]. apply aset_keys_incl; [exact I|apply J; left; reflexivity].
Qed.
Lemma best_effort_incl K mk a b : incl (map fst (a_rem a)) K -> best_effort mk a = Ok b -> incl (map fst (a_rem b)) K.
Proof.
  intros I R. unfold best_effort in R. cbv zeta in R. destruct (_ <? _); [discriminate|].
  assert (J : incl (map fst (adel mkey_eqb mk (a_rem a))) K) by (intros x Hx; apply I; eapply akeys_adel, Hx).
  destruct (adel mkey_eqb mk (a_rem a)) as [|x r] eqn:E; [injection R as <-; exact J|]. rewrite <- E in *. destruct (_ =? 0); [discriminate|].
  destruct (distribute_by_ratio _ _) as [ds|]; [|discriminate]. destruct (negb _); [discriminate|]. destruct (negb _); [discriminate|]. injection R as <-. cbn [a_rem].
  apply add_each_incl; [|exact J]. intros y Hy. apply in_map_iff in Hy as ([k d] & <- & Hy). apply in_combine_l in Hy. apply J. apply (Permutation_in _ (ksort_perm _)) in Hy. exact Hy.
Qed.
Lemma serve_keys_sim K strict cks mks : one_spelling K -> incl mks K -> forall a a', incl (map fst (a_rem a)) K -> att_sim a a' -> res_sim (serve_keys strict cks mks a) (serve_keys strict cks mks a').
Proof.
  intros O. induction mks as [|mk mks IH]; intros J a a' I S; [exact S|]. cbn [serve_keys]. assert (V := serve_sim mk cks a a' S).
  destruct (serve mk cks a) as [b|e] eqn:E, (serve mk cks a') as [b'|e']; cbn [res_sim] in V; try contradiction; [|exact V].
  assert (I' : incl (map fst (a_rem b)) K) by (eapply serve_incl; [|exact I|exact E]; apply J; left; reflexivity).
  assert (X : forall s, res_sim (serve_keys s cks mks b) (serve_keys s cks mks b') -> res_sim (serve_keys s cks mks b) (serve_keys s cks mks b')) by auto. clear X.
  rewrite <- (reord_lookup _ _ mk (proj1 (proj2 (proj2 V)))). assert (R : res_sim (serve_keys strict cks mks b) (serve_keys strict cks mks b')) by (apply IH; [intros x Hx; apply J; right; exact Hx|exact I'|exact V]).
  destruct (0 <? lookup0 mk (a_rem b)); [|exact R]. destruct strict; [exact R|]. apply best_effort_sim; [eapply one_spelling_incl; [exact I'|exact O]|exact V].
Qed.
Lemma serve_keys_incl K strict cks mks : incl mks K -> forall a b, incl (map fst (a_rem a)) K -> serve_keys strict cks mks a = Ok b -> incl (map fst (a_rem b)) K.
Proof.
  induction mks as [|mk mks IH]; intros J a b I R; cbn [serve_keys] in R; [injection R as <-; exact I|].
  destruct (serve mk cks a) as [a1|e] eqn:E; [|discriminate]. assert (I1 : incl (map fst (a_rem a1)) K) by (eapply serve_incl; [|exact I|exact E]; apply J; left; reflexivity).
  assert (J' : incl mks K) by (intros x Hx; apply J; right; exact Hx). destruct (0 <? _); [|eapply IH; eassumption]. destruct strict; [eapply IH; eassumption|]. eapply best_effort_incl; eassumption.
Qed.
Lemma attempt_loop_sim K strict : one_spelling K -> forall fuel a a', incl (map fst (a_rem a)) K -> att_sim a a' -> res_sim (attempt_loop fuel strict a) (attempt_loop fuel strict a').
Proof.
  intros O. induction fuel as [|fuel IH]; intros a a' I S; cbn [attempt_loop]; assert (S0 := S); destruct S as (S1 & S2 & S3 & S4 & S5);
    rewrite <- S5, (existsb_perm _ _ _ (proj2 S3)); destruct (a_prog a && existsb (fun kv : mkey * Z => negb (snd kv =? 0)) (a_rem a')); try exact S0; [reflexivity|].
  rewrite <- S1, <- S2. assert (T : ksort (map fst (a_rem a)) = ksort (map fst (a_rem a'))) by (apply ksort_ext; [eapply one_spelling_incl; [exact I|exact O]|apply reord_keys, S3]). rewrite <- T.
  assert (J : incl (ksort (map fst (a_rem a))) K) by (intros x Hx; apply I; apply (Permutation_in _ (ksort_perm _)) in Hx; exact Hx).
  assert (V := serve_keys_sim K strict (ksort (map fst (a_comps a))) _ O J (mkAtt (a_comps a) (a_chunk a) (a_rem a) (a_mix a) false) (mkAtt (a_comps a) (a_chunk a) (a_rem a') (a_mix a') false) I (att_mk _ _ _ _ _ _ _ S3 S4)).
  assert (W := serve_keys_incl K strict (ksort (map fst (a_comps a))) _ J (mkAtt (a_comps a) (a_chunk a) (a_rem a) (a_mix a) false)).
  destruct (serve_keys _ _ _ (mkAtt _ _ (a_rem a) _ _)) as [b|e], (serve_keys _ _ _ (mkAtt _ _ (a_rem a') _ _)) as [b'|e']; cbn [res_sim] in V; try contradiction; [|exact V].
  apply IH; [apply (W b I eq_refl)|exact V].
Qed.
Lemma run_attempt_sim strict comps m m' : one_spelling (map fst m) -> reordered m m' -> res_sim (run_attempt strict comps m) (run_attempt strict comps m').
Proof.
  intros O H. unfold run_attempt. rewrite (Permutation_length (proj2 H)). apply (attempt_loop_sim (map fst m)); [exact O|apply incl_refl|]. apply att_mk; exact H.
Qed.
Lemma att_success_sim a a' : att_sim a a' -> att_success a = att_success a'.
Proof.
  intros (_ & _ & S & _). unfold att_success. assert (E := forallb_perm (fun kv : mkey * Z => snd kv =? 0) _ _ (proj2 S)). destruct S as [_ P].
  destruct (a_rem a), (a_rem a'); [reflexivity|apply Permutation_nil in P; discriminate|apply Permutation_sym, Permutation_nil in P; discriminate|exact E].
Qed.

(** ** The generator *)
Definition log_sim (x x' : Z * logged) : Prop :=
  fst x = fst x' /\ match snd x, snd x' with LSnap m, LSnap m' => same_mixture m m' | LRef r, LRef r' => r = r' | _, _ => False end.
Definition self_sim (s s' : qself) : Prop := Forall2 log_sim (s_log s) (s_log s') /\ s_kid s = s_kid s' /\ s_mix s = s_mix s' /\ s_replay s = s_replay s'.
Definition prev_sim (p p' : option (list (mkey * Z))) : Prop := match p, p' with Some m, Some m' => reordered m m' | None, None => True | _, _ => False end.
Definition g_sim (g g' : gstate) : Prop :=
  exists p p', prev_sim p p' /\
  g = mkG (g_keys g) (g_comps g) (g_cur g) (g_mid g) (g_kidx g) (g_empty g) p (g_fail g) (g_base g) (g_target g) /\
  g' = mkG (g_keys g) (g_comps g) (g_cur g) (g_mid g) (g_kidx g) (g_empty g) p' (g_fail g) (g_base g) (g_target g).
Definition gen_sim (x x' : gen) : Prop := match x, x' with GChunk g, GChunk g' => g_sim g g' | GNone g, GNone g' => g_sim g g' | GDone, GDone => True | _, _ => False end.
Definition out_sim (o o' : gout) : Prop := match o, o' with YChunk c, YChunk c' => same_chunk c c' | YNone, YNone => True | YStop, YStop => True | YErr e, YErr e' => e = e' | _, _ => False end.
Definition step_sim (x x' : gen * qself * gout) : Prop := gen_sim (fst (fst x)) (fst (fst x')) /\ self_sim (snd (fst x)) (snd (fst x')) /\ out_sim (snd x) (snd x').
Lemma g_mk k c u i x e p p' f b t : prev_sim p p' -> g_sim (mkG k c u i x e p f b t) (mkG k c u i x e p' f b t).
Proof. intros H. exists p, p'. auto. Qed.

Lemma kid_sim idx rows rows' kid : one_spelling (map fst rows ++ map fst idx) -> reordered rows rows' -> update_key_id_map idx rows kid = update_key_id_map idx rows' kid.
Proof.
  intros O H. assert (K := reord_keys _ _ H). unfold update_key_id_map. destruct kid.
  - f_equal. apply ksort_ext.
    + apply (one_spelling_incl (map fst rows ++ map fst idx)); [|exact O]. intros k. apply dedup_in.
    + apply NoDup_Permutation; [apply NoDup_dedup_|apply NoDup_dedup_|]. intros k. rewrite !dedup_in, !in_app_iff.
      assert (X : In k (map fst rows) <-> In k (map fst rows')) by (split; apply Permutation_in; [exact K|apply Permutation_sym, K]). tauto.
  - f_equal. apply ksort_ext.
    + apply (one_spelling_incl (map fst rows ++ map fst idx)); [|exact O]. intros k Hk. rewrite dedup_in in Hk. apply in_or_app. left. exact Hk.
    + apply NoDup_Permutation; [apply NoDup_dedup_|apply NoDup_dedup_|]. intros k. rewrite !dedup_in. split; apply Permutation_in; [exact K|apply Permutation_sym, K].
Qed.
Section Gen.
  Variables (idx : index) (h h' : heap).
  Hypothesis Hsp : spelled h idx.
  Hypothesis Hsame : forall r, same_mixture (h r) (h' r).
  Lemma note_sim g g' sf sf' r : g_sim g g' -> self_sim sf sf' ->
    g_sim (fst (note_mixture idx h g sf (h r))) (fst (note_mixture idx h' g' sf' (h' r))) /\ self_sim (snd (note_mixture idx h g sf (h r))) (snd (note_mixture idx h' g' sf' (h' r))).
  Proof using Hsp Hsame.
    intros (p & p' & P & E & E') (L & K & M & R). destruct (Hsame r) as (HR & HS & HC). unfold note_mixture.
    assert (D : prev_differs (g_prev g) (m_rows (h r)) = prev_differs (g_prev g') (m_rows (h' r))).
    { rewrite E, E'. cbn. destruct p, p'; cbn in *; try contradiction; [|reflexivity]. f_equal. apply dict_eqb_same; assumption. }
    rewrite <- D. destruct (prev_differs (g_prev g) (m_rows (h r))).
    - cbn [fst snd]. split.
      + rewrite E'. cbn. apply g_mk. exact HR.
      + unfold self_sim. cbn [s_log s_kid s_mix s_replay]. rewrite <- R, <- K, <- M. split; [|split; [|split; reflexivity]].
        * destruct (s_replay sf); [exact L|]. apply Forall2_app; [exact L|]. constructor; [|constructor]. split; [rewrite E'; reflexivity|]. cbn. apply Hsame.
        * apply kid_sim; [apply Hsp|apply Hsame].
    - cbn [fst snd]. split; [exists p, p'; auto|]. unfold self_sim. auto.
  Qed.
  Lemma note_arb_sim g g' sf sf' : g_sim g g' -> self_sim sf sf' -> g_sim (fst (note_arbitrary g sf)) (fst (note_arbitrary g' sf')) /\ self_sim (snd (note_arbitrary g sf)) (snd (note_arbitrary g' sf')).
  Proof using.
    intros (p & p' & P & E & E') (L & K & M & R). unfold note_arbitrary. rewrite E, E'. cbn [g_prev g_cur g_keys g_comps g_mid g_kidx g_empty g_fail g_base g_target].
    assert (D : (match p with Some _ => true | None => false end || (g_cur g =? 0))%bool = (match p' with Some _ => true | None => false end || (g_cur g =? 0))%bool) by (destruct p, p'; cbn in P; try contradiction; reflexivity).
    rewrite <- D. destruct (_ || _)%bool; cbn [fst snd].
    - split; [apply g_mk; exact I|]. unfold self_sim. cbn [s_log s_kid s_mix s_replay]. rewrite <- R. split; [|auto]. destruct (s_replay sf); [exact L|]. apply Forall2_app; [exact L|]. constructor; [|constructor]. split; reflexivity.
    - split; [apply g_mk; exact P|]. unfold self_sim. auto.
  Qed.
  Lemma gen_loop_sim : forall fuel g g' sf sf', g_sim g g' -> self_sim sf sf' -> step_sim (gen_loop fuel idx h g sf) (gen_loop fuel idx h' g' sf').
  Proof using Hsp Hsame.
    induction fuel as [|fuel IH]; intros g g' sf sf' G S; [repeat split; cbn; auto; apply S|]. cbn [gen_loop].
    assert (EF : g_fail g' = g_fail g) by (destruct G as (? & ? & _ & _ & ->); reflexivity). assert (EB : g_base g' = g_base g) by (destruct G as (? & ? & _ & _ & ->); reflexivity).
    rewrite EF, EB. destruct (10 <? g_fail g); [split; [exact I|split; [exact S|exact I]]|]. cbv zeta.
    destruct (Hsame (g_base g)) as (HR & HS & HC). assert (NM := note_sim g g' sf sf' (g_base g) G S). assert (NA := note_arb_sim g g' sf sf' G S). assert (OS := Hsp (g_base g)).
    set (m := h (g_base g)) in *. set (m' := h' (g_base g)) in *. rewrite <- HS, <- HC.
    destruct (m_rows m) as [|kv rows] eqn:Q, (m_rows m') as [|kv' rows'] eqn:Q'; [|destruct HR as [_ P]; apply Permutation_nil in P; discriminate|destruct HR as [_ P]; apply Permutation_sym, Permutation_nil in P; discriminate|].
    - destruct (note_arbitrary g sf) as [g1 sf1], (note_arbitrary g' sf') as [g1' sf1']. cbn [fst snd] in NA. destruct NA as [(p & p' & P & E & E') S1]. rewrite E, E'. cbn [g_keys g_comps g_kidx g_empty g_cur g_mid g_prev g_fail g_base g_target].
      assert (K := proj1 (proj2 S1)). rewrite <- K.
      destruct (round_robin _ _ _ _ _ _) as [[[c' x'] e'] [key q| |e]]; [|split; [exact I|split; [exact S1|exact I]]|split; [exact I|split; [exact S1|reflexivity]]].
      destruct (g_cur g1 =? g_target g1); [|apply IH; [apply g_mk, P|exact S1]].
      destruct (keys_known _ _); [|split; [exact I|split; [exact S1|reflexivity]]]. split; [apply g_mk, P|split; [exact S1|]]. cbn. unfold same_chunk. cbn. auto 10.
    - destruct (note_mixture idx h g sf m) as [g1 sf1], (note_mixture idx h' g' sf' m') as [g1' sf1']. cbn [fst snd] in NM. destruct NM as [(p & p' & P & E & E') S1]. rewrite E, E'. cbn [g_keys g_comps g_kidx g_empty g_cur g_mid g_prev g_fail g_base g_target].
      assert (K := proj1 (proj2 S1)). rewrite <- K.
      assert (RA := run_attempt_sim (m_strict m) (g_comps g1) (kv :: rows) (kv' :: rows') (one_spelling_incl _ _ (incl_appl _ (incl_refl _)) OS) HR).
      destruct (run_attempt _ _ (kv :: rows)) as [a|e], (run_attempt _ _ (kv' :: rows')) as [a'|e']; cbn [res_sim] in RA; try contradiction; [|split; [exact I|split; [exact S1|exact RA]]].
      rewrite <- (att_success_sim _ _ RA). destruct RA as (A1 & A2 & A3 & A4 & A5). rewrite <- A1, <- A2. destruct (att_success a); [|split; [apply g_mk, P|split; [exact S1|exact I]]].
      destruct (g_cur g1 =? g_target g1); [|apply IH; [apply g_mk, P|exact S1]].
      destruct (keys_known _ _); [|split; [exact I|split; [exact S1|reflexivity]]]. split; [apply g_mk, P|split; [exact S1|]]. cbn. unfold same_chunk. cbn. auto 10.
  Qed.
End Gen.
(** ** Runs *)
Definition qr_sim (q q' : qr) : Prop :=
  q_idx q = q_idx q' /\ q_order q = q_order q' /\ self_sim (q_self q) (q_self q') /\ q_count q = q_count q' /\
  match q_gen q, q_gen q' with Some x, Some x' => gen_sim x x' | None, None => True | _, _ => False end /\ q_nret q = q_nret q' /\ q_son q = q_son q'.
Lemma next_sim fuel h h' q q' : spelled h (q_idx q) -> (forall r, same_mixture (h r) (h' r)) -> qr_sim q q' ->
  qr_sim (fst (qr_next fuel h q)) (fst (qr_next fuel h' q')) /\ same_outcome (snd (qr_next fuel h q)) (snd (qr_next fuel h' q')).
Proof.
  intros Hsp Hs (Q1 & Q2 & Q3 & Q4 & Q5 & Q6 & Q7). unfold qr_next. cbv zeta. rewrite <- Q1, <- Q2, <- Q4, <- Q6, <- Q7.
  assert (M := proj1 (proj2 (proj2 Q3))). rewrite <- M.
  set (gn := match q_gen q with Some g => g | None => _ end). set (gn' := match q_gen q' with Some g => g | None => _ end).
  assert (GS : gen_sim gn gn') by (unfold gn, gn'; destruct (q_gen q), (q_gen q'); try contradiction; [exact Q5|apply g_mk; exact I]).
  assert (EN : match q_gen q with None => true | Some _ => false end = match q_gen q' with None => true | Some _ => false end) by (destruct (q_gen q), (q_gen q'); try contradiction; reflexivity). rewrite <- EN.
  destruct (_ && _)%bool; [cbn; split; [unfold qr_sim; cbn; auto 10|constructor]|].
  assert (X : step_sim (gen_send fuel (q_idx q) h gn (q_self q) (s_mix (q_self q)) (q_count q)) (gen_send fuel (q_idx q) h' gn' (q_self q') (s_mix (q_self q)) (q_count q))).
  { unfold gen_send. destruct gn, gn'; cbn [gen_sim] in GS; try contradiction.
    - apply gen_loop_sim; [exact Hsp|exact Hs| |exact Q3]. destruct GS as (p & p' & P & E & E'). rewrite E, E'. cbn. apply g_mk, P.
    - apply gen_loop_sim; [exact Hsp|exact Hs|exact GS|exact Q3].
    - split; [exact I|split; [exact Q3|exact I]]. }
  destruct (gen_send _ _ h _ _ _ _) as [[gn1 sf1] o1], (gen_send _ _ h' _ _ _ _) as [[gn2 sf2] o2]. destruct X as (X1 & X2 & X3). cbn [fst snd] in *.
  destruct o1, o2; cbn [out_sim] in X3; try contradiction; cbn [fst snd]; (split; [unfold qr_sim; cbn [q_idx q_order q_self q_count q_gen q_nret q_son]; auto 10|]); try constructor; try exact X3.
  - destruct (q_son q); constructor.
  - subst e0. constructor.
Qed.
Lemma runs_sim fuel ops ops' idx : Forall2 same_call ops ops' -> Forall (fun o => spelled (op_heap o) idx) ops -> forall q q', q_idx q = idx -> qr_sim q q' ->
  Forall2 same_outcome (snd (qrun fuel ops q)) (snd (qrun fuel ops' q')).
Proof.
  induction 1 as [|o o' ops ops' C F IH]; intros Hsp q q' Eq S; [constructor|]. apply Forall_inv in Hsp as H1. apply Forall_inv_tail in Hsp. destruct C as [h h' Hh|h h' r Hh]; cbn [qrun op_heap] in *.
  - assert (N := next_sim fuel h h' q q' ltac:(rewrite Eq; exact H1) Hh S). assert (I : q_idx (fst (qr_next fuel h q)) = idx).
    { unfold qr_next. cbv zeta. match goal with |- context [if ?b then _ else _] => destruct b end; [exact Eq|]. destruct (gen_send _ _ _ _ _ _ _) as [[? ?] [?| | |?]]; exact Eq. }
    destruct (qr_next fuel h q) as [q1 o1], (qr_next fuel h' q') as [q1' o1']. cbn [fst snd] in *. specialize (IH Hsp q1 q1' I (proj1 N)).
    destruct (qrun fuel ops q1), (qrun fuel ops' q1'). cbn [snd] in *. constructor; [apply N|exact IH].
  - apply IH; [exact Hsp|exact Eq|]. destruct S as (Q1 & Q2 & (L & K & M & R) & Q4 & Q5 & Q6 & Q7). unfold qr_sim, qr_update_mixture. cbn. rewrite <- Q1, <- K, <- R. split; [reflexivity|]. split; [exact Q2|]. split; [|auto].
    unfold self_sim. cbn. split; [exact L|]. split; [|auto]. rewrite Eq. apply kid_sim; [apply H1|apply Hh].
Qed.
