(** DynamicMixture over whole histories. *)
From Verif Require Import Base MixtureKeyModel MixtureKeyProofs UtilsModel UtilsProofs ChunkGenModel MixtureModel MixtureProofs PropertiesMixture DynModel SpecDyn DynProofs DynProofs2 DynProofs3 DynProofs4 DynProofs5.
From Coq Require Import QArith Qpower Qabs Qminmax Lqa Permutation.
Open Scope Z_scope.

Section Dyn.
  Variables (fl : Q -> Q) (nsum : list Q -> Q).
  Variable u : Q.
  Variables c n : Z.
  Hypothesis Hr : rounds fl u.
  Hypothesis Hen : enough u c n.
  Hypothesis Hc : 0 <= c.
  Hypothesis Hs : forall l, nonneg l -> (0 <= nsum l)%Q /\ ((0 < nsum l)%Q <-> some_pos l).
  Let Hu1 : (u <= 1 # 2)%Q := proj2 (enough_half u c n Hen).
  Context {A : Type}.
  Variable process : list Q -> list Z -> Z -> A -> A * (option (list Q) + exn).
  Variable inform : list Q -> A -> A.
  Definition devent_step (e : devent mkey) (d : dyn A) : dyn A * option exn :=
    match e with
    | Ids m => process_id_map fl nsum inform m d
    | Feedback f => dyn_losses fl nsum process (fb_losses f) (fb_counts f) (fb_mixture f) d
    end.
  Fixpoint dyn_run (l : list (devent mkey)) (d : dyn A) : dyn A := match l with [] => d | e :: l' => dyn_run l' (fst (devent_step e d)) end.
  Lemma dyn_run_snoc l e d : dyn_run (l ++ [e]) d = fst (devent_step e (dyn_run l d)).
  Proof. revert d. induction l as [|x l IH]; intros d; cbn [app dyn_run]; [reflexivity|apply IH]. Qed.

  (** The algorithm before and after it has been told the initial mixture. *)
  Variable start : A -> Prop.
  Variable going : A -> Prop.
  Hypothesis inform_ok : forall m a, start a -> nonneg m -> some_pos m -> going (inform m a).
  Hypothesis process_going : forall f a, devent_ok (K:=mkey) n (Feedback f) -> going a -> going (fst (process (fb_losses f) (fb_counts f) (fb_mixture f) a)).
  Hypothesis process_result : forall f a mix, devent_ok (K:=mkey) n (Feedback f) -> going a -> snd (process (fb_losses f) (fb_counts f) (fb_mixture f) a) = inl (Some mix) ->
    near_distribution mix /\ Z.of_nat (length mix) <= n.

  Definition dinv (d : dyn A) : Prop :=
    dy_size d = c /\ zsum (map snd (dy_rows d)) = c /\ Forall (fun kv => 0 <= snd kv) (dy_rows d) /\ NoDup (map snd (dy_ids d))
    /\ (if dy_informed d then going (dy_alg d) else start (dy_alg d)).

  Lemma set_nth_nonneg i x l : (0 <= x)%Q -> nonneg l -> nonneg (set_nth i x l).
  Proof. intros Hx H. unfold nonneg in *. revert i. induction H as [|y l Hy H IH]; intros [|i]; cbn; constructor; auto. Qed.
  Lemma initial_ok key_id rows m : Forall (fun kv => 0 <= snd kv) rows -> initial_array fl nsum key_id rows = Ok m -> nonneg m /\ some_pos m.
  Proof.
    intros Hrow. unfold initial_array. destruct key_id as [|kk key_id]; [discriminate|]. set (ki := kk :: key_id). set (top := fold_left _ (map snd ki) 0). clearbody top.
    set (F := fun r kv => _). assert (HF : forall rs l0, Forall (fun kv => 0 <= snd kv) rs -> nonneg l0 -> match fold_left F rs (Ok l0) with Ok l => nonneg l | Err _ => True end).
    { induction rs as [|[k v] rs IH]; intros l0 Hrs Hl0; [exact Hl0|]. inversion Hrs as [|? ? Hv Hrs']; subst. cbn [fold_left]. unfold F at 2. cbn [fst snd] in *. destruct (aget mkey_eqb k ki) as [i|].
      - apply IH; [exact Hrs'|]. apply set_nth_nonneg; [|exact Hl0]. apply (fl_pos fl u Hu1 Hr). change 0%Q with (inject_Z 0). rewrite <- Zle_Qle. exact Hv.
      - assert (E : forall rs' e, fold_left F rs' (Err e) = Err e) by (clear; induction rs'; intros; cbn; auto). rewrite E. exact I. }
    specialize (HF rows (repeat 0%Q (Z.to_nat top + 1)) Hrow). destruct (fold_left F rows _) as [l|] eqn:El; [|discriminate].
    assert (Hl : nonneg l). { apply HF. unfold nonneg. rewrite Forall_forall. intros x Hx. apply repeat_spec in Hx. subst. lra. }
    unfold normalise. destruct (Qeq_bool (nsum l) 0) eqn:Ez; [discriminate|]. destruct (np_isclose _ _); [|discriminate]. intros [= <-].
    destruct (Hs l Hl) as [S0 S1].
    assert (Hp : (0 < nsum l)%Q). { destruct (Qlt_le_dec 0 (nsum l)); [assumption|]. exfalso. assert (Qeq_bool (nsum l) 0 = true) by (apply Qeq_bool_iff; lra). congruence. }
    split; [apply (nonneg_scale fl u Hu1 Hr); assumption|apply (some_pos_scale fl u Hu1 Hr); [apply S1, Hp|exact Hp]].
  Qed.

  Lemma dyn_step_inv e d : devent_ok n e -> dinv d -> dinv (fst (devent_step e d)).
  Proof.
    intros He (D1 & D2 & D3 & D4 & D5). destruct e as [key_id|f]; cbn [devent_step].
    - destruct He as [H1 H2]. unfold process_id_map. cbn [dy_size dy_rows dy_alg dy_informed dy_keys dy_ids]. assert (Hnd : NoDup (map snd (map (fun kv : mkey * Z => (snd kv, fst kv)) key_id))) by (rewrite map_map; cbn [snd]; exact H1).
      destruct (dy_informed d) eqn:Ei; [unfold dinv; cbn; rewrite ?Ei; auto|]. destruct (initial_array fl nsum key_id (dy_rows d)) as [m|e] eqn:Em; [|unfold dinv; cbn; rewrite ?Ei; auto].
      destruct (initial_ok _ _ _ D3 Em). unfold dinv. cbn. auto 10.
    - unfold dyn_losses. destruct (_ || _)%bool eqn:Eg; [unfold dinv; cbn; auto|].
      assert (Ei : dy_informed d = true). { apply orb_false_iff in Eg as [Eg _]. destruct (dy_keys d); [apply negb_false_iff, Eg|discriminate]. }
      rewrite Ei in D5. pose proof (process_going f _ He D5) as G. pose proof (fun mix => process_result f _ mix He D5) as R. destruct (process _ _ _ (dy_alg d)) as [a r]. cbn [fst snd] in *.
      set (d1 := mkDyn A _ _ a _ _ _). assert (Hd1 : dinv d1) by (unfold dinv, d1; cbn; rewrite Ei; auto).
      destruct r as [[mix|]|e]; try exact Hd1. destruct (np_isclose (nsum mix) 1); cbn [negb]; [|exact Hd1]. destruct (R mix eq_refl) as [R1 R2].
      destruct (weight_map (dy_ids d1) 0 mix []) as [w|] eqn:Ew; [|exact Hd1].
      destruct (install_ok fl u Hr (dy_size d1) n (dy_ids d1) mix w) as (rows & Er & Z1 & Z2 & _); try assumption; [unfold d1; cbn; lia|unfold d1; cbn; rewrite D1; exact Hen|]. rewrite Er. cbn [fst]. unfold dinv, d1 in *. cbn in *. rewrite Ei. rewrite D1 in *. auto.
  Qed.
  Lemma dyn_run_inv l d : Forall (devent_ok n) l -> dinv d -> dinv (dyn_run l d).
  Proof. revert d. induction l as [|e l IH]; intros d Hl H; [exact H|]. inversion Hl; subst. cbn [dyn_run]. apply IH; [assumption|]. apply dyn_step_inv; assumption. Qed.

  (** Feedback to an informed mixture whose ids cover the reported keys. *)
  Lemma weight_map_total ids mix i acc : (forall j, i <= j < i + Z.of_nat (length mix) -> exists k, Zget j ids = Some k) -> exists w, weight_map ids i mix acc = Ok w.
  Proof.
    revert i acc. induction mix as [|v mix IH]; intros i acc H; cbn [weight_map]; [eauto|]. cbn [length] in H. destruct (qpos v); [destruct (H i) as [k ->]; [lia|]|]; apply IH; intros j Hj; apply H; lia.
  Qed.
  Lemma feedback_accepted f d x : devent_ok (K:=mkey) n (Feedback f) -> dinv d -> dy_informed d = true -> dy_keys d <> None -> 0 <= fb_mixture f ->
    (forall mix, near_distribution mix -> Z.of_nat (length mix) <= n -> x = Some mix -> np_isclose (nsum mix) 1 = true) ->
    snd (process (fb_losses f) (fb_counts f) (fb_mixture f) (dy_alg d)) = inl x ->
    (forall mix, x = Some mix -> forall j, 0 <= j < Z.of_nat (length mix) -> exists k, Zget j (dy_ids d) = Some k) ->
    snd (dyn_losses fl nsum process (fb_losses f) (fb_counts f) (fb_mixture f) d) = None.
  Proof.
    intros He (D1 & D2 & D3 & D4 & D5) Ei Ek Hm Hnp Hx Hids. unfold dyn_losses. rewrite Ei. destruct (dy_keys d); [|congruence]. cbn [negb orb]. replace (fb_mixture f <? 0) with false by (symmetry; apply Z.ltb_ge; exact Hm).
    rewrite Ei in D5. pose proof (fun mix => process_result f _ mix He D5) as R. destruct (process _ _ _ (dy_alg d)) as [a r]. cbn [fst snd] in *. subst r. destruct x as [mix|]; [|reflexivity].
    destruct (R mix eq_refl) as [R1 R2]. rewrite (Hnp mix R1 R2 eq_refl). cbn [negb dy_ids]. destruct (weight_map_total (dy_ids d) mix 0 []) as [w Ew]; [intros j Hj; apply (Hids mix eq_refl); lia|]. rewrite Ew.
    destruct (install_ok fl u Hr (dy_size d) n (dy_ids d) mix w) as (rows & Er & _); try assumption; [lia|rewrite D1; exact Hen|]. cbn [dy_size]. rewrite Er. reflexivity.
  Qed.

  Lemma weight_map_ids ids mix i acc w : weight_map ids i mix acc = Ok w -> forall j v, nth_error mix j = Some v -> qpos v = true -> exists k, Zget (i + Z.of_nat j) ids = Some k.
  Proof.
    revert i acc. induction mix as [|x mix IH]; intros i acc H j v Ej Hq; [destruct j; discriminate|]. cbn [weight_map] in H. destruct j as [|j]; cbn in Ej.
    - injection Ej as ->. rewrite Hq in H. rewrite Z.add_0_r. destruct (Zget i ids); [eauto|discriminate].
    - replace (i + Z.of_nat (S j)) with (i + 1 + Z.of_nat j) by lia. destruct (qpos x); [destruct (Zget i ids); [|discriminate]|]; eapply IH; eassumption.
  Qed.

  (** The rows after an accepted message are those of the mixture the algorithm returned. *)
  Lemma feedback_installed f d mix : devent_ok (K:=mkey) n (Feedback f) -> dinv d ->
    snd (process (fb_losses f) (fb_counts f) (fb_mixture f) (dy_alg d)) = inl (Some mix) ->
    snd (devent_step (Feedback f) d) = None ->
    let rows := dy_rows (fst (devent_step (Feedback f) d)) in
    (forall k r, In (k, r) rows -> exists j v, nth_error mix j = Some v /\ (0 < v)%Q /\ Zget (Z.of_nat j) (dy_ids d) = Some k /\ (Qabs (inject_Z r - inject_Z c * v / qsum mix) <= 2)%Q)
    /\ (forall j v, nth_error mix j = Some v -> (0 < v)%Q -> exists k r, Zget (Z.of_nat j) (dy_ids d) = Some k /\ In (k, r) rows).
  Proof.
    intros He (D1 & D2 & D3 & D4 & D5) Hp Ho. cbn [devent_step] in *. unfold dyn_losses in *. destruct (_ || _)%bool eqn:Eg; [discriminate Ho|].
    assert (Ei : dy_informed d = true). { apply orb_false_iff in Eg as [Eg _]. destruct (dy_keys d); [apply negb_false_iff, Eg|discriminate]. }
    rewrite Ei in D5. pose proof (fun mix => process_result f _ mix He D5) as R. destruct (process _ _ _ (dy_alg d)) as [a r0]. cbn [fst snd] in *. subst r0.
    destruct (np_isclose (nsum mix) 1); cbn [negb] in *; [|discriminate]. destruct (R mix eq_refl) as [R1 R2]. cbn [dy_ids dy_size] in *.
    destruct (weight_map (dy_ids d) 0 mix []) as [w|] eqn:Ew; [|discriminate].
    destruct (install_ok fl u Hr (dy_size d) n (dy_ids d) mix w) as (rows & Er & _ & _ & Kr & Near); try assumption; [lia|rewrite D1; exact Hen|]. rewrite Er. cbn [fst dy_rows].
    assert (W := weight_map_in (dy_ids d) mix D4 0 [] w ltac:(intros; cbn; auto) Ew). rewrite D1 in Near. split.
    - intros k r Hin. apply In_nth_error in Hin as (i & Hi). assert (Hi' : exists v, nth_error w i = Some (k, v)).
      { pose proof (map_nth_error fst _ _ Hi) as M. rewrite Kr in M. destruct (nth_error w i) as [[k' v]|] eqn:E'; [|apply nth_error_None in E'; rewrite <- (map_length fst) in E'; apply nth_error_None in E'; congruence].
        rewrite (map_nth_error fst _ _ E') in M. cbn in M. injection M as ->. eauto. }
      destruct Hi' as [v Ev]. destruct (Near i k v Ev) as (r' & Er' & Hq). rewrite Hi in Er'. injection Er' as <-. apply nth_error_In, W in Ev as [[]|(j & E1 & E2 & E3)].
      exists j, v. split; [exact E1|]. split; [apply qpos_true, E2|]. split; [exact E3|exact Hq].
    - intros j v Ej Hv. assert (Hq : qpos v = true) by (apply qpos_true, Hv).
      destruct (weight_map_ids _ _ _ _ _ Ew j v Ej Hq) as [k Ek]. rewrite Z.add_0_l in Ek.
      assert (Hin : In (k, v) w) by (apply W; right; exists j; auto). apply In_nth_error in Hin as [i Hi]. destruct (Near i k v Hi) as (r & Er' & _). exists k, r. split; [exact Ek|]. eapply nth_error_In, Er'.
  Qed.
End Dyn.
