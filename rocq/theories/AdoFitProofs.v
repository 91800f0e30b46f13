(** Proofs about the data ADO fits scaling laws to (C89). *)
From Verif Require Import Base MixtureKeyModel UtilsModel UtilsProofs ChunkGenModel MixtureModel MixtureProofs DynModel SpecDyn DynProofs DynProofs2 DynProofs3
  AdoFitModel SpecAdoFit PropertiesDyn2.
From Coq Require Import QArith.
Open Scope Z_scope.

(** ** Lists *)
Lemma map_nth_seq {A} (z : A) l : map (fun k => nth k l z) (seq 0 (length l)) = l.
Proof. induction l as [|x l IH]; [reflexivity|]. cbn [length seq map nth]. f_equal. rewrite <- seq_shift, map_map. exact IH. Qed.
Lemma map_const_repeat {A B} (z : B) (l : list A) : map (fun _ => z) l = repeat z (length l).
Proof. induction l; cbn; congruence. Qed.
Lemma grow_map {A} (z : A) (f : nat -> A) n m : (n <= m)%nat -> (forall k, (n <= k)%nat -> f k = z) ->
  grow z (m - n) (map f (seq 0 n)) = map f (seq 0 m).
Proof.
  intros Hnm Hz. unfold grow. replace m with (n + (m - n))%nat at 2 by lia. rewrite seq_app, map_app. f_equal. cbn [Nat.add].
  rewrite (map_ext_in _ (fun _ => z)); [rewrite map_const_repeat, seq_length; reflexivity|]. intros k Hk. apply in_seq in Hk. apply Hz. lia.
Qed.
Lemma cumsum_from c l : cumsum c l = map (fun i => c + zsum (firstn (S i) l)) (seq 0 (length l)).
Proof.
  revert c. induction l as [|x l IH]; intros c; [reflexivity|]. cbn [cumsum length seq map]. f_equal; [cbn [firstn]; rewrite zsum_cons; change (zsum []) with 0; lia|].
  rewrite IH, <- seq_shift, map_map. apply map_ext. intros i. change (firstn (S (S i)) (x :: l)) with (x :: firstn (S i) l). rewrite zsum_cons. lia.
Qed.
Lemma flat_map_map' {A B C} (f : B -> list C) (g : A -> B) l : flat_map f (map g l) = flat_map (fun x => f (g x)) l.
Proof. induction l; cbn; congruence. Qed.
Lemma every_nth {A} n (l : list A) : (1 <= n)%nat -> forall i, every_from n i l = flat_map (fun j => match nth_error l (i + j * n) with Some x => [x] | None => [] end) (seq 0 (length l)).
Proof.
  intros Hn. assert (H : forall m (l : list A), (length l <= m)%nat -> forall i, every_from n i l = flat_map (fun j => match nth_error l (i + j * n) with Some x => [x] | None => [] end) (seq 0 m)).
  { induction m as [|m IH]; intros l0 Hl i.
    - destruct l0; [reflexivity|cbn in Hl; lia].
    - destruct l0 as [|x l0].
      + cbn [every_from]. symmetry. clear. induction (seq 0 (S m)) as [|j js IH]; [reflexivity|]. cbn [flat_map]. rewrite IH. destruct (i + j * n)%nat; reflexivity.
      + cbn [length] in Hl. destruct i as [|i]; cbn [every_from].
        * rewrite IH by lia. cbn [seq flat_map Nat.add Nat.mul nth_error]. cbn [app]. f_equal. rewrite <- seq_shift, flat_map_map'.
          apply flat_map_ext. intros j. replace (S j * n)%nat with (S (n - 1 + j * n)) by lia. reflexivity.
        * rewrite IH by lia. replace (S m) with (m + 1)%nat by lia. rewrite seq_app, flat_map_app. cbn [seq flat_map].
          assert (E : nth_error (x :: l0) (S i + (0 + m) * n) = None) by (apply nth_error_None; cbn [length]; nia). rewrite E, !app_nil_r.
          apply flat_map_ext. intros j. reflexivity. }
  apply H. lia.
Qed.
Lemma every_thinned {A} n (l : list A) : (if 1 <? n then every_from (Z.to_nat n) 0 l else l) = thinned n l.
Proof. unfold thinned. destruct (1 <? n) eqn:E; [|reflexivity]. apply every_nth. lia. Qed.
Lemma combine_map2 {A B C} (f : A -> B) (g : A -> C) l : combine (map f l) (map g l) = map (fun x => (f x, g x)) l.
Proof. induction l; cbn; congruence. Qed.
Lemma filter_map' {A B} (f : A -> B) p l : filter p (map f l) = map f (filter (fun x => p (f x)) l).
Proof. induction l as [|x l IH]; [reflexivity|]. cbn. destruct (p (f x)); cbn; congruence. Qed.
Lemma thinned_map {A B} (f : A -> B) n l : thinned n (map f l) = map f (thinned n l).
Proof.
  unfold thinned. destruct (1 <? n); [|reflexivity]. rewrite map_length, !flat_map_concat_map, concat_map, map_map. f_equal. apply map_ext. intros i.
  rewrite nth_error_map. destruct (nth_error l _); reflexivity.
Qed.

(** ** The messages *)
Lemma msg_app l f i : (i < length l)%nat -> msg (l ++ [f]) i = msg l i.
Proof. intros H. unfold msg. apply app_nth1, H. Qed.
Lemma msg_last l f : msg (l ++ [f]) (length l) = f.
Proof. unfold msg. rewrite app_nth2 by lia. rewrite Nat.sub_diag. reflexivity. Qed.
Lemma nth_widest l i : (length (fb_losses (msg l i)) <= widest l)%nat.
Proof.
  unfold msg. revert i. induction l as [|f l IH]; intros [|i]; cbn [nth]; [cbn; lia|cbn; lia| |].
  - cbn [widest fold_right]. lia.
  - cbn [widest fold_right]. specialize (IH i). unfold widest in IH. lia.
Qed.
Lemma msg_wf l i : Forall well_formed l -> well_formed (msg l i).
Proof. intros H. unfold msg. destruct (nth_in_or_default i l no_msg) as [Hin| ->]; [eapply Forall_forall; eassumption|reflexivity]. Qed.
Lemma counts_over l k : Forall well_formed l -> (widest l <= k)%nat -> counts_of k l = [].
Proof.
  induction 1 as [|f l Hf _ IH]; [reflexivity|]. cbn [widest fold_right]. intros Hk. change (counts_of k (f :: l)) with ((match nth_error (fb_counts f) k with Some x => [x] | None => [] end) ++ counts_of k l).
  unfold well_formed in Hf. rewrite IH by (unfold widest; lia). rewrite (proj2 (nth_error_None (fb_counts f) k)) by lia. reflexivity.
Qed.
Lemma counts_nonneg l k : Forall (fun f => Forall (fun c => 0 <= c) (fb_counts f)) l -> 0 <= zsum (counts_of k l).
Proof.
  intros H. apply zsum_nonneg. unfold counts_of. apply Forall_forall. intros x Hx. apply in_flat_map in Hx as (f & Hf & Hx). rewrite Forall_forall in H. specialize (H f Hf).
  destruct (nth_error (fb_counts f) k) as [y|] eqn:E; [|destruct Hx]. destruct Hx as [<-|[]]. rewrite Forall_forall in H. apply H. eapply nth_error_In, E.
Qed.
Lemma widest_firstn l n : (widest (firstn n l) <= widest l)%nat.
Proof. revert n. induction l as [|f l IH]; intros [|n]; cbn [firstn widest fold_right]; try lia. specialize (IH n). unfold widest in IH. lia. Qed.
Lemma firstn_snoc_lt {A} (l : list A) x i : (i <= length l)%nat -> firstn i (l ++ [x]) = firstn i l.
Proof. intros H. rewrite firstn_app. replace (i - length l)%nat with 0%nat by lia. cbn [firstn]. apply app_nil_r. Qed.

Lemma Forall_firstn' {A} (Q : A -> Prop) n l : Forall Q l -> Forall Q (firstn n l).
Proof. revert n. induction l as [|x l IH]; intros [|n] H; cbn [firstn]; auto. inversion H; subst. constructor; auto. Qed.
Section Spec.
  Variables (fl : Q -> Q) (same : bool).
  Lemma tokens_app l f i k : (i < length l)%nat -> tokens same (l ++ [f]) i k = tokens same l i k.
  Proof. intros H. unfold tokens. rewrite firstn_snoc_lt by lia. rewrite msg_app by exact H. reflexivity. Qed.
  Lemma tokens_over l i k : Forall well_formed l -> (widest l <= k)%nat -> tokens same l i k = 0.
  Proof.
    intros Hw Hk. unfold tokens. rewrite counts_over; [|apply Forall_firstn'; exact Hw|pose proof (widest_firstn l (S i)); lia]. cbn [zsum fold_left fold_right].
    destruct same; [reflexivity|]. apply nth_overflow. pose proof (nth_widest l i). pose proof (msg_wf l i Hw) as W. unfold well_formed in W. lia.
  Qed.
  Lemma step_loss_app l f i k : (i < length l)%nat -> step_loss fl (l ++ [f]) i k = step_loss fl l i k.
  Proof. intros H. unfold step_loss. rewrite msg_app by exact H. reflexivity. Qed.
  Lemma step_loss_over l i k : Forall well_formed l -> (widest l <= k)%nat -> step_loss fl l i k = 0%Q.
  Proof.
    intros Hw Hk. unfold step_loss. rewrite (nth_overflow (fb_counts (msg l i))); [reflexivity|].
    pose proof (nth_widest l i). pose proof (msg_wf l i Hw) as W. unfold well_formed in W. lia.
  Qed.
  Lemma last_loss_step l i k : same = false -> last_loss fl same l i k = step_loss fl l i k.
  Proof. intros ->. destruct i; reflexivity. Qed.
  Lemma impute_spec l k : same = true ->
    impute (map (fun i => step_loss fl l i k) (seq 0 (length l))) = map (fun i => last_loss fl same l i k) (seq 0 (length l)).
  Proof.
    intros ->. assert (H : forall n a, impute_after (last_loss fl true l a k) (map (fun i => step_loss fl l i k) (seq (S a) n)) = map (fun i => last_loss fl true l i k) (seq (S a) n)).
    { induction n as [|n IH]; intros a; [reflexivity|]. cbn [seq map impute_after].
      change (if Qeq_bool (step_loss fl l (S a) k) 0 then last_loss fl true l a k else step_loss fl l (S a) k) with (last_loss fl true l (S a) k). cbv zeta. f_equal. apply IH. }
    destruct (length l) as [|n]; [reflexivity|]. cbn [seq map impute]. f_equal. exact (H n 0%nat).
  Qed.
End Spec.

(** ** The histories ADO keeps *)
Section Kept.
  Variables (fl : Q -> Q) (nsum : list Q -> Q).
  Variable cfg : config.
  Variable P : Type.
  Variable p_zero : P.
  Variable fit1 : list (list Z) -> list (list Q) -> Z -> nat -> res P.
  Variable deriv : P -> Q -> Q.
  Variable pow_s : Q -> Q.
  Notation ado_process := (ado_process fl nsum cfg P p_zero fit1 deriv pow_s).
  Notation ado_calc := (ado_calc fl nsum cfg P p_zero fit1 deriv pow_s).
  Notation ado_update := (ado_update fl cfg P).
  Notation same := (c_same_step cfg).

  Definition kept (l : list fb) (o : ado P) : Prop :=
    o_psc P o = map (fun i => map (fun k => tokens same l i k) (seq 0 (widest l))) (seq 0 (length l))
    /\ o_psl P o = map (fun i => map (fun k => step_loss fl l i k) (seq 0 (widest l))) (seq 0 (length l)).

  Lemma steady_growth_app l f : steady_growth same (l ++ [f]) -> steady_growth same l /\ (widest l <= length (fb_losses f))%nat.
  Proof.
    intros [H1 H2]. split; [split|].
    - intros l1 g l2 ->. apply (H1 l1 g (l2 ++ [f])). rewrite <- app_assoc. reflexivity.
    - intros Hs. destruct (H2 Hs) as [H3 H4]. apply Forall_app in H3 as [H3 _]. split; [exact H3|]. destruct l; [exact I|exact H4].
    - apply (H1 l f []). reflexivity.
  Qed.
  Lemma some_counted l a : same = true -> l <> [] -> Forall well_formed l -> steady_growth same l -> accumulated fl l a ->
    existsb (fun c => 0 <? c) (a_counts a) = true.
  Proof.
    intros Hs Hne Hw [_ Hg] (_ & L2 & _ & L4). destruct (Hg Hs) as [Hn He]. destruct l as [|f l]; [congruence|].
    apply Exists_exists in He as (c & Hin & Hc). apply In_nth_error in Hin as (k & Hk). apply existsb_exists. exists (nth k (a_counts a) 0).
    assert (Hkl : (k < length (fb_counts f))%nat) by (apply nth_error_Some; congruence).
    inversion Hw as [|? ? W _]; subst. unfold well_formed in W. split.
    - apply nth_In. rewrite L2. cbn [widest fold_right]. lia.
    - rewrite L4. change (counts_of k (f :: l)) with ((match nth_error (fb_counts f) k with Some x => [x] | None => [] end) ++ counts_of k l). rewrite Hk, zsum_app.
      inversion Hn as [|? ? _ Hn']; subst. assert (H : 0 <= zsum (counts_of k l)) by (apply counts_nonneg; exact Hn'). rewrite zsum_cons. change (zsum []) with 0. apply Z.ltb_lt. lia.
  Qed.

  Lemma kept_update l f o : Forall well_formed (l ++ [f]) -> steady_growth same (l ++ [f]) -> kept l o -> accumulated fl l (o_acc P o) ->
    exists o', ado_update (fb_losses f) (fb_counts f) o = (o', None) /\ kept (l ++ [f]) o' /\ accumulated fl (l ++ [f]) (o_acc P o')
      /\ o_steps P o' = o_steps P o /\ o_params P o' = o_params P o.
  Proof.
    intros Hwf Hg [K1 K2] Ha. pose proof Hwf as Hwf'. apply Forall_app in Hwf' as [Hwl Hw]. inversion Hw as [|? ? W _]; subst. unfold well_formed in W.
    destruct (steady_growth_app l f Hg) as [Hgl Hle].
    destruct (accumulated_snoc fl l f (o_acc P o) ltac:(exact W) Ha) as (a & Ea & Hacc).
    assert (Hwid : widest (l ++ [f]) = length (fb_losses f)) by (rewrite widest_snoc; lia).
    unfold DynModel.ado_update. rewrite Ea. cbv zeta.
    change (o_psc P (set_h P _ _ _)) with (o_psc P o). change (o_psl P (set_h P _ _ _)) with (o_psl P o).
    set (n := length (fb_losses f)) in *.
    assert (Ec : map (fun c => grow 0 (n - length c) c) (o_psc P o) = map (fun i => map (fun k => tokens same (l ++ [f]) i k) (seq 0 n)) (seq 0 (length l))).
    { rewrite K1, map_map. apply map_ext_in. intros i Hi. apply in_seq in Hi. rewrite map_length, seq_length. rewrite grow_map; [|exact Hle|intros k Hk; apply tokens_over; assumption].
      apply map_ext. intros k. symmetry. apply tokens_app. lia. }
    assert (El : map (fun p : list Q * nat => grow 0%Q (snd p) (fst p)) (combine (o_psl P o) (map (fun c : list Z => (n - length c)%nat) (o_psc P o))) ++ skipn (length (o_psc P o)) (o_psl P o)
      = map (fun i => map (fun k => step_loss fl (l ++ [f]) i k) (seq 0 n)) (seq 0 (length l))).
    { rewrite K1, K2, map_length, seq_length, map_map, combine_map2, map_map. rewrite skipn_all2 by (rewrite map_length, seq_length; lia). rewrite app_nil_r.
      apply map_ext_in. intros i Hi. apply in_seq in Hi. cbn [fst snd]. rewrite map_length, seq_length. rewrite grow_map; [|exact Hle|intros k Hk; apply step_loss_over; assumption].
      apply map_ext. intros k. symmetry. apply step_loss_app. lia. }
    rewrite Ec, El. rewrite (to_length_same (fb_counts f) n) by (symmetry; exact W).
    assert (Els : map (fun p : Q * Z => if snd p =? 0 then 0%Q else fl (fst p / inject_Z (snd p))%Q) (combine (fb_losses f) (fb_counts f)) = map (fun k => step_loss fl (l ++ [f]) (length l) k) (seq 0 n)).
    { rewrite <- (map_nth_seq 0%Q (fb_losses f)), <- (map_nth_seq 0 (fb_counts f)), <- W. fold n. rewrite combine_map2, map_map. apply map_ext. intros k. unfold step_loss. rewrite msg_last. reflexivity. }
    rewrite Els.
    assert (Hsnoc : forall {X} (g : nat -> X), map g (seq 0 (length l)) ++ [g (length l)] = map g (seq 0 (length (l ++ [f])))).
    { intros X g. rewrite app_length. cbn [length]. rewrite Nat.add_1_r, seq_S, map_app. reflexivity. }
    destruct Hacc as (A1 & A2 & A3 & A4). assert (Hacc : accumulated fl (l ++ [f]) a) by (split; [|split; [|split]]; assumption).
    destruct same eqn:Es.
    - rewrite (some_counted (l ++ [f]) a) by (rewrite ?Es; auto; destruct l; discriminate). cbn [negb]. rewrite (proj2 (Nat.eqb_eq (length (fb_counts f)) (length (a_counts a)))) by (rewrite A2, Hwid; unfold n; symmetry; exact W). cbn [negb]. eexists. split; [reflexivity|].
      split; [|split; [exact Hacc|split; reflexivity]]. unfold kept. rewrite Hwid, Es. cbn [o_psc o_psl set_ps]. split; [|apply (Hsnoc _ (fun i => map (fun k => step_loss fl (l ++ [f]) i k) (seq 0 n)))].
      rewrite <- (Hsnoc _ (fun i => map (fun k => tokens true (l ++ [f]) i k) (seq 0 n))). f_equal. f_equal. rewrite <- (map_nth_seq 0 (a_counts a)), A2, Hwid, map_map. fold n. apply map_ext. intros k. rewrite A4. unfold tokens. rewrite msg_last.
      rewrite firstn_all2 by (rewrite app_length; cbn; lia). reflexivity.
    - eexists. split; [reflexivity|]. split; [|split; [exact Hacc|split; reflexivity]]. unfold kept. rewrite Hwid, Es. cbn [o_psc o_psl set_ps]. split; [|apply (Hsnoc _ (fun i => map (fun k => step_loss fl (l ++ [f]) i k) (seq 0 n)))].
      rewrite <- (Hsnoc _ (fun i => map (fun k => tokens false (l ++ [f]) i k) (seq 0 n))). f_equal. f_equal. unfold tokens. rewrite msg_last. symmetry. rewrite W. apply map_nth_seq.
  Qed.

  (** The calculation counts the step and nothing else does. *)
  Lemma mix_steps b o : o_steps P (fst (ado_mix fl nsum cfg P deriv pow_s b o)) = o_steps P o.
  Proof.
    unfold DynModel.ado_mix. destruct (o_params P o) as [ps|]; [|reflexivity]. destruct (o_h P o) as [h|] eqn:Eh; [|reflexivity]. destruct (o_mu P o) as [mu|]; [|reflexivity].
    destruct (loss_derivative _ _ _ _ _ _) as [dl|]; [|reflexivity]. destruct (compute_rho _ _ _ _ _ _ _) as [rho|]; [|reflexivity].
    cbv zeta. destruct (blend _ (c_gamma2 cfg) _ _) as [pi0|]; [|reflexivity]. destruct (normalise _ _ pi0) as [pi1|]; [|reflexivity].
    destruct (enforce_min _ _ _ _ _ _) as [pi|]; [|reflexivity]. set (o1 := set_pi P (Some pi) _).
    assert (Hu : forall k, o_steps P (fst (update_h fl cfg P k o1)) = o_steps P o1).
    { intros k. unfold update_h. destruct (o_h P o1); [|reflexivity]. destruct (o_pi P o1); [|reflexivity]. destruct (blend _ _ _ _); reflexivity. }
    set (u1 := match c_variant cfg with Vanilla => _ | _ => _ end).
    assert (Hf : o_steps P (fst u1) = o_steps P o1) by (unfold u1; destruct (c_variant cfg); try apply Hu; try reflexivity; destruct b; try apply Hu; reflexivity).
    change (o_steps P o1) with (o_steps P o) in Hf. destruct u1 as [o2 e2]. cbn [fst] in Hf. destruct e2; [exact Hf|]. destruct (blend _ _ _ _); [|exact Hf]. destruct (normalise _ _ _); exact Hf.
  Qed.
  Lemma calc_steps b o : o_steps P (fst (ado_calc b o)) = o_steps P o + 1.
  Proof.
    unfold DynModel.ado_calc. set (o0 := set_steps P _ o). assert (H1 : o_steps P (fst (set_prior nsum P o0)) = o_steps P o + 1).
    { unfold set_prior. destruct (o_mu P o0); [reflexivity|]. cbv zeta. destruct (Nat.ltb _ _); [reflexivity|]. destruct (negb _); reflexivity. }
    destruct (set_prior nsum P o0) as [o1 e1]. cbn [fst] in H1. destruct e1; [exact H1|]. destruct (o_steps P o1 <? c_start cfg); [exact H1|]. cbv zeta. set (o2 := set_h P _ _ o1).
    destruct (refit_due cfg _) as [rf|]; [|exact H1]. set (w := if rf then _ else _). assert (Hw : o_steps P (fst w) = o_steps P o + 1).
    { unfold w. destruct rf; [|exact H1]. unfold fit_scaling_laws. destruct (_ || _)%bool; [exact H1|]. match goal with |- context [match ?x with Ok _ => _ | Err _ => _ end] => destruct x end; exact H1. }
    destruct w as [o3 e3]. cbn [fst] in Hw. destruct e3; [exact Hw|].
    assert (Hm : forall o4 b, o_steps P o4 = o_steps P o + 1 -> o_steps P (fst (ado_mix fl nsum cfg P deriv pow_s b o4)) = o_steps P o + 1) by (intros; rewrite mix_steps; assumption).
    destruct (c_variant cfg); try (apply Hm, Hw). destruct (o_handed P o3); [|apply Hm, Hw].
    set (o4 := if b then _ else o3). assert (H4 : o_steps P o4 = o_steps P o + 1) by (unfold o4; destruct b; exact Hw).
    destruct (_ || _)%bool; [apply Hm, H4|exact H4].
  Qed.

  Lemma set_olast_same z (o : ado P) : kept [] (set_olast P z o) = kept [] o.
  Proof. reflexivity. Qed.

  (** The state after a history. *)
  Lemma kept_run initial l : Forall well_formed l -> steady_growth same l ->
    let o := run ado_process l (ado0 P initial) in
    kept l o /\ accumulated fl l (o_acc P o) /\ o_steps P o = Z.of_nat (length l).
  Proof.
    induction l as [|f l IH] using rev_ind; intros Hw Hg; cbv zeta.
    - split; [split; reflexivity|]. split; [apply accumulated_nil|reflexivity].
    - pose proof Hw as Hw'. apply Forall_app in Hw' as [Hwl _]. destruct (steady_growth_app l f Hg) as [Hgl _]. specialize (IH Hwl Hgl). cbv zeta in IH. destruct IH as (K & A & S).
      rewrite run_app. cbn [run]. set (o := run ado_process l (ado0 P initial)) in *. unfold DynModel.ado_process, process_losses. set (flag := o_last P o <? fb_mixture f).
      set (o1 := if flag then set_olast P (fb_mixture f) o else o).
      assert (K1 : kept l o1) by (unfold o1; destruct flag; exact K). assert (A1 : accumulated fl l (o_acc P o1)) by (unfold o1; destruct flag; exact A).
      assert (S1 : o_steps P o1 = Z.of_nat (length l)) by (unfold o1; destruct flag; exact S).
      destruct (kept_update l f o1 Hw Hg K1 A1) as (o2 & -> & K2 & A2 & S2 & _).
      destruct (calc_frame fl nsum cfg P p_zero fit1 deriv pow_s flag o2) as (F1 & _ & _ & F4 & F5).
      split; [unfold kept; rewrite F4, F5; exact K2|]. split; [rewrite F1; exact A2|]. 
      rewrite app_length. cbn [length]. rewrite calc_steps, S2, S1. lia.
  Qed.
End Kept.
