(** Proofs about training jobs. *)
From Verif Require Import Base MixtureKeyModel UtilsModel ChunkGenModel DistributorModel SpecDistributor DistributorProofs
  DistributorProofs2 DistributorProofs3 DistributorProofs4 DistributorProofs5 DistributorProofs6 DistributorProofs7
  DistributorProofs8 DistributorProofs9 TorchModel SpecTorch.
From Coq Require Import ZifyBool ZifyNat.
Open Scope Z_scope.

Section Lists.
  Context {X : Type}.
  Lemma joined_snoc (l : list (list X)) b : joined (l ++ [b]) = continue_with (joined l) b.
  Proof. unfold joined. rewrite fold_left_app. reflexivity. Qed.
  Lemma continue_app (a b c : list X) : (a <> [] -> b <> []) -> continue_with a (b ++ c) = continue_with a b ++ c.
  Proof.
    intros H. destruct a as [|y a]; [reflexivity|]. cbn [continue_with]. destruct b as [|z b]; [exfalso; apply H; congruence|].
    cbn [tl app]. rewrite app_comm_cons, app_assoc. reflexivity.
  Qed.
  Lemma continue_nil (a : list X) : continue_with a [] = a.
  Proof. destruct a; [reflexivity|]. cbn. rewrite app_nil_r. reflexivity. Qed.
  Lemma continue_prefix (a b c : list X) : exists r, continue_with a b ++ r = continue_with a (b ++ c).
  Proof.
    destruct a as [|y a]; [exists c; reflexivity|]. destruct b as [|z b].
    - exists (tl c). cbn. rewrite app_nil_r. reflexivity.
    - exists c. cbn. rewrite <- app_assoc. reflexivity.
  Qed.
  Lemma nonempty_follow (a b : list X) : (forall a' y, a = a' ++ [y] -> exists r, b = y :: r) -> a <> [] -> b <> [].
  Proof. intros H Ha. destruct (rev_case a) as [E|(a' & y & E)]; [contradiction|]. destruct (H _ _ E) as [r ->]. discriminate. Qed.
  Lemma map_snd_numbered i (l : list X) : map snd (numbered i l) = l.
  Proof. revert i. induction l as [|x l IH]; intros i; [reflexivity|]. cbn. rewrite IH. reflexivity. Qed.
  Lemma skipn_uncons (l : list X) i y r : skipn i l = y :: r -> r = skipn (S i) l /\ (i < length l)%nat.
  Proof.
    revert i. induction l as [|x l IH]; intros [|i] H; try discriminate.
    - injection H as -> ->. split; [reflexivity|cbn; lia].
    - apply IH in H as [-> H]. split; [reflexivity|cbn; lia].
  Qed.
End Lists.

Section Proofs.
  Context {C X : Type}.
  Variable items : C -> list X.

  Definition samples_of (l : list (C * Z)) : list X := flat_map (fun ck => items (fst ck)) l.
  Lemma samples_app a b : samples_of (a ++ b) = samples_of a ++ samples_of b.
  Proof. unfold samples_of. apply flat_map_app. Qed.
  Lemma samples_S l i c k : nth_error l i = Some (c, k) -> samples_of (firstn (S i) l) = samples_of (firstn i l) ++ items c.
  Proof.
    revert i. induction l as [|x l IH]; intros [|i] H; try discriminate.
    - injection H as ->. cbn. rewrite app_nil_r. reflexivity.
    - rewrite firstn_cons. rewrite (firstn_cons i). change (samples_of (x :: firstn (S i) l)) with (items (fst x) ++ samples_of (firstn (S i) l)).
      rewrite (IH _ H), app_assoc. reflexivity.
  Qed.

  Record wslot (pend : bool) (P : nat) (F : list (C * Z)) (x : worker X) (a : list X) : Prop := {
    w_pend : pend = true -> t_chunks x = O /\ t_done x = O /\ t_rest x = [] /\ t_out x = []
      /\ exists c i, nth_error F P = Some (c, Z.of_nat i) /\ (i < length (items c))%nat
           /\ a = samples_of (firstn P F) ++ firstn (S i) (items c);
    w_run : pend = false -> continue_with a (t_out x ++ map snd (t_rest x)) = samples_of (firstn P F)
      /\ (forall a' y, a = a' ++ [y] -> exists r, t_out x ++ map snd (t_rest x) = y :: r)
      /\ (t_chunks x = O -> P = O /\ t_done x = O /\ t_out x = [] /\ t_rest x = [])
      /\ ((0 < t_chunks x)%nat -> (0 < P)%nat /\ exists c k i, nth_error F (pred P) = Some (c, k)
            /\ t_rest x = numbered (Z.of_nat i) (skipn i (items c))
            /\ ((0 < t_done x)%nat -> t_status x = Z.of_nat i - 1 /\ (0 < i <= length (items c))%nat /\ t_out x <> []));
    w_seen : (t_seen x <= length (t_out x))%nat;
    w_skip : forall i c k, nth_error F i = Some (c, k) -> (P + (if pend then 1 else 0) <= i)%nat -> k = 0
  }.

  Lemma wslot_ext pend P F x a l : (P <= length F)%nat -> wslot pend P F x a ->
    wslot pend P (F ++ map (fun c => (c, 0)) l) x a.
  Proof.
    intros HP [Hp Hr Hs Hk].
    assert (Hf : firstn P (F ++ map (fun c => (c, 0)) l) = firstn P F).
    { rewrite firstn_app. replace (P - length F)%nat with O by lia. cbn. apply app_nil_r. }
    assert (Hn : forall i y, nth_error F i = Some y -> nth_error (F ++ map (fun c : C => (c, 0)) l) i = Some y).
    { intros i y H. rewrite nth_error_app1; [exact H|]. apply nth_error_Some. congruence. }
    constructor; auto.
    - intros H. destruct (Hp H) as (H1 & H2 & H3 & H4 & c & i & H5 & H6 & H7). do 4 (split; [assumption|]).
      exists c, i. rewrite Hf. auto.
    - intros H. destruct (Hr H) as (H1 & H2 & H3 & H4). rewrite Hf. do 3 (split; [assumption|]).
      intros Hc. destruct (H4 Hc) as (H5 & c & k & i & H6 & H7). split; [exact H5|]. exists c, k, i. auto.
    - intros i c k Hi Hge. destruct (Nat.lt_ge_cases i (length F)) as [Hlt|Hge'].
      + rewrite nth_error_app1 in Hi by exact Hlt. eapply Hk; eauto.
      + rewrite nth_error_app2 in Hi by exact Hge'. apply nth_error_In in Hi. apply in_map_iff in Hi as (c' & E & _). congruence.
  Qed.

  (** Getting the next chunk. *)
  Lemma wslot_fetch pend P F x a c k : wslot pend P F x a -> nth_error F P = Some (c, k) -> t_rest x = [] ->
    wslot false (S P) F (mkWorker (t_status x) (S (t_chunks x)) 0 (chunk_samples items c k) (t_out x) (t_seen x)) a.
  Proof.
    intros [Hp Hr Hs Hk] Hn Hrest.
    assert (Hkk : exists i, k = Z.of_nat i /\ continue_with a (t_out x ++ skipn i (items c)) = samples_of (firstn (S P) F)
              /\ (forall a' y, a = a' ++ [y] -> exists r, t_out x ++ skipn i (items c) = y :: r)).
    { rewrite (samples_S _ _ _ _ Hn). destruct pend.
      - destruct (Hp eq_refl) as (_ & _ & _ & Ho & c' & i & Hn' & Hi & Ha). rewrite Hn in Hn'. injection Hn' as <- ->.
        exists i. split; [reflexivity|]. rewrite Ho. cbn [app].
        destruct (skipn i (items c)) as [|y r] eqn:E.
        { assert (length (skipn i (items c)) = O) by (rewrite E; reflexivity). rewrite skipn_length in H. lia. }
        destruct (skipn_uncons _ _ _ _ E) as [Er _].
        split.
        2:{ intros a' z Ea. exists r. f_equal. rewrite Ea in Ha. assert (Ef : firstn (S i) (items c) = firstn i (items c) ++ [y]).
            { rewrite <- (firstn_skipn i (items c)) at 1. rewrite E, firstn_app, firstn_firstn, firstn_length_le by lia.
              replace (S i - i)%nat with 1%nat by lia. rewrite Nat.min_r by lia. reflexivity. }
            rewrite Ef, app_assoc in Ha. apply app_inj_tail in Ha as [_ Ha]. congruence. }
        destruct a as [|z a].
        { exfalso. symmetry in Ha. apply app_eq_nil in Ha as [_ Ha]. destruct (items c); [cbn in Hi; lia|discriminate]. }
        cbn [continue_with tl]. rewrite Ha, Er, <- app_assoc. f_equal. apply firstn_skipn.
      - assert (k = 0) as -> by (eapply Hk; [exact Hn|lia]). exists O. split; [reflexivity|].
        destruct (Hr eq_refl) as (H1 & H2 & _). rewrite Hrest in H1, H2. cbn [map] in H1, H2. rewrite app_nil_r in H1. cbn [skipn].
        split.
        + rewrite continue_app; [rewrite H1; reflexivity|]. apply nonempty_follow. intros a' y Ea. destruct (H2 _ _ Ea) as [r Er].
          rewrite app_nil_r in Er. eauto.
        + intros a' y Ea. destruct (H2 _ _ Ea) as [r Er]. rewrite app_nil_r in Er. rewrite Er. cbn. eauto. }
    destruct Hkk as (i & -> & Hc & Hne).
    assert (Ecs : chunk_samples items c (Z.of_nat i) = numbered (Z.of_nat i) (skipn i (items c))).
    { unfold chunk_samples. rewrite Nat2Z.id. reflexivity. }
    constructor; cbn [t_status t_chunks t_done t_rest t_out t_seen]; try discriminate; auto.
    - intros _. rewrite Ecs, map_snd_numbered. split; [exact Hc|]. split; [exact Hne|]. split; [discriminate|].
      intros _. split; [lia|]. exists c, (Z.of_nat i), i. split; [exact Hn|]. split; [reflexivity|]. lia.
    - intros i' c' k' Hi' Hge. eapply Hk; [exact Hi'|]. destruct pend; lia.
  Qed.

  (** Yielding a sample. *)
  Lemma wslot_yield pend P F x a i y rest : wslot pend P F x a -> t_rest x = (i, y) :: rest ->
    wslot pend P F (mkWorker i (t_chunks x) (S (t_done x)) rest (t_out x ++ [y]) (t_seen x)) a.
  Proof.
    intros [Hp Hr Hs Hk] Hrest. constructor; cbn [t_status t_chunks t_done t_rest t_out t_seen]; auto.
    - intros H. destruct (Hp H) as (_ & _ & H3 & _). congruence.
    - intros H. destruct (Hr H) as (H1 & H2 & H3 & H4). rewrite Hrest in H1, H2. cbn [map snd] in H1, H2.
      rewrite <- app_assoc. cbn [app]. split; [exact H1|]. split; [exact H2|]. split.
      { intros H0. destruct (H3 H0) as (_ & _ & _ & E). congruence. }
      intros H0. destruct (H4 H0) as (HP & c & k & j & Hn & Er & _). split; [exact HP|].
      rewrite Hrest in Er. destruct (skipn j (items c)) as [|z r] eqn:E; [discriminate|]. cbn [numbered] in Er. injection Er as -> -> ->.
      destruct (skipn_uncons _ _ _ _ E) as [-> Hj]. exists c, k, (S j). split; [exact Hn|].
      split; [f_equal; lia|]. intros _. split; [lia|]. split; [lia|]. destruct (t_out x); discriminate.
    - rewrite app_length. cbn. lia.
  Qed.

  Lemma wslot_take pend P F x a : wslot pend P F x a ->
    wslot pend P F (mkWorker (t_status x) (t_chunks x) (t_done x) (t_rest x) (t_out x) (Nat.min (S (t_seen x)) (length (t_out x)))) a.
  Proof. intros [Hp Hr Hs Hk]. constructor; cbn [t_status t_chunks t_done t_rest t_out t_seen]; auto. lia. Qed.

  (** Restarting at a good moment. *)
  Lemma wslot_restart P F F2 x a c2 k2 : wslot false P F x a -> length F = P -> map fst F2 = map fst F ->
    t_seen x = length (t_out x) -> ((t_chunks x = O /\ a = []) \/ (0 < t_done x)%nat) ->
    (P <> O -> nth_error F2 (pred P) = Some (c2, k2) /\ k2 = t_status x) ->
    wslot (negb (Nat.eqb P 0)) (pred P) F2 fresh_worker (continue_with a (took x)).
  Proof.
    intros [_ Hr Hs Hk] HF Hfst Hseen Hset Hlast. destruct (Hr eq_refl) as (H1 & H2 & H3 & H4).
    assert (Hl2 : length F2 = P) by (rewrite <- (map_length fst), Hfst, map_length; exact HF).
    assert (Hto : took x = t_out x) by (unfold took; rewrite Hseen; apply firstn_all).
    assert (Hsame : forall n, samples_of (firstn n F2) = samples_of (firstn n F)).
    { intros n. unfold samples_of. rewrite !flat_map_concat_map, <- !map_map with (f := fst) (g := items), <- !firstn_map, Hfst. reflexivity. }
    destruct (Nat.eqb_spec P 0) as [E|E]; cbn [negb].
    - subst P. rewrite E in *. destruct F2; [|discriminate].
      assert (Hc : t_chunks x = O). { destruct (t_chunks x); [reflexivity|]. destruct (H4 ltac:(lia)) as [H _]. lia. }
      destruct (H3 Hc) as (_ & Hd & Ho & _). destruct Hset as [[_ ->]|Hset]; [|lia].
      constructor; cbn; try discriminate; try lia.
      + intros _. rewrite Hto, Ho. cbn. split; [reflexivity|]. split; [intros [|] ?; discriminate|]. split; [auto|]. lia.
      + intros [|i]; discriminate.
    - destruct Hset as [[Hc _]|Hd]; [destruct (H3 Hc); contradiction|].
      assert (Hc : (0 < t_chunks x)%nat). { destruct (t_chunks x) eqn:Ec; [|lia]. destruct (H3 eq_refl) as (_ & H & _). lia. }
      destruct (H4 Hc) as (HP & c & k & i & Hn & Er & Hi). destruct (Hi Hd) as (Est & Hib & Hone).
      destruct (Hlast E) as [Hn2 ->].
      assert (c2 = c).
      { assert (E1 : nth_error (map fst F2) (pred P) = Some c2) by (rewrite nth_error_map, Hn2; reflexivity).
        rewrite Hfst, nth_error_map, Hn in E1. cbn in E1. congruence. }
      subst c2. constructor; cbn [t_chunks t_done t_rest t_out t_seen fresh_worker length]; try discriminate; try lia.
      + intros _. do 4 (split; [reflexivity|]). exists c, (pred i). split; [rewrite Hn2; do 2 f_equal; lia|]. split; [lia|].
        rewrite Hsame. replace (S (pred i)) with i by lia.
        rewrite Er, map_snd_numbered in H1. rewrite continue_app in H1 by (intros _; exact Hone).
        replace P with (S (pred P)) in H1 by lia. rewrite (samples_S _ _ _ _ Hn) in H1.
        rewrite <- (firstn_skipn i (items c)) in H1 at 2. rewrite app_assoc in H1. apply app_inv_tail in H1. rewrite Hto. exact H1.
      + intros i' c' k' Hi' Hge. assert (nth_error F2 i' = None) by (apply nth_error_None; lia). congruence.
  Qed.
End Proofs.
