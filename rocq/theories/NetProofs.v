From Verif Require Import Base NetModel SpecNet.
From Coq Require Import ZifyBool ZifyNat.
Open Scope Z_scope.

Lemma read1_full n d op fr r' o : (0 < n)%nat -> d <> [] -> read1 n (mkReader d op fr) = (r', o) ->
  (o = None /\ ~ timely fr) \/
  exists m, (0 < m <= n)%nat /\ (m <= length d)%nat /\ o = Some (firstn m d) /\ rd_data r' = skipn m d /\ rd_open r' = op /\ (timely fr -> timely (rd_frags r')).
Proof.
  intros Hn Hd. unfold read1. cbn [rd_frags rd_data rd_open]. destruct d as [|x d]; [congruence|].
  destruct fr as [|[k|] fr]; intros [= <- <-].
  - right. exists (Nat.min n (length (x :: d))). cbn [length]. split; [lia|]. split; [lia|]. split; [reflexivity|]. split; [reflexivity|]. split; [reflexivity|auto].
  - right. exists (Nat.min n (Nat.min (Nat.max 1 k) (length (x :: d)))). cbn [length]. split; [lia|]. split; [lia|]. cbn [rd_data rd_open rd_frags].
    assert (E : forall m, firstn (Nat.min m (length (x :: d))) (x :: d) = firstn m (x :: d) /\ skipn (Nat.min m (length (x :: d))) (x :: d) = skipn m (x :: d)).
    { intros m. destruct (Nat.le_gt_cases m (length (x :: d))) as [H|H]; [rewrite Nat.min_l by exact H; auto|].
      rewrite Nat.min_r by lia. rewrite firstn_all, skipn_all, firstn_all2, skipn_all2 by lia. auto. }
    change (S (length d)) with (length (x :: d)).
    rewrite Nat.min_assoc. destruct (E (Nat.min n (Nat.max 1 k))) as [-> ->]. split; [reflexivity|]. split; [reflexivity|]. split; [reflexivity|].
    unfold timely. cbn. intuition.
  - left. split; [reflexivity|]. unfold timely. cbn. intuition.
Qed.

Lemma read1_end n op fr r' o : read1 n (mkReader [] op fr) = (r', o) ->
  o = None \/ (o = Some [] /\ op = false /\ rd_data r' = [] /\ rd_open r' = false).
Proof. unfold read1. cbn. destruct fr as [|[k|] fr]; intros [= <- <-]; destruct op; auto. Qed.

(** [cut_is_noticed], and None is returned only at the end of the stream. *)
Definition cut_end {A} (m : reader -> reader * (option A + nexn)) (bytes : list Z) : Prop :=
  forall part lost fr r' res, bytes = part ++ lost -> lost <> [] -> m (mkReader part false fr) = (r', res) ->
    (res = inl None /\ rd_data r' = [] /\ rd_open r' = false) \/ exists e, res = inr e.
Lemma cut_end_noticed {A} (m : reader -> reader * (option A + nexn)) b : cut_end m b -> cut_is_noticed m b.
Proof. intros H part lost fr r' res E Hn Hm. destruct (H part lost fr r' res E Hn Hm) as [(? & _)|?]; auto. Qed.

Lemma read_loop_full : forall fuel num buf d op fr r' res,
  0 <= num -> (Z.to_nat num - length buf < fuel)%nat -> num <= Z.of_nat (length buf + length d) -> (length buf <= Z.to_nat num)%nat ->
  read_loop fuel num buf (mkReader d op fr) = (r', res) ->
  (res = inl (Some (buf ++ firstn (Z.to_nat num - length buf) d)) /\ rd_data r' = skipn (Z.to_nat num - length buf) d /\ rd_open r' = op
   /\ (timely fr -> timely (rd_frags r')))
  \/ (res = inr TimeoutError /\ ~ timely fr).
Proof.
  induction fuel as [|fuel IH]; intros num buf d op fr r' res Hn Hf Hl Hb H; [lia|]. cbn [read_loop] in H.
  destruct (Z.ltb_spec (Z.of_nat (length buf)) num) as [Hlt|Hge].
  - destruct (read1 (Z.to_nat num - length buf) (mkReader d op fr)) as [r1 o] eqn:E1.
    apply read1_full in E1; [|lia|intros ->; cbn in Hl; lia].
    destruct E1 as [[-> Ht]|(m & Hm & Hmd & -> & D1 & D2 & D3)].
    { injection H as <- <-. right. auto. }
    destruct (firstn m d) as [|x c] eqn:Ec.
    { exfalso. assert (length (firstn m d) = m) by (apply firstn_length_le; exact Hmd). rewrite Ec in H0. cbn in H0. lia. }
    assert (Hlc : length (x :: c) = m) by (rewrite <- Ec; apply firstn_length_le; exact Hmd).
    destruct r1 as [d1 op1 fr1]. cbn [rd_data rd_open rd_frags] in *. subst d1 op1.
    apply IH in H; [|exact Hn|rewrite app_length, Hlc; lia|rewrite app_length, Hlc, skipn_length; lia|rewrite app_length, Hlc; lia].
    destruct H as [(R1 & R2 & R3 & R4)|[R1 R2]]; [left|right].
    + rewrite app_length, Hlc in R1, R2. split; [|split; [|split; [exact R3|auto]]].
      * rewrite R1, <- app_assoc. f_equal. f_equal. f_equal. rewrite <- Ec.
        replace (Z.to_nat num - length buf)%nat with (m + (Z.to_nat num - (length buf + m)))%nat by lia.
        rewrite <- (firstn_skipn m d) at 3. rewrite firstn_app, firstn_firstn, (firstn_length_le d Hmd).
        rewrite Nat.min_r by lia. f_equal. f_equal. lia.
      * rewrite R2. replace (Z.to_nat num - length buf)%nat with ((Z.to_nat num - (length buf + m)) + m)%nat by lia.
        generalize (Z.to_nat num - (length buf + m))%nat. clear. intros a. revert d. induction m as [|m IHm]; intros d; [rewrite Nat.add_0_r; reflexivity|].
        destruct d; [rewrite !skipn_nil; reflexivity|]. rewrite Nat.add_succ_r. cbn [skipn]. apply IHm.
    + split; [exact R1|auto].
  - injection H as <- <-. left. replace (Z.to_nat num - length buf)%nat with 0%nat by lia. cbn [firstn skipn]. rewrite app_nil_r. auto.
Qed.

Lemma read_loop_short : forall fuel num buf d fr r' res,
  (Z.to_nat num - length buf < fuel)%nat -> Z.of_nat (length buf + length d) < num ->
  read_loop fuel num buf (mkReader d false fr) = (r', res) ->
  (res = inl None /\ buf = [] /\ rd_data r' = [] /\ rd_open r' = false) \/ exists e, res = inr e.
Proof.
  induction fuel as [|fuel IH]; intros num buf d fr r' res Hf Hl H; [lia|]. cbn [read_loop] in H.
  destruct (Z.ltb_spec (Z.of_nat (length buf)) num) as [Hlt|Hge]; [|lia].
  destruct (read1 (Z.to_nat num - length buf) (mkReader d false fr)) as [r1 o] eqn:E1.
  destruct d as [|x0 d0].
  - apply read1_end in E1. destruct E1 as [->|(-> & _ & X1 & X2)]; injection H as <- <-; [right; eauto|].
    destruct buf; [left; auto|right; eauto].
  - set (d := x0 :: d0) in *. apply read1_full in E1; [|lia|discriminate].
    destruct E1 as [[-> Ht]|(m & Hm & Hmd & -> & D1 & D2 & D3)]; [injection H as <- <-; right; eauto|].
    destruct (firstn m d) as [|x c] eqn:Ec.
    { exfalso. assert (length (firstn m d) = m) by (apply firstn_length_le; exact Hmd). rewrite Ec in H0. cbn in H0. lia. }
    assert (Hlc : length (x :: c) = m) by (rewrite <- Ec; apply firstn_length_le; exact Hmd).
    destruct r1 as [d1 op1 fr1]. cbn [rd_data rd_open rd_frags] in *. subst d1 op1.
    apply IH in H; [|rewrite app_length, Hlc; lia|rewrite app_length, Hlc, skipn_length; lia].
    destruct H as [(_ & H & _)|H]; [destruct buf; discriminate|right; exact H].
Qed.

Lemma read_bytes_back (l : list Z) num : num = Z.of_nat (length l) -> reads_back (read_bytes num) l (Some l).
Proof.
  intros E rest op fr r' res H. unfold read_bytes in H. apply read_loop_full in H; cbn [length] in *; [|lia|lia|rewrite app_length; lia|lia].
  rewrite Nat.sub_0_r in H. assert (En : Z.to_nat num = length l) by lia. rewrite En in H.
  rewrite firstn_app, Nat.sub_diag, firstn_O, app_nil_r, firstn_all in H. rewrite skipn_app, Nat.sub_diag, skipn_all in H. cbn [app skipn] in H. exact H.
Qed.
Lemma read_bytes_cut (l : list Z) num : num = Z.of_nat (length l) -> cut_end (read_bytes num) l.
Proof.
  intros E part lost fr r' res El Hne H. unfold read_bytes in H.
  assert (length l = (length part + length lost)%nat) by (rewrite El; apply app_length). destruct lost as [|x lost]; [congruence|]. cbn [length] in *.
  apply read_loop_short in H; [|cbn; lia|cbn; lia]. destruct H as [(H & _ & H1 & H2)|H]; auto.
Qed.

(** Sequencing. *)
Lemma reads_back_bind {A B} (m : reader -> reader * (A + nexn)) (f : A -> reader -> reader * (B + nexn)) b1 b2 a b :
  reads_back m b1 a -> reads_back (f a) b2 b -> reads_back (fun r => rbind (m r) f) (b1 ++ b2) b.
Proof.
  intros H1 H2 rest op fr r' res H. rewrite <- app_assoc in H. destruct (m (mkReader (b1 ++ b2 ++ rest) op fr)) as [r1 o] eqn:E.
  apply H1 in E. destruct E as [(-> & D1 & D2 & D3)|(-> & Ht)]; cbn [rbind] in H; [|injection H as <- <-; right; auto].
  destruct r1 as [d1 op1 fr1]. cbn in *. subst d1 op1. apply H2 in H. destruct H as [(R1 & R2 & R3 & R4)|(R1 & R2)]; [left|right].
  - split; [exact R1|]. split; [exact R2|]. split; [exact R3|]. intros T. apply R4, D3, T.
  - split; [exact R1|]. intros T. apply R2, D3, T.
Qed.
Lemma reads_back_ret {A} (a : A) : reads_back (fun r => (r, inl a)) [] a.
Proof. intros rest op fr r' res [= <- <-]. left. auto. Qed.
Lemma reads_back_ext {A} (m m' : reader -> reader * (A + nexn)) b a : (forall r, m r = m' r) -> reads_back m b a -> reads_back m' b a.
Proof. intros E H rest op fr r' res Hm. rewrite <- E in Hm. eapply H, Hm. Qed.
Lemma reads_back_map {A B} (m : reader -> reader * (A + nexn)) (f : A -> B) b a :
  reads_back m b a -> reads_back (fun r => rbind (m r) (fun x r => (r, inl (f x)))) b (f a).
Proof. intros H. rewrite <- (app_nil_r b). apply reads_back_bind with (a := a); [exact H|]. apply reads_back_ret. Qed.

(** Integers. *)
Lemma be_length n v : length (be n v) = n.
Proof. revert v. induction n as [|n IH]; intros v; cbn; [reflexivity|]. rewrite app_length, IH. cbn. lia. Qed.
Lemma be_bytes n v : Forall (fun b => 0 <= b < 256) (be n v).
Proof. revert v. induction n as [|n IH]; intros v; cbn; [constructor|]. apply Forall_app. split; [apply IH|]. constructor; [apply Z.mod_pos_bound; lia|constructor]. Qed.
Lemma from_be_snoc l b : from_be (l ++ [b]) = from_be l * 256 + b.
Proof. unfold from_be. rewrite fold_left_app. reflexivity. Qed.
Lemma from_be_be n v : 0 <= v < 256 ^ Z.of_nat n -> from_be (be n v) = v.
Proof.
  revert v. induction n as [|n IH]; intros v Hv.
  - cbn in *. unfold from_be. cbn. lia.
  - cbn [be]. rewrite from_be_snoc, IH.
    + pose proof (Z.div_mod v 256). lia.
    + rewrite Nat2Z.inj_succ, Z.pow_succ_r in Hv by lia. split; [apply Z.div_pos; lia|]. apply Z.div_lt_upper_bound; lia.
Qed.
Lemma pow256_even n : (1 <= n)%nat -> exists h, 256 ^ Z.of_nat n = 2 * h /\ 256 ^ Z.of_nat n / 2 = h /\ 0 < h.
Proof.
  intros Hn. destruct n as [|n]; [lia|]. rewrite Nat2Z.inj_succ, Z.pow_succ_r by lia. exists (128 * 256 ^ Z.of_nat n).
  assert (0 < 256 ^ Z.of_nat n) by (apply Z.pow_pos_nonneg; lia). split; [lia|]. split; [|lia].
  replace (256 * 256 ^ Z.of_nat n) with ((128 * 256 ^ Z.of_nat n) * 2) by lia. apply Z.div_mul. lia.
Qed.
Lemma from_signed n v : (1 <= n)%nat -> - (256 ^ Z.of_nat n / 2) <= v < 256 ^ Z.of_nat n / 2 ->
  from_bytes_signed (be n (v mod 256 ^ Z.of_nat n)) = v.
Proof.
  intros Hn Hv. destruct (pow256_even n Hn) as (h & E & Eh & Hh). unfold from_bytes_signed. rewrite be_length, from_be_be by (apply Z.mod_pos_bound; lia).
  rewrite Eh in *. rewrite E. destruct (Z.le_gt_cases 0 v).
  - rewrite Z.mod_small by lia. replace (h <=? v) with false by lia. reflexivity.
  - assert (Em : v mod (2 * h) = v + 2 * h). { symmetry. apply Z.mod_unique with (-1); lia. }
    rewrite Em. replace (h <=? v + 2 * h) with true by lia. lia.
Qed.
Lemma from_unsigned n v : (1 <= n)%nat -> 0 <= v < 256 ^ Z.of_nat n / 2 -> from_bytes_signed (be n v) = v.
Proof.
  intros Hn Hv. destruct (pow256_even n Hn) as (h & E & Eh & Hh). rewrite <- (Z.mod_small v (256 ^ Z.of_nat n)) at 1 by lia. apply from_signed; lia.
Qed.

Lemma read_int_back l n : length l = n -> reads_back (read_int n) l (Some (from_bytes_signed l)).
Proof.
  intros El. unfold read_int. apply (reads_back_map _ (fun o => match o with Some l => Some (from_bytes_signed l) | None => None end) l (Some l)).
  apply read_bytes_back. lia.
Qed.
Lemma read_int_cut l n : length l = n -> cut_end (read_int n) l.
Proof.
  intros El part lost fr r' res E Hne H. unfold read_int in H. destruct (read_bytes (Z.of_nat n) (mkReader part false fr)) as [r1 o] eqn:E1.
  apply (read_bytes_cut l (Z.of_nat n) ltac:(lia) part lost) in E1; [|exact E|exact Hne]. destruct E1 as [(-> & X1 & X2)|[e ->]]; cbn in H; injection H as <- <-; eauto.
Qed.

(** Cutting a sequence: in the first part, or in the second. *)
Lemma cut_bind {A B} (m : reader -> reader * (option A + nexn)) (f : option A -> reader -> reader * (option B + nexn)) b1 b2 a :
  reads_back m b1 (Some a) -> cut_end m b1 -> cut_end (f (Some a)) b2 ->
  (forall fr r' res, f None (mkReader [] false fr) = (r', res) -> (res = inl None /\ rd_data r' = [] /\ rd_open r' = false) \/ exists e, res = inr e) ->
  cut_end (fun r => rbind (m r) f) (b1 ++ b2).
Proof.
  intros H1 C1 C2 HN part lost fr r' res E Hne H.
  destruct (Nat.lt_ge_cases (length part) (length b1)) as [Hlt|Hge].
  - assert (Ex : exists x, b1 = part ++ x /\ x <> []).
    { exists (skipn (length part) b1). split.
      - rewrite <- (firstn_skipn (length part) b1) at 1. f_equal.
        assert (Hf : firstn (length part) (b1 ++ b2) = part) by (rewrite E, firstn_app, firstn_all, Nat.sub_diag, firstn_O, app_nil_r; reflexivity).
        rewrite firstn_app in Hf. replace (length part - length b1)%nat with 0%nat in Hf by lia. rewrite firstn_O, app_nil_r in Hf. exact Hf.
      - intros Ex. apply (f_equal (@length Z)) in Ex. rewrite skipn_length in Ex. cbn in Ex. lia. }
    destruct Ex as (x & Eb & Hx). destruct (m (mkReader part false fr)) as [r1 o] eqn:Em. apply (C1 part x) in Em; [|exact Eb|exact Hx].
    destruct Em as [(-> & X1 & X2)|[e ->]]; cbn [rbind] in H; [|injection H as <- <-; eauto]. destruct r1 as [d1 op1 fr1]. cbn in X1, X2. subst d1 op1. eapply HN, H.
  - assert (Ex : exists x, part = b1 ++ x /\ b2 = x ++ lost).
    { exists (skipn (length b1) part). assert (Hp : part = b1 ++ skipn (length b1) part).
      { rewrite <- (firstn_skipn (length b1) part) at 1. f_equal.
        assert (Hf : firstn (length b1) (part ++ lost) = b1) by (rewrite <- E, firstn_app, firstn_all, Nat.sub_diag, firstn_O, app_nil_r; reflexivity).
        rewrite firstn_app in Hf. replace (length b1 - length part)%nat with 0%nat in Hf by lia. rewrite firstn_O, app_nil_r in Hf. exact Hf. }
      split; [exact Hp|]. rewrite Hp in E. rewrite <- app_assoc in E. apply app_inv_head in E. exact E. }
    destruct Ex as (x & -> & Eb). destruct (m (mkReader (b1 ++ x) false fr)) as [r1 o] eqn:Em. apply H1 in Em.
    destruct Em as [(-> & D1 & D2 & _)|(-> & _)]; cbn [rbind] in H; [|injection H as <- <-; eauto].
    destruct r1 as [d1 op1 fr1]. cbn in D1, D2. subst d1 op1. eapply C2; eassumption.
Qed.
Lemma cut_map {A B} (m : reader -> reader * (option A + nexn)) (f : option A -> option B + nexn) b :
  cut_end m b -> (f None = inl None \/ exists e, f None = inr e) -> cut_end (fun r => rbind (m r) (fun x r => (r, f x))) b.
Proof.
  intros C HN part lost fr r' res E Hne H. destruct (m (mkReader part false fr)) as [r1 o] eqn:Em. apply (C part lost) in Em; [|exact E|exact Hne].
  destruct Em as [(-> & X1 & X2)|[e ->]]; cbn [rbind] in H; injection H as <- <-; [destruct HN as [->|HN]; auto|eauto].
Qed.

(** UTF-8. *)
Lemma utf8_cp_ok c : 0 <= c < 55296 \/ 57344 <= c < 1114112 -> exists b, utf8_cp c = Some b /\ b <> [] /\ forall l,
  utf8_decode (b ++ l) = match utf8_decode l with inl s => inl (c :: s) | inr e => inr e end.
Proof.
  intros Hc. unfold utf8_cp. destruct (Z.ltb_spec c 0); [lia|]. destruct (Z.ltb_spec c 128).
  { eexists. split; [reflexivity|]. split; [discriminate|]. intros l. cbn [app utf8_decode]. replace ((0 <=? c) && (c <? 128)) with true by lia. reflexivity. }
  pose proof (Z.mod_pos_bound c 64 eq_refl) as B0. pose proof (Z.div_mod c 64 ltac:(lia)) as D0.
  destruct (Z.ltb_spec c 2048).
  { eexists. split; [reflexivity|]. split; [discriminate|]. intros l. cbn [app utf8_decode].
    assert (2 <= c / 64 < 32). { split; [apply Z.div_le_lower_bound; lia|apply Z.div_lt_upper_bound; lia]. }
    set (q := c / 64) in *. set (m := c mod 64) in *. clearbody q m.
    replace ((0 <=? 192 + q) && (192 + q <? 128)) with false by lia. replace ((192 <=? 192 + q) && (192 + q <? 224)) with true by lia.
    replace ((192 + q - 192) * 64 + (128 + m - 128)) with c by lia. unfold cont.
    replace ((128 <=? 128 + m) && (128 + m <? 192) && (128 <=? c)) with true by lia. reflexivity. }
  pose proof (Z.mod_pos_bound (c / 64) 64 eq_refl) as B1. pose proof (Z.div_mod (c / 64) 64 ltac:(lia)) as D1.
  rewrite Z.div_div in D1 by lia. change (64 * 64) with 4096 in D1.
  destruct (Z.ltb_spec c 65536).
  { replace ((55296 <=? c) && (c <? 57344)) with false by lia. eexists. split; [reflexivity|]. split; [discriminate|]. intros l. cbn [app utf8_decode].
    assert (0 <= c / 4096 < 16). { split; [apply Z.div_pos; lia|apply Z.div_lt_upper_bound; lia]. }
    set (q := c / 4096) in *. set (m1 := (c / 64) mod 64) in *. set (m := c mod 64) in *. clearbody q m1 m.
    replace ((0 <=? 224 + q) && (224 + q <? 128)) with false by lia. replace ((192 <=? 224 + q) && (224 + q <? 224)) with false by lia.
    replace ((224 <=? 224 + q) && (224 + q <? 240)) with true by lia.
    replace ((224 + q - 224) * 4096 + (128 + m1 - 128) * 64 + (128 + m - 128)) with c by lia. unfold cont.
    replace ((128 <=? 128 + m1) && (128 + m1 <? 192) && ((128 <=? 128 + m) && (128 + m <? 192)) && (2048 <=? c) && negb ((55296 <=? c) && (c <? 57344))) with true by lia.
    reflexivity. }
  pose proof (Z.mod_pos_bound (c / 4096) 64 eq_refl) as B2. pose proof (Z.div_mod (c / 4096) 64 ltac:(lia)) as D2.
  rewrite Z.div_div in D2 by lia. change (4096 * 64) with 262144 in D2.
  destruct (Z.ltb_spec c 1114112); [|lia].
  eexists. split; [reflexivity|]. split; [discriminate|]. intros l. cbn [app utf8_decode].
  assert (0 <= c / 262144 < 5). { split; [apply Z.div_pos; lia|apply Z.div_lt_upper_bound; lia]. }
  set (q := c / 262144) in *. set (m2 := (c / 4096) mod 64) in *. set (m1 := (c / 64) mod 64) in *. set (m := c mod 64) in *. clearbody q m2 m1 m.
  replace ((0 <=? 240 + q) && (240 + q <? 128)) with false by lia. replace ((192 <=? 240 + q) && (240 + q <? 224)) with false by lia.
  replace ((224 <=? 240 + q) && (240 + q <? 240)) with false by lia. replace ((240 <=? 240 + q) && (240 + q <? 248)) with true by lia.
  replace ((240 + q - 240) * 262144 + (128 + m2 - 128) * 4096 + (128 + m1 - 128) * 64 + (128 + m - 128)) with c by lia. unfold cont.
  replace ((128 <=? 128 + m2) && (128 + m2 <? 192) && ((128 <=? 128 + m1) && (128 + m1 <? 192)) && ((128 <=? 128 + m) && (128 + m <? 192)) && (65536 <=? c) && (c <? 1114112)) with true by lia.
  reflexivity.
Qed.
Lemma utf8_roundtrip s : encodable s -> exists b, utf8_encode s = inl b /\ utf8_decode b = inl s.
Proof.
  induction 1 as [|c s Hc _ IH]; [exists []; auto|]. destruct IH as (b & E1 & E2). destruct (utf8_cp_ok c Hc) as (x & Ex & _ & Hx).
  exists (x ++ b). cbn [utf8_encode]. rewrite Ex, E1. split; [reflexivity|]. rewrite Hx, E2. reflexivity.
Qed.
