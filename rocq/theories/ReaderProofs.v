(** Lemmas about the readers. *)
From Verif Require Import Base MixtureKeyModel UtilsModel ChunkGenModel ReaderModel SpecReader.
Open Scope Z_scope.

Lemma flat_map_ext_in {A B} (f g : A -> list B) l : (forall x, In x l -> f x = g x) -> flat_map f l = flat_map g l.
Proof.
  induction l as [|x l IH]; intros H; [reflexivity|]. cbn. rewrite H by now left. rewrite IH; [reflexivity|].
  intros y Hy. apply H. now right.
Qed.
Lemma skipn_skipn {A} (a b : nat) (l : list A) : skipn a (skipn b l) = skipn (a + b) l.
Proof.
  revert a l. induction b as [|b IH]; intros a l; [now rewrite Nat.add_0_r|].
  destruct l as [|x l]; [now rewrite !skipn_nil|]. replace (a + S b)%nat with (S (a + b)) by lia. cbn [skipn]. apply IH.
Qed.

(** rows of [l], numbered from [o], inside [r] *)
Fixpoint win {R} (o : Z) (l : list R) (r : range) : list R :=
  match l with
  | [] => []
  | x :: l' => if (fst r <=? o) && (o <? snd r) then x :: win (o + 1) l' r else win (o + 1) l' r
  end.

Lemma win_numbered {R} (l : list R) r k :
  map snd (filter (fun ix => (fst r <=? fst ix) && (fst ix <? snd r)) (combine (map Z.of_nat (seq k (length l))) l))
  = win (Z.of_nat k) l r.
Proof.
  revert k. induction l as [|x l IH]; intros k; [reflexivity|].
  cbn [length seq map combine filter win fst].
  replace (Z.of_nat k + 1) with (Z.of_nat (S k)) by lia. rewrite <- IH.
  destruct ((fst r <=? Z.of_nat k) && (Z.of_nat k <? snd r)); reflexivity.
Qed.
Lemma rows_in_win {R} (l : list R) r : rows_in l r = win 0 l r.
Proof. apply (win_numbered l r 0). Qed.

Lemma win_app {R} o (a b : list R) r : win o (a ++ b) r = win o a r ++ win (o + Z.of_nat (length a)) b r.
Proof.
  revert o. induction a as [|x a IH]; intros o; cbn [app win length].
  - f_equal. lia.
  - rewrite IH. replace (o + Z.of_nat (S (length a))) with (o + 1 + Z.of_nat (length a)) by lia.
    destruct (_ && _); reflexivity.
Qed.
Lemma win_before {R} o (l : list R) r : snd r <= o -> win o l r = [].
Proof.
  revert o. induction l as [|x l IH]; intros o H; cbn [win]; [reflexivity|].
  destruct (o <? snd r) eqn:E; [lia|]. rewrite andb_false_r. apply IH. lia.
Qed.
Lemma win_after {R} o (l : list R) r : o + Z.of_nat (length l) <= fst r -> win o l r = [].
Proof.
  revert o. induction l as [|x l IH]; intros o H; cbn [win length] in *; [reflexivity|].
  destruct (fst r <=? o) eqn:E; [lia|]. cbn. apply IH. lia.
Qed.
Lemma win_firstn {R} o (l : list R) s e : s <= o -> win o l (s, e) = firstn (Z.to_nat (e - o)) l.
Proof.
  revert o. induction l as [|x l IH]; intros o H; cbn [win fst snd].
  - now rewrite firstn_nil.
  - replace (s <=? o) with true by lia. cbn [andb]. destruct (o <? e) eqn:E.
    + replace (Z.to_nat (e - o)) with (S (Z.to_nat (e - (o + 1)))) by lia. cbn [firstn]. f_equal. apply IH. lia.
    + replace (Z.to_nat (e - o)) with 0%nat by lia. cbn. rewrite win_before; [reflexivity|cbn; lia].
Qed.
Lemma win_skip {R} o (l : list R) s e :
  o <= s -> win o l (s, e) = firstn (Z.to_nat (e - s)) (skipn (Z.to_nat (s - o)) l).
Proof.
  revert o. induction l as [|x l IH]; intros o H.
  - cbn. now rewrite skipn_nil, firstn_nil.
  - destruct (Z.eq_dec o s) as [->|N].
    + rewrite win_firstn by lia. rewrite Z.sub_diag. reflexivity.
    + cbn [win fst]. replace (s <=? o) with false by lia. cbn [andb].
      replace (Z.to_nat (s - o)) with (S (Z.to_nat (s - (o + 1)))) by lia. cbn [skipn]. apply IH. lia.
Qed.
Lemma win_skipn {R} o (l : list R) p r :
  o <= p -> p <= fst r -> win o l r = win p (skipn (Z.to_nat (p - o)) l) r.
Proof.
  intros H1 H2. rewrite <- (firstn_skipn (Z.to_nat (p - o)) l) at 1. rewrite win_app.
  assert (L := firstn_length (Z.to_nat (p - o)) l).
  rewrite win_after by (rewrite L; lia). cbn [app].
  destruct (Nat.le_gt_cases (Z.to_nat (p - o)) (length l)) as [C|C].
  - f_equal. rewrite L. lia.
  - rewrite skipn_all2 by lia. reflexivity.
Qed.
Lemma win_length {R} o (l : list R) s e :
  o <= s <= e -> e <= o + Z.of_nat (length l) -> Z.of_nat (length (win o l (s, e))) = e - s.
Proof. intros H H1. rewrite win_skip by lia. rewrite firstn_length, skipn_length. lia. Qed.

(** ** delivers *)
Lemma delivers_gmap {R A} (parse : R -> res A) rows : delivers parse rows (gmap parse rows).
Proof.
  induction rows as [|x rows IH]; cbn [gmap].
  - left. now exists [].
  - destruct (parse x) as [a|e] eqn:E.
    + destruct IH as [(vals & H & ->)|(vals & e & rest & H & ->)]; cbn [fst snd].
      * left. exists (a :: vals). cbn. now rewrite E, H.
      * right. exists (a :: vals), e, rest. cbn. now rewrite E, H.
    + right. exists [], e, (map parse rows). cbn. now rewrite E.
Qed.
Lemma gmap_app {R A} (parse : R -> res A) a b : gmap parse (a ++ b) = gapp (gmap parse a) (gmap parse b).
Proof.
  induction a as [|x a IH]; cbn [app gmap].
  - unfold gapp. cbn. now destruct (gmap parse b).
  - destruct (parse x) as [v|e]; [|reflexivity]. rewrite IH. unfold gapp. cbn [fst snd].
    destruct (snd (gmap parse a)) eqn:E; cbn; [now rewrite E|reflexivity].
Qed.
Lemma gmap_total {R A} (f : R -> A) rows : gmap (fun x => Ok (f x)) rows = (map f rows, None).
Proof. induction rows as [|x rows IH]; cbn [gmap]; [reflexivity|]. now rewrite IH. Qed.
Lemma gmap_ext {R A} (p q : R -> res A) rows : (forall x, In x rows -> p x = q x) -> gmap p rows = gmap q rows.
Proof.
  induction rows as [|x rows IH]; intros H; cbn [gmap]; [reflexivity|].
  rewrite (H x) by now left. rewrite IH; [reflexivity|]. intros y Hy. apply H. now right.
Qed.
Lemma gmap_map {R S A} (p : S -> res A) (h : R -> S) rows : gmap p (map h rows) = gmap (fun x => p (h x)) rows.
Proof. induction rows as [|x rows IH]; cbn [gmap map]; [reflexivity|]. now rewrite IH. Qed.
Lemma gapp_nil_l {A} (g : gen A) : gapp ([], None) g = g.
Proof. unfold gapp. cbn. now destruct g. Qed.
Lemma gapp_nil_r {A} (g : gen A) : gapp g ([], None) = g.
Proof. destruct g as [l [e|]]; unfold gapp; cbn; [reflexivity|now rewrite app_nil_r]. Qed.
Lemma gapp_assoc {A} (a b c : gen A) : gapp (gapp a b) c = gapp a (gapp b c).
Proof.
  destruct a as [la [ea|]], b as [lb [eb|]], c as [lc ec]; unfold gapp; cbn; try reflexivity.
  now rewrite app_assoc.
Qed.

Lemma tidy_cons r rs : tidy (r :: rs) -> 0 <= fst r <= snd r /\ Forall (fun b => snd r <= fst b) rs /\ tidy rs.
Proof.
  intros [H1 H2]. inversion H1; subst. inversion H2; subst. repeat split; tauto.
Qed.

(** ** jsonl *)
Lemma jsonl_ranges_ok {A} (parse : str -> res A) rs : forall text last lstart,
  tidy rs -> 0 <= last -> Forall (fun r => last <= fst r) rs -> lstart <= last ->
  jsonl_ranges parse text last lstart rs = gmap parse (flat_map (win last text) rs).
Proof.
  induction rs as [|[s e] rs IH]; intros text last lstart T H0 HF Hl; [reflexivity|].
  destruct (tidy_cons _ _ T) as (W & F & T'). cbn [fst snd] in *. inversion HF as [|? ? Hs HF']; subst. cbn [fst] in Hs.
  cbn [jsonl_ranges flat_map].
  replace (s <? lstart) with false by lia. replace (last >? s) with false by lia.
  replace (e - s <? 0) with false by lia.
  assert (X : (if s >? last then skipn (Z.to_nat (s - last)) text else text) = skipn (Z.to_nat (s - last)) text).
  { destruct (s >? last) eqn:E; [reflexivity|]. replace (Z.to_nat (s - last)) with 0%nat by lia. reflexivity. }
  rewrite X. set (t := skipn _ text). cbn zeta. rewrite gmap_app. f_equal.
  - rewrite win_skip by lia. reflexivity.
  - rewrite IH; [|assumption|lia|assumption|lia]. f_equal. apply flat_map_ext_in.
    intros r Hr. rewrite Forall_forall in F. specialize (F r Hr).
    rewrite (win_skipn last text e) by lia. f_equal. unfold t. rewrite skipn_skipn. f_equal. lia.
Qed.
Lemma jsonl_read {A} (parse : str -> res A) text rs :
  tidy rs -> jsonl_read_file parse text rs = gmap parse (requested text rs).
Proof.
  intros T. unfold jsonl_read_file, requested. rewrite jsonl_ranges_ok; [|assumption|lia| |lia].
  - f_equal. apply flat_map_ext. intros r. symmetry. apply rows_in_win.
  - destruct T as [T _]. eapply Forall_impl; [|exact T]. cbn. lia.
Qed.

(** ranges that are not tidy are refused, after the tidy ones before them were delivered *)
Lemma jsonl_ranges_bad {A} (f : str -> A) rs : forall text last lstart,
  Forall (fun r => 0 <= fst r <= snd r) rs -> 0 <= last -> lstart <= last ->
  (tidy rs /\ Forall (fun r => last <= fst r) rs) \/
  exists pre post, rs = pre ++ post /\ post <> [] /\ tidy pre /\ Forall (fun r => last <= fst r) pre /\
    ~ (tidy (pre ++ firstn 1 post) /\ Forall (fun r => last <= fst r) (pre ++ firstn 1 post)) /\
    jsonl_ranges (fun x => Ok (f x)) text last lstart rs = (map f (flat_map (win last text) pre), Some RuntimeError).
Proof.
  induction rs as [|[s e] rs IH]; intros text last lstart W H0 Hl.
  { left. split; [split; constructor|constructor]. }
  inversion W as [|? ? We W']; subst. cbn [fst snd] in We.
  destruct (Z_lt_le_dec s last) as [C|C].
  - right. exists [], ((s, e) :: rs). split; [reflexivity|]. split; [discriminate|].
    split; [split; constructor|]. split; [constructor|]. split.
    + cbn. intros [_ X]. inversion X. cbn in *. lia.
    + cbn [jsonl_ranges]. destruct (s <? lstart); [reflexivity|]. replace (last >? s) with true by lia. reflexivity.
  - destruct (IH (skipn (Z.to_nat (e - s)) (skipn (Z.to_nat (s - last)) text)) e s W' ltac:(lia) ltac:(lia))
      as [[T F]|(pre & post & -> & Hp & T & F & N & J)].
    + left. split; [split|].
      * constructor; [cbn; lia|apply T].
      * constructor; [apply T|exact F].
      * constructor; [exact C|]. eapply Forall_impl; [|exact F]. cbn. lia.
    + right. exists ((s, e) :: pre), post. split; [reflexivity|]. split; [assumption|].
      split; [split|split; [|split]].
      * constructor; [cbn; lia|apply T].
      * constructor; [apply T|exact F].
      * constructor; [exact C|]. eapply Forall_impl; [|exact F]. cbn. lia.
      * intros [T2 F2]. apply N. cbn [app] in T2. destruct (tidy_cons _ _ T2) as (_ & A1 & A2). split; assumption.
      * cbn [jsonl_ranges flat_map].
        replace (s <? lstart) with false by lia. replace (last >? s) with false by lia.
        replace (e - s <? 0) with false by lia.
        assert (X : (if s >? last then skipn (Z.to_nat (s - last)) text else text)
                    = skipn (Z.to_nat (s - last)) text).
        { destruct (s >? last) eqn:E; [reflexivity|]. replace (Z.to_nat (s - last)) with 0%nat by lia. reflexivity. }
        rewrite X. cbn zeta. rewrite J, gmap_total. unfold gapp. cbn [fst snd]. rewrite map_app. f_equal. f_equal.
        { rewrite win_skip by lia. reflexivity. }
        { f_equal. apply flat_map_ext_in. intros r Hr. rewrite Forall_forall in F. specialize (F r Hr).
          rewrite (win_skipn last text e) by lia. f_equal. rewrite skipn_skipn. f_equal. lia. }
Qed.

(** ** parquet *)
Section Parquet.
  Context {R : Type} (batches : list R -> list (list R)).
  Hypothesis batches_ok : forall l, concat (batches l) = l.
  Variable groups : list (list R).

  Notation out := (parquet_rows batches groups).

  Lemma out_app a b : out (a ++ b) = out a ++ out b.
  Proof. unfold parquet_rows. now rewrite flat_map_app. Qed.

  (** the overlap of the current row group is the last entry *)
  Definition okm (i : Z) (m : list (Z * list range)) : Prop :=
    exists m0 last, m = m0 ++ last /\ Forall (fun e => fst e < i) m0 /\ (last = [] \/ exists rs, last = [(i, rs)]).

  Lemma aset_tail i (v : list range) m0 last : Forall (fun e => fst e < i) m0 ->
    aset Z.eqb i v (m0 ++ last) = m0 ++ aset Z.eqb i v last.
  Proof.
    induction m0 as [|[k w] m0 IH]; intros F; [reflexivity|]. inversion F; subst. cbn [fst app aset] in *.
    replace (i =? k) with false by lia. now rewrite IH.
  Qed.
  Lemma aget_tail i m0 (last : list (Z * list range)) : Forall (fun e => fst e < i) m0 ->
    aget Z.eqb i (m0 ++ last) = aget Z.eqb i last.
  Proof.
    induction m0 as [|[k w] m0 IH]; intros F; [reflexivity|]. inversion F; subst. cbn [fst app aget] in *.
    replace (i =? k) with false by lia. auto.
  Qed.
  Lemma add_overlap_ok i r m : okm i m ->
    okm i (add_overlap i r m) /\ out (add_overlap i r m) = out m ++ slice (fst r) (snd r - fst r) (row_group groups i).
  Proof.
    intros (m0 & last & -> & F & H). unfold add_overlap. rewrite aget_tail, aset_tail by assumption.
    destruct H as [->|[rs ->]]; cbn [aget aset].
    - split.
      + exists m0, [(i, [r])]. eauto 6.
      + rewrite !out_app. cbn [parquet_rows flat_map fst snd app]. rewrite batches_ok, !app_nil_r. reflexivity.
    - rewrite Z.eqb_refl. split.
      + exists m0, [(i, rs ++ [r])]. eauto 6.
      + rewrite !out_app, <- app_assoc. f_equal. cbn [parquet_rows flat_map fst snd app].
        rewrite flat_map_app. cbn [flat_map]. rewrite batches_ok, !app_nil_r. reflexivity.
  Qed.
  Lemma okm_next i m : okm i m -> okm (i + 1) m.
  Proof.
    intros (m0 & last & -> & F & H). exists (m0 ++ last), []. rewrite app_nil_r. split; [reflexivity|]. split; [|auto].
    apply Forall_app. split; [eapply Forall_impl; [|exact F]; cbn; lia|].
    destruct H as [->|[rs ->]]; [constructor|]. constructor; [cbn; lia|constructor].
  Qed.

  Definition table_of (k : nat) (o : Z) (gs : list (list R)) : list (Z * (Z * Z)) :=
    combine (map Z.of_nat (seq k (length gs))) (row_group_offsets o gs).
  Lemma table_cons k o g gs :
    table_of k o (g :: gs) = (Z.of_nat k, (o, o + Z.of_nat (length g))) :: table_of (S k) (o + Z.of_nat (length g)) gs.
  Proof. reflexivity. Qed.

  Lemma map_ranges_cons s e rest i a b rgs m :
    map_ranges ((s, e) :: rest) ((i, (a, b)) :: rgs) m =
    (if e <=? a then map_ranges rest ((i, (a, b)) :: rgs) m
     else if s >=? b then map_ranges ((s, e) :: rest) rgs m
     else let m := add_overlap i (Z.max s a - a, Z.min e b - a) m in
          if e <=? b then map_ranges rest ((i, (a, b)) :: rgs) m else map_ranges ((s, e) :: rest) rgs m).
  Proof. reflexivity. Qed.

  Lemma map_ranges_ok : forall rs gs k o m,
    tidy rs -> skipn k groups = gs -> okm (Z.of_nat k) m ->
    out (map_ranges rs (table_of k o gs) m) = out m ++ flat_map (win o (concat gs)) rs.
  Proof.
    induction rs as [|[s e] rest IHr].
    { intros gs k o m _ _ _. destruct (table_of k o gs); cbn; now rewrite app_nil_r. }
    induction gs as [|g gs IHg]; intros k o m T G M.
    { cbn [table_of length seq map combine row_group_offsets concat].
      change (map_ranges ((s, e) :: rest) [] m) with m.
      assert (Z0 : forall l, flat_map (win o (@nil R)) l = []) by (induction l; [reflexivity|assumption]).
      now rewrite Z0, app_nil_r. }
    destruct (tidy_cons _ _ T) as (W & F & T'). cbn [fst snd] in *.
    rewrite table_cons, map_ranges_cons, <- table_cons.
    assert (GN : skipn (S k) groups = gs).
    { replace (S k) with (1 + k)%nat by lia. rewrite <- skipn_skipn, G. reflexivity. }
    assert (GI : row_group groups (Z.of_nat k) = g).
    { unfold row_group. rewrite Nat2Z.id. rewrite <- (Nat.add_0_r k). rewrite <- (firstn_skipn k groups), G.
      assert (k <= length groups)%nat.
      { destruct (Nat.le_gt_cases k (length groups)); [assumption|]. rewrite skipn_all2 in G by lia. discriminate. }
      rewrite app_nth2; rewrite firstn_length; [|lia]. replace (k + 0 - Nat.min k (length groups))%nat with 0%nat by lia.
      reflexivity. }
    set (n := Z.of_nat (length g)) in *.
    assert (NX : forall m', okm (Z.of_nat k) m' -> out (map_ranges ((s, e) :: rest) (table_of (S k) (o + n) gs) m')
                 = out m' ++ flat_map (win (o + n) (concat gs)) ((s, e) :: rest)).
    { intros m' M'. apply (IHg (S k)); try assumption. replace (Z.of_nat (S k)) with (Z.of_nat k + 1) by lia.
      now apply okm_next. }
    assert (CW : forall r, win o (concat (g :: gs)) r = win o g r ++ win (o + n) (concat gs) r).
    { intros r. cbn [concat]. apply win_app. }
    destruct (e <=? o) eqn:E1; [|destruct (s >=? o + n) eqn:E2].
    - cbn [flat_map]. rewrite (win_before o _ (s, e)) by (cbn; lia). apply IHr; assumption.
    - rewrite NX by assumption. f_equal. apply flat_map_ext_in. intros r Hr. rewrite CW.
      rewrite (win_after o g); [reflexivity|]. fold n. destruct Hr as [<-|Hr]; [cbn; lia|].
      rewrite Forall_forall in F. specialize (F r Hr). lia.
    - cbn zeta. set (rr := (Z.max s o - o, Z.min e (o + n) - o)).
      destruct (add_overlap_ok (Z.of_nat k) rr m M) as [M' O]. rewrite GI in O.
      assert (SL : slice (fst rr) (snd rr - fst rr) g = win o g (s, e)).
      { unfold rr, slice. cbn [fst snd]. destruct (Z_le_gt_dec s o) as [C|C].
        - rewrite win_firstn by lia. rewrite Z.max_r by lia. replace (Z.to_nat (o - o)) with 0%nat by lia. cbn [skipn].
          destruct (Z_le_gt_dec e (o + n)).
          + rewrite Z.min_l by lia. f_equal. lia.
          + rewrite Z.min_r by lia. rewrite !firstn_all2 by lia. reflexivity.
        - rewrite win_skip by lia. rewrite Z.max_l by lia.
          destruct (Z_le_gt_dec e (o + n)).
          + rewrite Z.min_l by lia. f_equal. lia.
          + rewrite Z.min_r by lia. rewrite !firstn_all2 by (rewrite skipn_length; lia). reflexivity. }
      rewrite SL in O. destruct (e <=? o + n) eqn:E3.
      + rewrite IHr by assumption. rewrite O. cbn [flat_map]. rewrite CW, (win_before (o + n)) by (cbn; lia).
        now rewrite app_nil_r, <- app_assoc.
      + rewrite NX by assumption. rewrite O, <- app_assoc. f_equal. cbn [flat_map]. rewrite CW, <- app_assoc. f_equal.
        f_equal. apply flat_map_ext_in. intros r Hr. rewrite CW, (win_after o g); [reflexivity|].
        rewrite Forall_forall in F. specialize (F r Hr). fold n. lia.
  Qed.

  Lemma parquet_read_rows rs : tidy rs -> out (parquet_map groups rs) = requested (concat groups) rs.
  Proof.
    intros T. unfold parquet_map, requested.
    change (combine _ _) with (table_of 0 0 groups).
    rewrite (map_ranges_ok rs groups 0 0 []); [|assumption|reflexivity|].
    - cbn [app parquet_rows flat_map]. apply flat_map_ext. intros r. symmetry. apply rows_in_win.
    - exists [], []. repeat split; auto.
  Qed.

End Parquet.

  Lemma inform_from_ok {R} (bs : list (list R)) k : parquet_inform_from (Z.of_nat k) bs =
    combine (map Z.of_nat (seq k (length (concat bs)))) (concat bs).
  Proof.
    revert k. induction bs as [|b bs IH]; intros k; [reflexivity|]. cbn [parquet_inform_from concat].
    replace (Z.of_nat k + Z.of_nat (length b)) with (Z.of_nat (k + length b)) by lia. rewrite IH.
    generalize (concat bs) as c. intros c. clear. rewrite app_length, seq_app, map_app.
    assert (X : forall (l : list R) j, combine (map (fun q => Z.of_nat k + Z.of_nat q) (seq j (length l))) l =
                combine (map Z.of_nat (seq (k + j) (length l))) l).
    { induction l as [|x l IHl]; intros j; [reflexivity|]. cbn [length seq map combine].
      rewrite IHl. f_equal; [f_equal; lia|]. now replace (k + S j)%nat with (S (k + j)) by lia. }
    rewrite (X b 0%nat), Nat.add_0_r.
    clear X. revert k. induction b as [|x b IHb]; intros k; cbn [length seq map app combine].
    - now rewrite Nat.add_0_r.
    - f_equal. replace (k + S (length b))%nat with (S k + length b)%nat by lia. apply IHb.
  Qed.

(** ** web *)
Lemma gmap_zrange {R S A} (rows : list R) (h : R -> res S) (parse : S -> res A) (get : Z -> res S) s e :
  0 <= s <= e -> e <= Z.of_nat (length rows) ->
  (forall i x, 0 <= i -> nth_error rows (Z.to_nat i) = Some x -> get i = h x) ->
  gmap (fun i => match get i with Ok v => parse v | Err e => Err e end) (zrange s e) =
  gmap (fun x => match h x with Ok v => parse v | Err e => Err e end) (win 0 rows (s, e)).
Proof.
  intros H L G. rewrite win_skip by lia. rewrite Z.sub_0_r.
  remember (Z.to_nat (e - s)) as n eqn:En. revert s e H L En. induction n as [|n IH]; intros s e H L En.
  - rewrite zrange_nil by lia. reflexivity.
  - rewrite zrange_cons by lia.
    destruct (nth_error rows (Z.to_nat s)) as [x|] eqn:N.
    2:{ apply nth_error_None in N. lia. }
    assert (X : skipn (Z.to_nat s) rows = x :: skipn (Z.to_nat (s + 1)) rows).
    { clear - N H. replace (Z.to_nat (s + 1)) with (S (Z.to_nat s)) by lia. revert N. generalize (Z.to_nat s) as k.
      induction rows as [|y rows IHr]; intros [|k] N; cbn in *; try discriminate.
      - now injection N as ->.
      - now apply IHr. }
    rewrite X. cbn [firstn gmap]. rewrite (G s x) by (assumption || lia). rewrite (IH (s + 1) e) by lia. reflexivity.
Qed.
Section Web.
  Context {S A : Type} (decode : list (str * str) -> res S).
  Definition sample_of (g : list member) : res S := match tar_sample [] [] g with Ok s => decode s | Err e => Err e end.
  Lemma getitem_sample groups i x :
    0 <= i -> nth_error groups (Z.to_nat i) = Some x -> tar_getitem decode groups i = sample_of x.
  Proof. intros H N. unfold tar_getitem. replace (i <? 0) with false by lia. cbn zeta. replace (i <? 0) with false by lia. now rewrite N. Qed.
  Lemma web_ranges_ok (parse : S -> res A) groups rs : forall last lstart,
    tidy rs -> 0 <= last -> Forall (fun r => last <= fst r) rs -> lstart <= last ->
    Forall (fun r => snd r <= Z.of_nat (length groups)) rs ->
    web_ranges decode parse groups last lstart rs =
    gmap (fun g => match sample_of g with Ok s => parse s | Err e => Err e end) (flat_map (win 0 groups) rs).
  Proof.
    induction rs as [|[s e] rs IH]; intros last lstart T H0 HF Hl HB; [reflexivity|].
    destruct (tidy_cons _ _ T) as (W & F & T'). cbn [fst snd] in *. inversion HF as [|? ? Hs HF']; subst.
    inversion HB as [|? ? Hb HB']; subst. cbn [fst snd] in *.
    cbn [web_ranges flat_map]. replace (s <? lstart) with false by lia. replace (last >? s) with false by lia.
    rewrite gmap_app. f_equal.
    - apply (gmap_zrange groups sample_of parse); [lia|lia|]. intros i x Hi. now apply getitem_sample.
    - apply IH; try assumption; lia.
  Qed.
  Lemma web_read (parse : S -> res A) groups rs :
    tidy rs -> Forall (fun r => snd r <= Z.of_nat (length groups)) rs ->
    web_read_file decode parse groups rs =
    gmap (fun g => match sample_of g with Ok s => parse s | Err e => Err e end) (requested groups rs).
  Proof.
    intros T B. unfold web_read_file, requested. rewrite web_ranges_ok; [|assumption|lia| |lia|assumption].
    - f_equal. apply flat_map_ext. intros r. symmetry. apply rows_in_win.
    - destruct T as [T _]. eapply Forall_impl; [|exact T]. cbn. lia.
  Qed.
End Web.

(** ** local and remote lines *)
Lemma concat_lines t : concat (lines t) = t.
Proof.
  induction t as [|c t IH]; [reflexivity|]. cbn [lines]. destruct (c =? nl) eqn:E.
  - cbn. rewrite IH. f_equal. unfold nl in *. lia.
  - destruct (lines t) as [|l ls]; cbn in *; now rewrite <- IH.
Qed.
(** every line but possibly the last ends with a newline *)
Definition chop (l : str) : str := match rev l with c :: r => if c =? nl then rev r else l | [] => l end.
Lemma chop_cons c l : l <> [] -> c <> nl -> chop (c :: l) = c :: chop l.
Proof.
  intros H N. unfold chop. cbn [rev]. destruct (rev l) as [|x r] eqn:E.
  - apply (f_equal (@rev Z)) in E. rewrite rev_involutive in E. contradiction.
  - cbn [app]. destruct (x =? nl); [|reflexivity]. rewrite rev_app_distr. reflexivity.
Qed.
Lemma lines_nonempty t : Forall (fun l => l <> []) (lines t).
Proof.
  induction t as [|c t IH]; [constructor|]. cbn [lines]. destruct (c =? nl); [constructor; [discriminate|assumption]|].
  destruct (lines t) as [|l ls]; [repeat constructor; discriminate|]. inversion IH; subst. constructor; [discriminate|assumption].
Qed.
Lemma split_lines t : exists extra, split_nl t = map chop (lines t) ++ extra /\
  (extra = [] /\ t <> [] \/ extra = [[]] /\ (t = [] \/ exists u, t = u ++ [nl])).
Proof.
  induction t as [|c t IH].
  - exists [[]]. cbn. auto.
  - destruct IH as (extra & E & H). cbn [split_nl lines].
    assert (H' : (extra = [] /\ t <> []) \/ (extra = [[]] /\ (t = [] \/ exists u, t = u ++ [nl]))) by exact H. clear H.
    destruct (c =? nl) eqn:C.
    + exists extra. cbn [map app]. rewrite E. replace (chop [nl]) with (@nil Z) by reflexivity. split; [reflexivity|].
      destruct H' as [[-> N]|[-> N]]; [left; split; [reflexivity|discriminate]|right; split; [reflexivity|]].
      right. replace c with nl by (unfold nl in *; lia).
      destruct N as [->|[u ->]]; [exists []; reflexivity|exists (nl :: u); reflexivity].
    + assert (CN : c <> nl) by (unfold nl in *; lia). assert (LN := lines_nonempty t).
      destruct (lines t) as [|l ls] eqn:L.
      * assert (T : t = []) by (rewrite <- (concat_lines t), L; reflexivity).
        subst t. cbn in E. destruct H' as [[-> N]|[-> _]]; [congruence|].
        exists []. cbn [split_nl map app]. split; [|left; split; [reflexivity|discriminate]].
        unfold chop. cbn. replace (c =? nl) with false. reflexivity.
      * rewrite E. cbn [map app]. inversion LN; subst. exists extra. split.
        { rewrite chop_cons by assumption. reflexivity. }
        destruct H' as [[-> N]|[-> N]]; [left; split; [reflexivity|discriminate]|right; split; [reflexivity|]].
        right. destruct N as [->|[u ->]]; [cbn in L; discriminate|]. exists (c :: u). reflexivity.
Qed.
Lemma win_map {R S} (h : R -> S) o l r : win o (map h l) r = map h (win o l r).
Proof. revert o. induction l as [|x l IH]; intros o; cbn [map win]; [reflexivity|]. rewrite IH. now destruct (_ && _). Qed.
Lemma requested_server t rs :
  Forall (fun r => snd r <= Z.of_nat (length (lines t))) rs ->
  requested (split_nl t) rs = map chop (requested (lines t) rs).
Proof.
  intros B. destruct (split_lines t) as (extra & -> & _). unfold requested.
  induction rs as [|r rs IH]; [reflexivity|]. inversion B; subst. cbn [flat_map]. rewrite map_app, IH by assumption. f_equal.
  rewrite !rows_in_win, win_app, win_map, map_length. rewrite (win_before _ extra) by lia. apply app_nil_r.
Qed.

(** ** Lines *)
Lemma text_mode_line l : forall t, in_line l -> text_mode (l ++ t) = l ++ text_mode t.
Proof.
  induction l as [|c l IH]; intros t [H H']; [reflexivity|]. cbn [app text_mode]. replace (c =? cr) with false.
  - f_equal. apply IH. split; intros X; [apply H|apply H']; right; exact X.
  - symmetry. apply Z.eqb_neq. intros ->. apply H'. left. reflexivity.
Qed.
Lemma lines_line l : forall t, in_line l -> lines (l ++ 10 :: t) = (l ++ [10]) :: lines t.
Proof.
  induction l as [|c l IH]; intros t [H H']; [reflexivity|]. cbn [app lines]. replace (c =? nl) with false.
  - rewrite IH; [reflexivity|]. split; intros X; [apply H|apply H']; right; exact X.
  - symmetry. apply Z.eqb_neq. intros ->. apply H. left. reflexivity.
Qed.
Lemma lines_rest l : l <> [] -> in_line l -> lines l = [l].
Proof.
  induction l as [|c l IH]; intros N [H H']; [contradiction|]. cbn [lines]. replace (c =? nl) with false.
  - destruct l as [|c' l]; [reflexivity|]. rewrite IH; [reflexivity|discriminate|]. split; intros X; [apply H|apply H']; right; exact X.
  - symmetry. apply Z.eqb_neq. intros ->. apply H. left. reflexivity.
Qed.
Lemma text_lines_fun t ls : text_lines t ls -> ls = local_file_iterable t.
Proof.
  unfold local_file_iterable. induction 1 as [|l N P|l t ls P H IH|l t ls P H IH|l t ls P N H IH]; [reflexivity| | | |].
  - rewrite <- (app_nil_r l), text_mode_line by exact P. cbn [text_mode]. rewrite app_nil_r. symmetry. apply lines_rest; assumption.
  - rewrite text_mode_line by exact P. change (text_mode (10 :: t)) with (10 :: text_mode t). rewrite lines_line by exact P. rewrite IH. reflexivity.
  - rewrite text_mode_line by exact P. change (text_mode (13 :: 10 :: t)) with (10 :: text_mode t). rewrite lines_line by exact P. rewrite IH. reflexivity.
  - rewrite text_mode_line by exact P. assert (E : text_mode (13 :: t) = 10 :: text_mode t).
    { cbn [text_mode]. replace (13 =? cr) with true by reflexivity. destruct t as [|c t]; [reflexivity|]. cbn [hd] in N. replace (c =? nl) with false; [reflexivity|]. symmetry. apply Z.eqb_neq. exact N. }
    rewrite E, lines_line by exact P. rewrite IH. reflexivity.
Qed.
Lemma first_line t : in_line t \/ exists l c r, t = l ++ c :: r /\ in_line l /\ (c = 10 \/ c = 13).
Proof.
  induction t as [|c t IH]; [left; split; intros []|]. destruct (Z.eq_dec c 10) as [->|N]; [right; exists [], 10, t; repeat split; auto|]. destruct (Z.eq_dec c 13) as [->|N']; [right; exists [], 13, t; repeat split; auto|].
  destruct IH as [[H H']|(l & x & r & -> & [H H'] & C)].
  - left. split; intros [X|X]; auto.
  - right. exists (c :: l), x, r. split; [reflexivity|]. split; [|exact C]. split; intros [X|X]; auto.
Qed.
Lemma text_lines_ex t : text_lines t (local_file_iterable t).
Proof.
  assert (X : exists ls, text_lines t ls); [|destruct X as (ls & X); rewrite <- (text_lines_fun _ _ X); exact X].
  remember (length t) as n eqn:E. revert t E. induction n as [n IH] using (well_founded_induction lt_wf). intros t ->.
  destruct (first_line t) as [H|(l & c & r & -> & H & C)].
  - destruct t as [|c t]; [exists []; constructor|exists [c :: t]; constructor; [discriminate|exact H]].
  - assert (S : forall m : str, (length m <= length r)%nat -> exists ls, text_lines m ls) by (intros m Hm; apply (IH (length m)); [rewrite app_length; cbn [length]; lia|reflexivity]).
    destruct C as [->| ->].
    + destruct (S r (le_n _)) as (ls & L). eexists. apply tl_lf; eassumption.
    + destruct r as [|c r]; [eexists; apply (tl_cr l [] []); [exact H|cbn; lia|constructor]|]. destruct (Z.eq_dec c 10) as [->|N].
      * destruct (S r ltac:(cbn [length]; lia)) as (ls & L). eexists. apply tl_crlf; eassumption.
      * destruct (S (c :: r) (le_n _)) as (ls & L). eexists. apply tl_cr; [exact H|exact N|exact L].
Qed.
