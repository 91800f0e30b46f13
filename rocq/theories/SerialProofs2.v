(** Proofs about SerialModel: rebuilding the index from the loaded files. *)
From Verif Require Import Base MixtureKeyModel MixtureKeyProofs ChunkerModel ChunkerProofs ChunkerProofs2 IntervalModel IntervalProofs SerialModel SpecSerial SerialProofs.
Open Scope Z_scope.

Definition dsets : Type := list (Z * list (Z * list interval)).
(** ** Dict lookups by MixtureKey *)
Lemma same_key_self k : NoDup (akeys k) -> same_key k k = true.
Proof. intros H. unfold same_key. rewrite mkey_eqb_refl, key_eq_refl by exact H. reflexivity. Qed.
Lemma getd_same_key (idx : pindex) k ds : is_index idx -> In (k, ds) idx -> getd same_key k idx = ds.
Proof.
  intros (N & C & U & _) Hi. unfold getd. assert (Hk : In k (akeys idx)) by (apply (in_map fst) in Hi; exact Hi).
  enough (E : aget same_key k idx = Some ds) by (rewrite E; reflexivity).
  assert (C' : forall k', In k' (akeys idx) -> same_key k k' = true -> k' = k) by (intros k' Hk' E; apply same_key_canon in E; symmetry; apply C; assumption).
  assert (S := same_key_self k (U k Hk)). clear C U Hk. induction idx as [|[k1 d1] l IH]; [destruct Hi|]. cbn [aget]. inversion N as [|? ? N1 N2]; subst. destruct Hi as [E|Hi].
  - injection E as -> ->. rewrite S. reflexivity.
  - destruct (same_key k k1) eqn:E; [|apply IH; [exact N2|exact Hi|intros k' Hk'; apply C'; right; exact Hk']].
    apply C' in E; [|left; reflexivity]. subst k1. exfalso. apply N1. apply (in_map fst) in Hi. exact Hi.
Qed.

(** ** The tasks *)
Lemma in_save_tasks idx i d f iv : is_index idx ->
  (In (i, d, f, iv) (save_tasks idx) <-> exists k, nth_error (akeys idx) i = Some k /\ at_kdf idx k d f = Some iv).
Proof.
  intros W. unfold save_tasks. rewrite in_flat_map. split.
  - intros ([i' k] & He & Ht). cbn [fst snd] in Ht. apply in_enumerate in He. apply in_flat_map in Ht as ([d' fs] & Hd & Ht). apply in_map_iff in Ht as ([f' iv'] & E & Hf). cbn in E. injection E as -> -> -> ->.
    exists k. split; [exact He|]. assert (Hk : In k (akeys idx)) by (apply (nth_error_In _ _ He)). apply in_map_iff in Hk as ([k' ds] & Ek & Hk). cbn in Ek. subst k'.
    rewrite (getd_same_key idx k ds W Hk) in Hd. destruct W as (N & _ & _ & W). destruct (W k ds Hk) as [N2 W2]. assert (N3 := W2 d fs Hd).
    unfold at_kdf, at_kd, at_k. rewrite (in_aget _ mkey_eqb_spec _ _ _ N Hk), (in_aget _ Z.eqb_eq _ _ _ N2 Hd). apply (in_aget _ Z.eqb_eq _ _ _ N3 Hf).
  - intros (k & Hn & Ha). exists (i, k). split; [apply in_enumerate, Hn|]. cbn [fst snd]. unfold at_kdf, at_kd, at_k in Ha. destruct (aget mkey_eqb k idx) as [ds|] eqn:E1; [|discriminate Ha]. destruct (aget Z.eqb d ds) as [fs|] eqn:E2; [|discriminate Ha].
    apply (aget_in _ mkey_eqb_spec) in E1. apply (aget_in _ Z.eqb_eq) in E2, Ha. rewrite (getd_same_key idx k ds W E1). apply in_flat_map. exists (d, fs). split; [exact E2|]. apply in_map_iff. exists (f, iv). auto.
Qed.
Lemma NoDup_flat_map {A B} (g : A -> list B) l : NoDup l -> (forall x, In x l -> NoDup (g x)) -> (forall x y b, In x l -> In y l -> In b (g x) -> In b (g y) -> x = y) -> NoDup (flat_map g l).
Proof.
  induction 1 as [|x l H1 H2 IH]; intros G1 G2; [constructor|]. cbn. apply NoDup_app_iff. split; [apply G1; left; reflexivity|]. split.
  - apply IH; [intros y Hy; apply G1; right; exact Hy|intros y z b Hy Hz; apply G2; right; assumption].
  - intros b Hb Hc. apply in_flat_map in Hc as (y & Hy & Hc). assert (x = y) by (apply (G2 x y b); [left; reflexivity|right; exact Hy|exact Hb|exact Hc]). subst y. contradiction.
Qed.
Lemma NoDup_of_map {A B} (g : A -> B) l : NoDup (map g l) -> NoDup l.
Proof. apply NoDup_map_inv. Qed.
Lemma NoDup_tids idx : is_index idx -> NoDup (map tid (save_tasks idx)).
Proof.
  intros W. unfold save_tasks. rewrite flat_map_concat_map, concat_map, map_map, <- flat_map_concat_map. apply NoDup_flat_map.
  - apply (NoDup_of_map fst). rewrite akeys_enumerate. apply seq_NoDup.
  - intros [i k] He. cbn [fst snd]. apply in_enumerate in He. assert (Hk : In k (akeys idx)) by (apply (nth_error_In _ _ He)). apply in_map_iff in Hk as ([k' ds] & Ek & Hk). cbn in Ek. subst k'.
    rewrite (getd_same_key idx k ds W Hk). destruct W as (_ & _ & _ & W). destruct (W k ds Hk) as [N2 W2]. rewrite flat_map_concat_map, concat_map, map_map, <- flat_map_concat_map. apply NoDup_flat_map.
    + apply (NoDup_of_map fst), N2.
    + intros [d fs] Hd. cbn [fst snd]. rewrite map_map. cbn. assert (N3 := W2 d fs Hd). rewrite <- (map_map fst (fun f => (i, d, f))).
      clear - N3. induction N3 as [|f l H1 H2 IH]; [constructor|]. cbn. constructor; [|exact IH]. intros Hi. apply in_map_iff in Hi as (f' & [= <-] & Hi). contradiction.
    + intros [d fs] [d' fs'] b Hd Hd' Hb Hb'. cbn [fst snd] in *. apply in_map_iff in Hb as (t & <- & Ht). apply in_map_iff in Ht as (e & <- & _). apply in_map_iff in Hb' as (t' & E & Ht'). apply in_map_iff in Ht' as (e' & <- & _). cbn in E. injection E as E _. subst d'.
      f_equal. assert (X := in_aget _ Z.eqb_eq _ _ _ N2 Hd). rewrite (in_aget _ Z.eqb_eq _ _ _ N2 Hd') in X. injection X. auto.
  - intros [i k] [i' k'] b He He' Hb Hb'. cbn [fst snd] in *. apply in_map_iff in Hb as (t & <- & Ht). apply in_flat_map in Ht as (e & _ & Ht). apply in_map_iff in Ht as (g & <- & _).
    apply in_map_iff in Hb' as (t' & E & Ht'). apply in_flat_map in Ht' as (e' & _ & Ht'). apply in_map_iff in Ht' as (g' & <- & _). cbn in E. injection E as E _ _. subst i'. apply in_enumerate in He, He'. rewrite He in He'. injection He' as ->. reflexivity.
Qed.

(** ** Merging results *)
Definition put (d f : Z) (iv : list interval) (o : option dsets) : option dsets :=
  let ds := match o with None => [] | Some ds => ds end in Some (aset Z.eqb d (aset Z.eqb f iv (getd Z.eqb d ds)) ds).
Definition put_t (o : option dsets) (t : task) : option dsets := put (t_d t) (t_f t) (t_iv t) o.
Definition repr1 (e : mkey * option dsets) : pindex := match snd e with None => [] | Some ds => [(fst e, ds)] end.
Definition repr (keys : list mkey) (st : list (option dsets)) : list pindex := map repr1 (combine keys st).
Lemma aset_app_new {V} (d : Z) (x y : V) l : aget Z.eqb d l = None -> aset Z.eqb d x (l ++ [(d, y)]) = aset Z.eqb d x l.
Proof.
  induction l as [|[d' v] l IH]; intros H; cbn; [rewrite Z.eqb_refl; reflexivity|]. cbn in H. destruct (d =? d'); [discriminate H|]. f_equal. apply IH, H.
Qed.
Lemma put_eq d f (iv : list interval) (ds : dsets) : aset Z.eqb d (aset Z.eqb f iv (getd Z.eqb d (if amem Z.eqb d ds then ds else ds ++ [(d, [])]))) (if amem Z.eqb d ds then ds else ds ++ [(d, [])]) =
  aset Z.eqb d (aset Z.eqb f iv (getd Z.eqb d ds)) ds.
Proof.
  unfold amem. destruct (aget Z.eqb d ds) eqn:E; [reflexivity|]. rewrite aset_app_new by exact E. f_equal. f_equal. unfold getd. rewrite E.
  assert (X : aget Z.eqb d (ds ++ [(d, @nil (Z * list interval))]) = Some []).
  { clear - E. induction ds as [|[d' v] l IH]; cbn; [rewrite Z.eqb_refl; reflexivity|]. cbn in E. destruct (d =? d'); [discriminate E|apply IH, E]. }
  rewrite X. reflexivity.
Qed.
Lemma merge_one k (o : option dsets) d f (iv : list interval) : NoDup (akeys k) ->
  (let kd := if amem same_key k (repr1 (k, o)) then repr1 (k, o) else repr1 (k, o) ++ [(k, [])] in
   let ds := getd same_key k kd in
   let ds := if amem Z.eqb d ds then ds else ds ++ [(d, [])] in
   aset same_key k (aset Z.eqb d (aset Z.eqb f iv (getd Z.eqb d ds)) ds) kd) = repr1 (k, put d f iv o).
Proof.
  intros H. assert (S := same_key_self k H). unfold repr1, put. cbn [fst snd]. destruct o as [ds|].
  - cbv zeta. assert (P := put_eq d f iv ds). unfold amem, getd in P |- *. cbn [aget]. rewrite !S. cbn [aget]. rewrite !S. rewrite P. cbn [aset]. rewrite S. reflexivity.
  - cbv zeta. assert (P := put_eq d f iv []). unfold amem, getd in P |- *. cbn [aget app]. rewrite !S. cbn [aget app] in P |- *. rewrite P. cbn [aset]. rewrite S. reflexivity.
Qed.
Lemma upd_nth_map {A B} (g : A -> B) (u : B -> B) (v : A -> A) n l : (forall x, nth_error l n = Some x -> u (g x) = g (v x)) -> upd_nth n u (map g l) = map g (upd_nth n v l).
Proof.
  revert l. induction n as [|n IH]; intros [|x l] H; cbn; [reflexivity|rewrite (H x eq_refl); reflexivity|reflexivity|]. f_equal. apply IH. intros y Hy. apply H, Hy.
Qed.
Lemma combine_upd {A B} (ks : list A) (st : list B) n g : upd_nth n (fun e => (fst e, g (snd e))) (combine ks st) = combine ks (upd_nth n g st).
Proof. revert ks st. induction n as [|n IH]; intros [|k ks] [|x st]; cbn; try reflexivity. f_equal. apply IH. Qed.
Lemma nth_error_combine {A B} (ks : list A) (st : list B) n e : nth_error (combine ks st) n = Some e -> nth_error ks n = Some (fst e) /\ nth_error st n = Some (snd e).
Proof. revert ks st. induction n as [|n IH]; intros [|k ks] [|x st] H; cbn in H; try discriminate; [injection H as <-; auto|apply IH, H]. Qed.
Lemma merge_result_repr keys st t : (forall k, In k keys -> NoDup (akeys k)) -> merge_result keys (repr keys st) t = repr keys (upd_nth (t_i t) (fun o => put_t o t) st).
Proof.
  intros H. destruct t as [[[i d] f] iv]. unfold merge_result, repr. cbn [t_i]. rewrite (upd_nth_map repr1 _ (fun e => (fst e, put_t (snd e) (i, d, f, iv)))).
  - f_equal. apply (combine_upd keys st i (fun o => put_t o (i, d, f, iv))).
  - intros [k o] He. apply nth_error_combine in He as [Hk _]. cbn [fst snd] in *. assert (E : nth i keys [] = k) by (apply nth_error_nth, Hk). cbv beta zeta. unfold mkey in *. rewrite E. apply (merge_one k o d f iv). apply H, (nth_error_In _ _ Hk).
Qed.
Lemma fold_merge_repr keys R : (forall k, In k keys -> NoDup (akeys k)) -> forall st, fold_left (merge_result keys) R (repr keys st) = repr keys (fold_left (fun st t => upd_nth (t_i t) (fun o => put_t o t) st) R st).
Proof. intros H. induction R as [|t R IH]; intros st; [reflexivity|]. cbn [fold_left]. rewrite merge_result_repr by exact H. apply IH. Qed.
Lemma nth_error_upd {A} n m (g : A -> A) l : nth_error (upd_nth n g l) m = if Nat.eqb n m then option_map g (nth_error l m) else nth_error l m.
Proof.
  revert m l. induction n as [|n IH]; intros [|m] [|x l]; cbn; try reflexivity; [destruct (Nat.eqb n m); reflexivity|apply IH].
Qed.
Lemma nth_fold_upd R i : forall st : list (option dsets), nth_error (fold_left (fun st t => upd_nth (t_i t) (fun o => put_t o t) st) R st) i =
  option_map (fun o => fold_left put_t (filter (fun t => Nat.eqb (t_i t) i) R) o) (nth_error st i).
Proof.
  induction R as [|t R IH]; intros st; [cbn; destruct (nth_error st i); reflexivity|]. cbn [fold_left filter]. rewrite IH, nth_error_upd. destruct (Nat.eqb (t_i t) i); [destruct (nth_error st i); reflexivity|reflexivity].
Qed.

Definition olook (o : option dsets) (d f : Z) : option (list interval) :=
  match o with None => None | Some ds => match aget Z.eqb d ds with None => None | Some fs => aget Z.eqb f fs end end.
Lemma olook_put o t d f : olook (put_t o t) d f = if (d =? t_d t) && (f =? t_f t) then Some (t_iv t) else olook o d f.
Proof.
  unfold olook, put_t, put. rewrite (aget_aset _ Z.eqb_eq). set (ds := match o with None => [] | Some ds => ds end).
  assert (E : match o with None => None | Some ds0 => match aget Z.eqb d ds0 with None => None | Some fs => aget Z.eqb f fs end end = match aget Z.eqb d ds with None => None | Some fs => aget Z.eqb f fs end) by (destruct o; reflexivity).
  rewrite E. clearbody ds. clear E. rewrite (Z.eqb_sym d (t_d t)). destruct (t_d t =? d) eqn:Ed; cbn [andb]; [|reflexivity]. apply Z.eqb_eq in Ed. subst d.
  rewrite (aget_aset _ Z.eqb_eq), (Z.eqb_sym f). destruct (t_f t =? f); [reflexivity|]. unfold getd. destruct (aget Z.eqb (t_d t) ds); reflexivity.
Qed.
Lemma olook_fold R : forall o, NoDup (map (fun t => (t_d t, t_f t)) R) -> forall d f iv,
  olook (fold_left put_t R o) d f = Some iv <->
  (exists t, In t R /\ t_d t = d /\ t_f t = f /\ t_iv t = iv) \/ ((forall t, In t R -> (t_d t, t_f t) <> (d, f)) /\ olook o d f = Some iv).
Proof.
  induction R as [|t R IH]; intros o N d f iv; cbn [fold_left].
  - split; [intros H; right; split; [intros ? []|exact H]|]. intros [(t & [] & _)|[_ H]]. exact H.
  - cbn [map] in N. inversion N as [|? ? N1 N2]; subst. rewrite IH by exact N2. rewrite olook_put. destruct ((d =? t_d t) && (f =? t_f t)) eqn:E.
    + apply andb_true_iff in E as [E1 E2]. apply Z.eqb_eq in E1, E2. split.
      * intros [(u & Hu & X)|[_ X]]; [left; exists u; split; [right; exact Hu|exact X]|]. injection X as <-. left. exists t. split; [left; reflexivity|auto].
      * intros [(u & [<-|Hu] & X1 & X2 & X3)|[X _]].
        -- right. split; [|congruence]. intros u Hu Eu. apply N1. apply in_map_iff. exists u. split; [congruence|exact Hu].
        -- left. exists u. auto.
        -- exfalso. apply (X t (or_introl eq_refl)). congruence.
    + split.
      * intros [(u & Hu & X)|[X1 X2]]; [left; exists u; split; [right; exact Hu|exact X]|]. right. split; [|exact X2]. intros u [<-|Hu]; [|apply X1, Hu]. intros [= <- <-]. rewrite !Z.eqb_refl in E. discriminate E.
      * intros [(u & [<-|Hu] & X1 & X2 & X3)|[X1 X2]]; [subst; rewrite !Z.eqb_refl in E; discriminate E|left; exists u; auto|]. right. split; [intros u Hu; apply X1; right; exact Hu|exact X2].
Qed.
Definition tidy (ds : dsets) : Prop := NoDup (akeys ds) /\ ds <> [] /\ (forall d fs, In (d, fs) ds -> NoDup (akeys fs) /\ fs <> []).
Definition otidy (o : option dsets) : Prop := match o with None => True | Some ds => tidy ds end.
Lemma put_tidy o t : otidy o -> otidy (put_t o t).
Proof.
  intros H. unfold put_t, put. set (ds := match o with None => [] | Some ds => ds end). cbn [otidy].
  assert (W : NoDup (akeys ds) /\ (forall d fs, In (d, fs) ds -> NoDup (akeys fs) /\ fs <> [])) by (unfold ds; destruct o; [split; apply H|split; [constructor|intros ? ? []]]).
  clearbody ds. destruct W as [W1 W2]. split; [apply (NoDup_akeys_aset _ Z.eqb_eq), W1|]. split; [apply aset_nonnil|]. intros d fs Hi. apply in_aset in Hi as [->|Hi]; [|apply (W2 _ _ Hi)].
  split; [|apply aset_nonnil]. apply (NoDup_akeys_aset _ Z.eqb_eq). unfold getd. destruct (aget Z.eqb (t_d t) ds) eqn:E; [|constructor]. apply (aget_in _ Z.eqb_eq) in E. apply (W2 _ _ E).
Qed.
Lemma fold_tidy R : forall o, otidy o -> otidy (fold_left put_t R o).
Proof. induction R as [|t R IH]; intros o H; [exact H|]. cbn. apply IH, put_tidy, H. Qed.
Lemma fold_none R : forall o, fold_left put_t R o = None <-> R = [] /\ o = None.
Proof. induction R as [|t R IH]; intros o; [cbn; tauto|]. cbn [fold_left]. rewrite IH. unfold put_t at 1, put. split; [intros [_ X]; discriminate X|intros [X _]; discriminate X]. Qed.

(** ** Combining *)
Lemma combine_keys_eq l : forall acc, NoDup (akeys l) -> (forall k k', In k (akeys l) -> In k' (akeys l) -> same_key k k' = true -> k = k') ->
  (forall k q, In k (akeys l) -> In q (akeys acc) -> same_key k q = false) ->
  fold_left (fun acc kd => fold_left (fun acc e => aset same_key (fst e) (snd e) acc) kd acc) (map repr1 l) acc = acc ++ flat_map repr1 l.
Proof.
  induction l as [|[k o] l IH]; intros acc N C H; [rewrite app_nil_r; reflexivity|]. inversion N as [|? ? N1 N2]; subst. cbn [map fold_left flat_map].
  assert (IH' := fun acc' => IH acc' N2 (fun a b Ha Hb => C a b (or_intror Ha) (or_intror Hb))). unfold repr1 at 2 4. cbn [fst snd]. destruct o as [ds|].
  - cbn [fold_left fst snd]. rewrite (aset_fresh same_key) by (intros q Hq; apply H; [left; reflexivity|exact Hq]). rewrite IH'; [rewrite <- app_assoc; reflexivity|]. intros a q Ha Hq. rewrite map_app in Hq. apply in_app_or in Hq as [Hq|[<-|[]]]; [apply H; [right; exact Ha|exact Hq]|].
    cbn [fst]. destruct (same_key a k) eqn:E; [|reflexivity]. apply C in E; [|right; exact Ha|left; reflexivity]. subst a. contradiction.
  - cbn [fold_left app]. apply IH'. intros a q Ha Hq. apply H; [right; exact Ha|exact Hq].
Qed.
Lemma akeys_combine {A B} (ks : list A) (st : list B) : length st = length ks -> akeys (combine ks st) = ks.
Proof. revert st. induction ks as [|k ks IH]; intros [|x st] H; try discriminate H; [reflexivity|]. cbn. f_equal. apply IH. injection H. auto. Qed.
Lemma aget_repr l k : NoDup (akeys l) -> aget mkey_eqb k (flat_map repr1 l) = match aget mkey_eqb k l with Some o => o | None => None end.
Proof.
  induction l as [|[k' o] l IH]; intros N; [reflexivity|]. inversion N as [|? ? N1 N2]; subst. cbn [flat_map aget]. unfold repr1 at 1. cbn [fst snd]. destruct o as [ds|]; cbn [app aget].
  - destruct (mkey_eqb k k'); [reflexivity|apply IH, N2].
  - rewrite IH by exact N2. destruct (mkey_eqb k k') eqn:E; [|reflexivity]. apply mkey_eqb_spec in E. subst k'. rewrite (proj2 (aget_none _ mkey_eqb_spec k l) N1). reflexivity.
Qed.
Lemma upd_nth_length {A} n (g : A -> A) l : length (upd_nth n g l) = length l.
Proof. revert l. induction n as [|n IH]; intros [|x l]; cbn; try reflexivity. f_equal. apply IH. Qed.

(** what the loaded index is *)
Definition has_file (ds : list (Z * list (Z * list interval))) : bool := existsb (fun df => match snd df with [] => false | _ => true end) ds.
Lemma roundtrip idx order results : is_index idx -> Permutation order (save_tasks idx) -> Permutation results order ->
  let p := combine_keys (fold_left (merge_result (akeys idx)) results (map (fun _ => []) (akeys idx))) in
  is_index p /\ no_empty p /\ akeys p = akeys (filter (fun e => has_file (snd e)) idx) /\ (forall k d f, at_kdf p k d f = at_kdf idx k d f).
Proof.
  intros W P1 P2 p. assert (W0 := W). destruct W as (N & C & U & W). set (keys := akeys idx) in *.
  assert (Hn : NoDup (map tid results)). { apply (Permutation_NoDup (Permutation_map tid (Permutation_sym (Permutation_trans P2 P1)))), NoDup_tids, W0. }
  assert (Hin : forall i d f iv, In (i, d, f, iv) results <-> exists k, nth_error keys i = Some k /\ at_kdf idx k d f = Some iv).
  { intros i d f iv. assert (X := in_save_tasks idx i d f iv W0). etransitivity; [|exact X]. split; apply Permutation_in; [apply (Permutation_trans P2 P1)|apply Permutation_sym, (Permutation_trans P2 P1)]. }
  set (st0 := map (fun _ => @None dsets) keys).
  set (st := fold_left (fun st t => upd_nth (t_i t) (fun o => put_t o t) st) results st0).
  assert (L : length st = length keys).
  { unfold st. assert (G : forall R s, length (fold_left (fun st t => upd_nth (t_i t) (fun o => put_t o t) st) R s) = length s) by (induction R as [|t R IH]; intros s; [reflexivity|cbn; rewrite IH; apply upd_nth_length]). rewrite G. unfold st0. apply map_length. }
  assert (Ep : p = flat_map repr1 (combine keys st)).
  { unfold p. assert (R0 : map (fun _ => []) keys = repr keys st0) by (unfold repr, st0; clear; induction keys as [|k l IH]; [reflexivity|cbn; f_equal; exact IH]). rewrite R0, fold_merge_repr by exact U. unfold combine_keys, repr. fold st.
    rewrite (combine_keys_eq (combine keys st) []); [reflexivity|rewrite akeys_combine by exact L; exact N| |intros ? ? _ []]. rewrite akeys_combine by exact L. intros k k' Hk Hk' E. apply C; [assumption|assumption|apply same_key_canon, E]. }
  set (Ri := fun i => filter (fun t => Nat.eqb (t_i t) i) results).
  assert (Hst : forall i k, nth_error keys i = Some k -> nth_error st i = Some (fold_left put_t (Ri i) None)).
  { intros i k Hk. unfold st. rewrite nth_fold_upd. unfold st0. rewrite nth_error_map, Hk. reflexivity. }
  assert (HRi : forall i, NoDup (map (fun t => (t_d t, t_f t)) (Ri i))).
  { intros i. unfold Ri. clear - Hn. induction results as [|t R IH]; [constructor|]. cbn [map] in Hn. inversion Hn as [|? ? H1 H2]; subst. cbn [filter]. destruct (Nat.eqb (t_i t) i) eqn:E; [|apply IH, H2].
    cbn [map]. constructor; [|apply IH, H2]. intros Hi. apply in_map_iff in Hi as (u & Eu & Hu). apply filter_In in Hu as [Hu Eu2]. apply Nat.eqb_eq in E, Eu2. apply H1. apply in_map_iff. exists u. split; [|exact Hu].
    destruct t as [[[i1 d1] f1] v1], u as [[[i2 d2] f2] v2]. cbn in *. congruence. }
  assert (Hcomb : forall k o, In (k, o) (combine keys st) -> exists i, nth_error keys i = Some k /\ o = fold_left put_t (Ri i) None).
  { intros k o Hi. apply In_nth_error in Hi as (i & Hi). apply nth_error_combine in Hi as [H1 H2]. cbn in H1, H2. exists i. split; [exact H1|]. rewrite (Hst i k H1) in H2. injection H2. auto. }
  assert (NC : NoDup (akeys (combine keys st))) by (rewrite akeys_combine by exact L; exact N).
  assert (Hget : forall i k, nth_error keys i = Some k -> at_k p k = fold_left put_t (Ri i) None).
  { intros i k Hk. unfold at_k. rewrite Ep, aget_repr by exact NC. assert (Hi : In k (akeys (combine keys st))) by (rewrite akeys_combine by exact L; apply (nth_error_In _ _ Hk)).
    apply (aget_some_in _ mkey_eqb_spec) in Hi as (o & Eo). rewrite Eo. apply (aget_in _ mkey_eqb_spec) in Eo. destruct (Hcomb k o Eo) as (j & Hj & ->).
    assert (i = j); [|subst; reflexivity]. apply (NoDup_nth_error keys); [exact N|apply nth_error_Some; rewrite Hk; discriminate|congruence]. }
  assert (Hinp : forall k ds, In (k, ds) p -> In (k, Some ds) (combine keys st)).
  { intros k ds Hi. rewrite Ep in Hi. apply in_flat_map in Hi as ([k' o] & Ho & Hi). unfold repr1 in Hi. cbn in Hi. destruct o as [ds'|]; [|destruct Hi]. destruct Hi as [[= -> ->]|[]]. exact Ho. }
  assert (Hkp : forall l, akeys (flat_map repr1 l) = akeys (filter (fun e => match snd e with None => false | Some _ => true end) l)).
  { clear. induction l as [|[k [ds|]] l IH]; [reflexivity| |]; cbn; rewrite IH; reflexivity. }
  assert (Hkk : forall k, In k (akeys p) -> In k keys).
  { intros k Hk. apply in_map_iff in Hk as ([k' ds] & E & Hk). cbn in E. subst k'. apply Hinp in Hk. apply (in_map fst) in Hk. rewrite akeys_combine in Hk by exact L. exact Hk. }
  assert (T : forall k ds, In (k, ds) p -> tidy ds).
  { intros k ds Hi. apply Hinp, Hcomb in Hi as (i & _ & Eo). assert (X := fold_tidy (Ri i) None I). rewrite <- Eo in X. exact X. }
  split; [|split; [|split]].
  - split; [|split; [|split]].
    + rewrite Ep, Hkp. assert (X : forall g (l : list (mkey * option dsets)), NoDup (akeys l) -> NoDup (akeys (filter g l))); [|apply X, NC].
      clear. intros g l. induction l as [|[k o] l IH]; intros H; [constructor|]. inversion H as [|? ? H1 H2]; subst. cbn [filter]. destruct (g (k, o)); [|apply IH, H2]. cbn. constructor; [|apply IH, H2].
      intros Hi. apply H1. apply in_map_iff in Hi as (e & E & Hi). apply filter_In in Hi as [Hi _]. apply in_map_iff. exists e. auto.
    + intros k k' Hk Hk'. apply C; apply Hkk; assumption.
    + intros k Hk. apply U, Hkk, Hk.
    + intros k ds Hi. destruct (T k ds Hi) as (T1 & _ & T2). split; [exact T1|]. intros d fs Hd. apply (T2 d fs Hd).
  - intros k ds Hi. destruct (T k ds Hi) as (_ & T1 & T2). split; [exact T1|]. intros d fs Hd. apply (T2 d fs Hd).
  - rewrite Ep, Hkp.
    assert (G : forall (l1 : list (mkey * option dsets)) (l2 : pindex), akeys l1 = akeys l2 -> (forall i e1 e2, nth_error l1 i = Some e1 -> nth_error l2 i = Some e2 -> match snd e1 with None => false | Some _ => true end = has_file (snd e2)) ->
      akeys (filter (fun e => match snd e with None => false | Some _ => true end) l1) = akeys (filter (fun e => has_file (snd e)) l2)).
    { clear. induction l1 as [|e1 l1 IH]; intros [|e2 l2] E H; try discriminate E; [reflexivity|]. cbn [map] in E. apply cons_inj in E as [E1 E2]. cbn [filter]. rewrite (H O e1 e2 eq_refl eq_refl). assert (IH' := IH l2 E2 (fun i => H (S i))).
      destruct (has_file (snd e2)); [|exact IH']. cbn [map]. rewrite E1. f_equal. exact IH'. }
    apply G; [rewrite akeys_combine by exact L; reflexivity|]. intros i [k o] [k' ds] H1 H2. apply nth_error_combine in H1 as [H1 H3]. cbn [fst snd] in *.
    assert (Hk' : nth_error keys i = Some k') by (unfold keys; rewrite nth_error_map, H2; reflexivity). rewrite H1 in Hk'. injection Hk' as <-. rewrite (Hst i k H1) in H3. injection H3 as <-.
    assert (Hi := nth_error_In _ _ H2). assert (Ek : at_k idx k = Some ds) by (apply (in_aget _ mkey_eqb_spec); [exact N|exact Hi]).
    destruct (fold_left put_t (Ri i) None) eqn:E.
    + destruct (Ri i) as [|t R] eqn:ER; [discriminate E|]. assert (Ht : In t (Ri i)) by (rewrite ER; left; reflexivity). apply filter_In in Ht as [Ht Et]. apply Nat.eqb_eq in Et. destruct t as [[[i' d'] f'] iv']. cbn in Et. subst i'.
      apply Hin in Ht as (k2 & Hk2 & Ha). rewrite H1 in Hk2. injection Hk2 as <-. unfold at_kdf, at_kd in Ha. rewrite Ek in Ha. destruct (aget Z.eqb d' ds) as [fs|] eqn:Ed; [|discriminate Ha]. apply (aget_in _ Z.eqb_eq) in Ed.
      symmetry. apply existsb_exists. exists (d', fs). split; [exact Ed|]. cbn. destruct fs; [discriminate Ha|reflexivity].
    + apply fold_none in E as [E _]. symmetry. destruct (has_file ds) eqn:Eh; [|reflexivity]. apply existsb_exists in Eh as ([d' fs] & Hd & Hf). cbn in Hf. destruct fs as [|[f' iv'] fs]; [discriminate Hf|].
      destruct (W k ds Hi) as [W1 _]. assert (Ht : In (i, d', f', iv') results). { apply Hin. exists k. split; [exact H1|]. unfold at_kdf, at_kd. rewrite Ek, (in_aget _ Z.eqb_eq _ _ _ W1 Hd). cbn [aget]. rewrite Z.eqb_refl. reflexivity. }
      assert (X : In (i, d', f', iv') (Ri i)) by (apply filter_In; split; [exact Ht|apply Nat.eqb_refl]). rewrite E in X. destruct X.
  - intros k d f. destruct (at_k idx k) as [ds|] eqn:Ek.
    + assert (Hi : In k keys) by (apply (aget_in _ mkey_eqb_spec), (in_map fst) in Ek; exact Ek). apply In_nth_error in Hi as (i & Hi).
      assert (E : at_kdf p k d f = olook (fold_left put_t (Ri i) None) d f). { unfold at_kdf, at_kd. rewrite (Hget i k Hi). destruct (fold_left put_t (Ri i) None); reflexivity. }
      rewrite E. assert (X : forall iv, olook (fold_left put_t (Ri i) None) d f = Some iv <-> at_kdf idx k d f = Some iv).
      { intros iv. rewrite olook_fold by apply HRi. split.
        - intros [(t & Ht & E1 & E2 & E3)|[_ X]]; [|discriminate X]. apply filter_In in Ht as [Ht Et]. apply Nat.eqb_eq in Et. destruct t as [[[i' d'] f'] iv']. cbn in *. subst. apply Hin in Ht as (k2 & Hk2 & Ha). rewrite Hi in Hk2. injection Hk2 as <-. exact Ha.
        - intros Ha. left. exists (i, d, f, iv). split; [|auto]. apply filter_In. split; [apply Hin; exists k; auto|apply Nat.eqb_refl]. }
      destruct (olook (fold_left put_t (Ri i) None) d f) as [iv|] eqn:Eo; [symmetry; apply X; reflexivity|]. destruct (at_kdf idx k d f) as [iv|] eqn:Ea; [|reflexivity]. assert (Y := proj2 (X iv) eq_refl). discriminate Y.
    + unfold at_kdf, at_kd. rewrite Ek. destruct (at_k p k) as [ds|] eqn:E; [|reflexivity]. apply (aget_in _ mkey_eqb_spec), (in_map fst), Hkk in E. exfalso. apply (proj1 (aget_none _ mkey_eqb_spec k idx) Ek). exact E.
Qed.
