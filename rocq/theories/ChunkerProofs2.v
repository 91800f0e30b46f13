(** Proofs about ChunkerModel: key strings, the Python index and the whole call. *)
From Verif Require Import Base MixtureKeyModel MixtureKeyProofs ChunkerModel SpecChunker ChunkerProofs.
Open Scope Z_scope.

(** ** Key strings *)
Definition piece (kv : str * list str) : str := fst kv ++ colon :: join comma (snd kv).
Definition kstr (k : mkey) : str := join semicolon (map piece k).

Lemma row_key_from_combo cols : forall cells first key, ~ In VBad cells ->
  row_key_from first key cols cells =
  Some (match combo cols cells with [] => key | _ => key ++ (if first then [] else [semicolon]) ++ kstr (combo cols cells) end).
Proof.
  induction cols as [|col cols IH]; intros [|c cells] first key H; cbn [row_key_from combo]; try reflexivity.
  assert (Hc : c <> VBad) by (intros ->; apply H; left; reflexivity). assert (Hr : ~ In VBad cells) by (intros Hi; apply H; right; exact Hi).
  assert (G : forall vs, row_key_from false ((if first then key else key ++ [semicolon]) ++ col ++ colon :: join comma vs) cols cells =
    Some (key ++ (if first then [] else [semicolon]) ++ kstr ((col, vs) :: combo cols cells))).
  { intros vs. rewrite IH by exact Hr. f_equal. change (col ++ colon :: join comma vs) with (piece (col, vs)). unfold kstr. destruct (combo cols cells) as [|kv l] eqn:E.
    - cbn [map join]. destruct first; [reflexivity|]. rewrite <- app_assoc. reflexivity.
    - change (join semicolon (map piece ((col, vs) :: kv :: l))) with (piece (col, vs) ++ semicolon :: join semicolon (map piece (kv :: l))).
      destruct first; cbn [app]; rewrite <- ?app_assoc; cbn [app]; reflexivity. }
  destruct c as [|s|l|]; cbn [cell_vals cell_str]; [apply IH, Hr|apply (G [s])|apply (G (non_null l))|congruence].
Qed.
Lemma row_key_combo cols r : ~ In VBad (tr_cells r) -> row_key cols r = Some (kstr (combo cols (tr_cells r))).
Proof. intros H. unfold row_key. rewrite row_key_from_combo by exact H. destruct (combo cols (tr_cells r)); reflexivity. Qed.
Lemma row_key_bad cols : forall cells first key, length cells = length cols -> In VBad cells -> row_key_from first key cols cells = None.
Proof.
  induction cols as [|col cols IH]; intros [|c cells] first key L H; try discriminate L; [destruct H|]. cbn in L. injection L as L. cbn [row_key_from].
  destruct H as [->|H]; [reflexivity|]. destruct c; cbn [cell_str]; try (apply IH; assumption). reflexivity.
Qed.
Lemma VBad_dec (l : list vcell) : In VBad l \/ ~ In VBad l.
Proof.
  induction l as [|c l IH]; [right; intros []|]. destruct IH as [IH|IH]; [left; right; exact IH|]. destruct c; try (right; intros [X|X]; [discriminate|contradiction]). left. left. reflexivity.
Qed.
Lemma row_fine_iff cols r : length (tr_cells r) = length cols -> (row_fine cols r = true <-> row_ok r).
Proof.
  intros L. unfold row_fine, row_ok. destruct (VBad_dec (tr_cells r)) as [B|B].
  - unfold row_key. rewrite row_key_bad by assumption. split; [discriminate|intros [X _]; contradiction].
  - rewrite row_key_combo by exact B. rewrite negb_true_iff, Z.ltb_ge. tauto.
Qed.

Lemma getlines_from_app sep a : forall cur s, ~ In sep a -> getlines_from sep cur (a ++ sep :: s) = (cur ++ a) :: getlines_from sep [] s.
Proof.
  induction a as [|c a IH]; intros cur s H; cbn [app getlines_from].
  - rewrite Z.eqb_refl, app_nil_r. reflexivity.
  - assert (E : c =? sep = false) by (apply Z.eqb_neq; intros ->; apply H; left; reflexivity). rewrite E, IH by (intros Hi; apply H; right; exact Hi). rewrite <- app_assoc. reflexivity.
Qed.
Lemma getlines_from_end sep a : forall cur, ~ In sep a -> getlines_from sep cur a = match cur ++ a with [] => [] | _ => [cur ++ a] end.
Proof.
  induction a as [|c a IH]; intros cur H; cbn [getlines_from]; [rewrite app_nil_r; reflexivity|].
  assert (E : c =? sep = false) by (apply Z.eqb_neq; intros ->; apply H; left; reflexivity). rewrite E, IH by (intros Hi; apply H; right; exact Hi). rewrite <- app_assoc. reflexivity.
Qed.
Lemma getlines_join sep l : (forall x, In x l -> ~ In sep x) -> last l [0] <> [] -> getlines sep (join sep l) = l.
Proof.
  unfold getlines. induction l as [|x [|y l] IH]; intros H1 H2; [reflexivity| |].
  - cbn [join]. rewrite getlines_from_end by (apply H1; left; reflexivity). cbn in *. destruct x; [contradiction|reflexivity].
  - change (join sep (x :: y :: l)) with (x ++ sep :: join sep (y :: l)). rewrite getlines_from_app by (apply H1; left; reflexivity). cbn [app]. f_equal.
    apply IH; [intros z Hz; apply H1; right; exact Hz|exact H2].
Qed.
Lemma split_colon_spec n v : ~ In colon n -> split_colon (n ++ colon :: v) = Some (n, v).
Proof.
  induction n as [|c n IH]; intros H; cbn [app split_colon]; [rewrite Z.eqb_refl; reflexivity|].
  assert (E : c =? colon = false) by (apply Z.eqb_neq; intros ->; apply H; left; reflexivity). rewrite E, IH by (intros Hi; apply H; right; exact Hi). reflexivity.
Qed.
Lemma last_map_nonnil {A} (g : A -> str) l : (forall x, g x <> []) -> last (map g l) [0] <> [].
Proof. intros H. induction l as [|x [|y l] IH]; [discriminate|apply H|exact IH]. Qed.
Lemma in_join sep c l : In c (join sep l) -> c = sep \/ exists x, In x l /\ In c x.
Proof.
  induction l as [|x [|y l] IH]; intros H; [destruct H|right; exists x; split; [left; reflexivity|exact H]|].
  change (join sep (x :: y :: l)) with (x ++ sep :: join sep (y :: l)) in H. apply in_app_or in H as [H|[H|H]].
  - right. exists x. split; [left; reflexivity|exact H].
  - left. auto.
  - destruct (IH H) as [E|(z & Hz & Hc)]; [left; exact E|]. right. exists z. split; [right; exact Hz|exact Hc].
Qed.
Definition clean_key (k : mkey) : Prop := NoDup (akeys k) /\ (forall n vs, In (n, vs) k -> clean_name n /\ clean_vals vs).
Lemma key_props_kstr k : clean_key k -> key_props (kstr k) = k.
Proof.
  intros [Hn Hc]. unfold key_props, kstr. rewrite getlines_join.
  - assert (G : forall l acc, NoDup (akeys (acc ++ l)) -> (forall n vs, In (n, vs) l -> clean_name n /\ clean_vals vs) ->
      fold_left (fun props p => match split_colon p with None => props | Some (name, vs) => aset str_eqb name (getlines comma vs) props end) (map piece l) acc = acc ++ l).
    { induction l as [|[n vs] l IH]; intros acc N C; [rewrite app_nil_r; reflexivity|]. cbn [map fold_left]. unfold piece at 2. cbn [fst snd].
      destruct (C n vs (or_introl eq_refl)) as [[C1 C2] [C3 C4]]. rewrite split_colon_spec by exact C2. rewrite getlines_join; [|intros x Hx; apply C3, Hx|exact C4].
      rewrite (aset_perm_new str_eqb).
      - rewrite IH; [rewrite <- app_assoc; reflexivity|rewrite <- app_assoc; exact N|intros; apply C; right; assumption].
      - apply (aget_none _ str_eqb_spec). rewrite map_app in N. cbn in N. apply NoDup_remove_2 in N. intros Hi. apply N, in_or_app. left. exact Hi. }
    apply (G k []); assumption.
  - intros x Hx. apply in_map_iff in Hx as ([n vs] & <- & Hi). destruct (Hc n vs Hi) as [[C1 C2] [C3 C4]]. unfold piece. cbn [fst snd]. intros H.
    apply in_app_or in H as [H|[H|H]]; [contradiction|discriminate H|]. apply in_join in H as [H|(z & Hz & H)]; [discriminate H|]. apply (proj1 (C3 z Hz)), H.
  - apply last_map_nonnil. intros [n vs]. unfold piece. cbn. destruct n; discriminate.
Qed.
Lemma combo_names cols : forall cells n vs, In (n, vs) (combo cols cells) -> In n cols.
Proof.
  induction cols as [|c cols IH]; intros [|x cells] n vs H; try destruct H. cbn in H. destruct (cell_vals x); [destruct H as [[= <- <-]|H]; [left; reflexivity|]|]; right; apply (IH cells n vs H).
Qed.
Lemma combo_nodup cols : forall cells, NoDup cols -> NoDup (akeys (combo cols cells)).
Proof.
  induction cols as [|c cols IH]; intros [|x cells] H; try constructor. cbn. inversion H as [|? ? H1 H2]; subst. destruct (cell_vals x); [|apply IH, H2]. cbn. constructor; [|apply IH, H2].
  intros Hi. apply in_map_iff in Hi as ([n vs] & E & Hi). cbn in E. subst n. apply H1, (combo_names _ _ _ _ Hi).
Qed.
Lemma clean_combo cols rows r : clean cols rows -> In r rows -> clean_key (combo cols (tr_cells r)).
Proof.
  intros (H1 & H2 & H3) Hr. split; [apply combo_nodup, H1|]. intros n vs Hi. rewrite Forall_forall in *. split; [apply H2, (combo_names _ _ _ _ Hi)|].
  specialize (H3 r Hr). rewrite Forall_forall in H3. apply (H3 (n, vs) Hi).
Qed.

(** ** The C++ index of the whole call *)
Lemma all_some_process cols ps :
  if forallb (forallb (row_fine cols)) ps
  then exists l, all_some (map (fun p => process_batch cols p []) ps) = Some l /\ Forall wf_i l /\
       forall k d f, map (fun i => ilook i k d f) l = map (fun p => map iv_of (filter (keyed cols k d f) p)) ps
  else all_some (map (fun p => process_batch cols p []) ps) = None.
Proof.
  induction ps as [|p ps IH]; cbn [forallb]; [exists []; repeat split; constructor|]. cbn [map all_some].
  assert (X := process_batch_spec cols p []). destruct (forallb (row_fine cols) p); cbn [andb]; [|rewrite X; reflexivity].
  destruct X as (i & X1 & X2 & X3). rewrite X1. destruct (forallb (forallb (row_fine cols)) ps); [|rewrite IH; reflexivity].
  destruct IH as (l & I1 & I2 & I3). rewrite I1. exists (i :: l). split; [reflexivity|]. split.
  - constructor; [|exact I2]. apply X2. split; [constructor|intros ? ? []].
  - intros k d f. cbn [map]. rewrite I3, X3. reflexivity.
Qed.
Lemma forallb_concat {A} (g : A -> bool) ls : forallb g (concat ls) = forallb (forallb g) ls.
Proof. induction ls as [|l ls IH]; [reflexivity|]. cbn. rewrite forallb_app, IH. reflexivity. Qed.
Lemma filter_concat {A} (g : A -> bool) ls : filter g (concat ls) = concat (map (filter g) ls).
Proof. induction ls as [|l ls IH]; [reflexivity|]. cbn. rewrite filter_app_, IH. reflexivity. Qed.

Definition spread (nt : nat) (batches : list (list trow)) : list (list trow) :=
  map (fun t => concat (thread_batches nt batches t)) (seq 0 nt).
Lemma concat_spread nt batches : (0 < nt)%nat -> concat (spread nt batches) = concat batches.
Proof.
  intros H. unfold spread. transitivity (concat (concat (map (thread_batches nt batches) (seq 0 nt)))); [|rewrite (concat_thread_batches nt batches H); reflexivity]. induction (seq 0 nt) as [|t l IH]; [reflexivity|]. cbn. rewrite IH, concat_app. reflexivity.
Qed.

Section It.
  Variable itk : cindex -> cindex.
  Variable itd : list (Z * list (Z * list interval)) -> list (Z * list (Z * list interval)).
  Variable itf : list (Z * list interval) -> list (Z * list interval).
  Hypothesis itk_perm : forall l, Permutation (itk l) l.
  Hypothesis itd_perm : forall l, Permutation (itd l) l.
  Hypothesis itf_perm : forall l, Permutation (itf l) l.

  Lemma creates_cpp cols batches n res : creates itk itd itf cols batches n res ->
    if (0 <=? n) && forallb (row_fine cols) (concat batches)
    then exists m, res = Some (build_py itk m) /\ wf_i m /\
         forall k d f, let ivs := map iv_of (filter (keyed cols k d f) (concat batches)) in
           Permutation (ilook m k d f) ivs /\ (StronglySorted iv_le ivs -> ilook m k d f = ivs)
    else res = None.
  Proof using itk_perm itd_perm itf_perm.
    intros [En|nt s En Hs Hd]; unfold num_threads in En; destruct (n <? 0) eqn:E; try discriminate; [replace (0 <=? n) with false by lia; reflexivity|].
    injection En as <-. set (nt := Z.to_nat (Z.max n 1)) in *. assert (P : (0 < nt)%nat) by (unfold nt; lia). replace (0 <=? n) with true by lia. cbn [andb]. clearbody nt. clear E n.
    unfold create_result. rewrite (thread_results_done cols s Hd), (tsteps_trun cols _ _ Hs), map_trun_start.
    assert (M : map (fun t => process_batch cols (concat (thread_batches nt batches t)) []) (seq 0 nt) = map (fun p => process_batch cols p []) (spread nt batches)) by (unfold spread; rewrite map_map; reflexivity).
    rewrite M. assert (X := all_some_process cols (spread nt batches)). rewrite <- forallb_concat, (concat_spread nt batches P) in X.
    destruct (forallb (row_fine cols) (concat batches)); [|rewrite X; reflexivity]. destruct X as (l & X1 & X2 & X3). rewrite X1.
    exists (merge_indices itk itd itf l). split; [reflexivity|]. split; [apply wf_merge_indices; assumption|]. intros k d f. set (ivs := map iv_of (filter (keyed cols k d f) (concat batches))) in *.
    rewrite ilook_merge_indices by assumption. rewrite X3.
    assert (C : concat (map (fun p => map iv_of (filter (keyed cols k d f) p)) (spread nt batches)) = ivs).
    { unfold ivs. rewrite <- (concat_spread nt batches P), filter_concat, concat_map, map_map. reflexivity. }
    split; [rewrite fold_merge_perm; cbn [app]; rewrite C; reflexivity|]. intros S. rewrite fold_merge_sorted; [exact C|]. cbn [app]. rewrite C. exact S.
  Qed.

  (** ** The Python index *)
  Lemma wf_i_ilook {K} (eqb : K -> K -> bool) (es : forall a b, eqb a b = true <-> a = b) (m : list (K * list (Z * list (Z * list interval)))) k :
    wf_i m -> (In k (akeys m) <-> exists d f, getd Z.eqb f (getd Z.eqb d (getd eqb k m)) <> []).
  Proof using.
    intros [N W]. split.
    - intros Hi. apply in_map_iff in Hi as ([k' ds] & E & Hi). cbn in E. subst k'. destruct (W k ds Hi) as [W1 [N2 W2]].
      destruct ds as [|[d fs] ds]; [contradiction|]. destruct (W2 d fs (or_introl eq_refl)) as [W3 [N3 W4]]. destruct fs as [|[f iv] fs]; [contradiction|].
      exists d, f. unfold getd at 3. rewrite (in_aget _ es _ _ _ N Hi). unfold getd at 2. cbn [aget]. rewrite Z.eqb_refl. unfold getd. cbn [aget]. rewrite Z.eqb_refl.
      apply (W4 f iv). left. reflexivity.
    - intros (d & f & H). destruct (aget eqb k m) as [ds|] eqn:E.
      + apply (aget_in _ es) in E. apply in_map_iff. exists (k, ds). split; [reflexivity|exact E].
      + exfalso. apply H. unfold getd. rewrite E. reflexivity.
  Qed.
  Lemma aset_fresh {K V} (eqb : K -> K -> bool) (k : K) (v : V) l : (forall q, In q (akeys l) -> eqb k q = false) -> aset eqb k v l = l ++ [(k, v)].
  Proof using.
    induction l as [|[q w] l IH]; intros H; [reflexivity|]. cbn [aset]. rewrite (H q (or_introl eq_refl)). cbn. f_equal. apply IH. intros q' Hq. apply H. right. exact Hq.
  Qed.
  Lemma build_fresh (h : str -> mkey) (l : cindex) : forall acc : pindex, NoDup (akeys l) ->
    (forall a b, In a (akeys l) -> In b (akeys l) -> a <> b -> same_key (h a) (h b) = false) ->
    (forall a q, In a (akeys l) -> In q (akeys acc) -> same_key (h a) q = false) ->
    fold_left (fun p e => aset same_key (h (fst e)) (snd e) p) l acc = acc ++ map (fun e => (h (fst e), snd e)) l.
  Proof using.
    induction l as [|[k v] l IH]; intros acc N H1 H2; [rewrite app_nil_r; reflexivity|]. cbn [fold_left map fst snd]. inversion N as [|? ? N1 N2]; subst.
    rewrite (aset_fresh same_key) by (intros q Hq; apply H2; [left; reflexivity|exact Hq]). rewrite IH; [rewrite <- app_assoc; reflexivity|exact N2| |].
    - intros a b Ha Hb. apply H1; right; assumption.
    - intros a q Ha Hq. rewrite map_app in Hq. apply in_app_or in Hq as [Hq|[<-|[]]]; [apply H2; [right; exact Ha|exact Hq]|]. apply H1; [right; exact Ha|left; reflexivity|]. cbn. intros ->. contradiction.
  Qed.

  Lemma same_key_canon a b : same_key a b = true -> canon a = canon b.
  Proof using. unfold same_key. intros H. apply andb_true_iff in H as [H _]. symmetry. apply mkey_eqb_spec, H. Qed.

  Lemma creates_index cols batches n res : creates itk itd itf cols batches n res -> 0 <= n ->
    let rows := concat batches in
    rectangular cols rows -> Forall row_ok rows -> clean cols rows -> one_order cols rows ->
    exists p, res = Some p /\ wf_i p /\ (forall k, In k (akeys p) <-> exists r, In r rows /\ combo cols (tr_cells r) = k) /\
      forall k d f, Permutation (index_at p k d f) (table_intervals cols rows k d f) /\
        (StronglySorted iv_le (table_intervals cols rows k d f) -> index_at p k d f = table_intervals cols rows k d f).
  Proof using itk_perm itd_perm itf_perm.
    intros Hc Hn rows Hr Hok Hcl Hone. apply creates_cpp in Hc. replace (0 <=? n) with true in Hc by lia. cbn [andb] in Hc. fold rows in Hc.
    assert (F : forallb (row_fine cols) rows = true).
    { apply forallb_forall. intros r Hi. unfold rectangular in Hr. rewrite Forall_forall in Hr, Hok. apply row_fine_iff; [apply Hr, Hi|apply Hok, Hi]. }
    rewrite F in Hc. destruct Hc as (m & -> & Wm & Hm).
    assert (RK : forall r, In r rows -> row_key cols r = Some (kstr (combo cols (tr_cells r)))).
    { intros r Hi. apply row_key_combo. rewrite Forall_forall in Hok. apply Hok, Hi. }
    assert (KP : forall r, In r rows -> key_props (kstr (combo cols (tr_cells r))) = combo cols (tr_cells r)).
    { intros r Hi. apply key_props_kstr, (clean_combo cols rows); assumption. }
    assert (KM : forall k, In k (akeys m) <-> exists r, In r rows /\ k = kstr (combo cols (tr_cells r))).
    { intros k. rewrite (wf_i_ilook str_eqb str_eqb_spec m k Wm). split.
      - intros (d & f & H). fold (ilook m k d f) in H. destruct (Hm k d f) as [P _]. destruct (filter (keyed cols k d f) rows) as [|r l] eqn:E; [apply Permutation_sym, Permutation_nil in P; contradiction|].
        assert (Hi : In r (filter (keyed cols k d f) rows)) by (rewrite E; left; reflexivity). apply filter_In in Hi as [Hi Hk]. exists r. split; [exact Hi|].
        unfold keyed in Hk. rewrite (RK r Hi) in Hk. apply andb_true_iff in Hk as [Hk _]. apply andb_true_iff in Hk as [Hk _]. apply str_eqb_spec in Hk. auto.
      - intros (r & Hi & ->). exists (tr_d r), (tr_f r). destruct (Hm (kstr (combo cols (tr_cells r))) (tr_d r) (tr_f r)) as [P _]. intros E. unfold ilook in P. rewrite E in P. apply Permutation_nil in P.
        apply map_eq_nil in P. assert (X : In r (filter (keyed cols (kstr (combo cols (tr_cells r))) (tr_d r) (tr_f r)) rows)).
        { apply filter_In. split; [exact Hi|]. unfold keyed. rewrite (RK r Hi), !Z.eqb_refl. rewrite (proj2 (str_eqb_spec _ _) eq_refl). reflexivity. }
        rewrite P in X. destruct X. }
    assert (B : build_py itk m = map (fun e => (key_props (fst e), snd e)) (itk m)).
    { unfold build_py. rewrite (build_fresh key_props).
      - reflexivity.
      - apply (Permutation_NoDup (Permutation_map fst (Permutation_sym (itk_perm m)))), Wm.
      - intros a b Ha Hb Hab. apply (Permutation_in _ (Permutation_map fst (itk_perm m))), KM in Ha, Hb. destruct Ha as (r & Hi & ->). destruct Hb as (r' & Hi' & ->).
        rewrite !KP by assumption. destruct (same_key _ _) eqn:E; [|reflexivity]. apply same_key_canon in E. exfalso. apply Hab. f_equal. apply (Hone r r' Hi Hi' E).
      - intros a q _ []. }
    exists (build_py itk m). split; [reflexivity|]. rewrite B.
    assert (INJ : forall a b, In a (akeys m) -> In b (akeys m) -> key_props a = key_props b -> a = b).
    { intros a b Ha Hb E. apply KM in Ha as (r & Hi & ->), Hb as (r' & Hi' & ->). rewrite !KP in E by assumption. rewrite E. reflexivity. }
    assert (Wp : wf_i (map (fun e => (key_props (fst e), snd e)) (itk m))).
    { destruct Wm as [W1 W2]. split.
      - rewrite map_map. cbn [fst]. rewrite <- (map_map fst key_props). apply (Permutation_NoDup (Permutation_map key_props (Permutation_map fst (Permutation_sym (itk_perm m))))).
        assert (G : forall l, NoDup l -> incl l (akeys m) -> NoDup (map key_props l)).
        { clear - INJ. induction 1 as [|x l H1 H2 IH]; intros Hl; [constructor|]. cbn. constructor; [|apply IH; intros y Hy; apply Hl; right; exact Hy]. intros Hi. apply in_map_iff in Hi as (y & E & Hy).
          apply H1. rewrite <- (INJ y x); [exact Hy|apply Hl; right; exact Hy|apply Hl; left; reflexivity|exact E]. }
        apply G; [exact W1|apply incl_refl].
      - intros k ds Hi. apply in_map_iff in Hi as ([s ds'] & [= <- <-] & Hi). apply (W2 s ds'). apply (Permutation_in _ (itk_perm m)), Hi. }
    assert (AK : forall k, In k (akeys (map (fun e => (key_props (fst e), snd e)) (itk m))) <-> exists r, In r rows /\ combo cols (tr_cells r) = k).
    { intros k. rewrite map_map. cbn [fst]. rewrite <- (map_map fst key_props), in_map_iff. split.
      - intros (s & <- & Hs). apply (Permutation_in _ (Permutation_map fst (itk_perm m))), KM in Hs as (r & Hi & ->). exists r. split; [exact Hi|]. symmetry. apply KP, Hi.
      - intros (r & Hi & <-). exists (kstr (combo cols (tr_cells r))). split; [apply KP, Hi|]. apply (Permutation_in _ (Permutation_map fst (Permutation_sym (itk_perm m)))), KM. exists r. auto. }
    split; [exact Wp|]. split; [exact AK|]. intros k d f.
    destruct (existsb (fun r => mkey_eqb (combo cols (tr_cells r)) k) rows) eqn:Ex.
    - apply existsb_exists in Ex as (r & Hi & E). apply mkey_eqb_spec in E. set (s := kstr (combo cols (tr_cells r))).
      assert (Hs : In s (akeys m)) by (apply KM; exists r; auto).
      assert (G : getd mkey_eqb k (map (fun e => (key_props (fst e), snd e)) (itk m)) = getd str_eqb s m).
      { destruct (aget_some_in _ str_eqb_spec s m Hs) as (ds & Eds). unfold getd. rewrite Eds. rewrite (in_aget _ mkey_eqb_spec k ds); [reflexivity|apply Wp|].
        apply in_map_iff. exists (s, ds). split; [cbn [fst snd]; unfold s; rewrite KP by exact Hi; rewrite E; reflexivity|]. apply (Permutation_in _ (Permutation_sym (itk_perm m))). apply (aget_in _ str_eqb_spec), Eds. }
      assert (T : map iv_of (filter (keyed cols s d f) rows) = table_intervals cols rows k d f).
      { unfold table_intervals. f_equal. apply filter_ext_in. intros r' Hi'. unfold keyed. rewrite (RK r' Hi'). f_equal. f_equal.
        destruct (mkey_eqb (combo cols (tr_cells r')) k) eqn:E'.
        - apply mkey_eqb_spec in E'. apply str_eqb_spec. unfold s. rewrite E, E'. reflexivity.
        - destruct (str_eqb (kstr (combo cols (tr_cells r'))) s) eqn:E2; [|reflexivity]. apply str_eqb_spec in E2. unfold s in E2. assert (X := KP r' Hi'). rewrite E2, KP in X by exact Hi.
          rewrite <- X, E in E'. rewrite mkey_eqb_refl in E'. discriminate. }
      unfold index_at. rewrite G, <- T. fold (ilook m s d f). apply Hm.
    - assert (T : table_intervals cols rows k d f = []).
      { unfold table_intervals. rewrite (filter_ext_in _ (fun _ => false)); [clear; induction rows; [reflexivity|assumption]|]. intros r Hi. destruct (mkey_eqb (combo cols (tr_cells r)) k) eqn:E; [|reflexivity].
        rewrite <- not_true_iff_false in Ex. exfalso. apply Ex, existsb_exists. exists r. auto. }
      rewrite T. unfold index_at, getd at 3 6. destruct (aget mkey_eqb k (map (fun e => (key_props (fst e), snd e)) (itk m))) eqn:E.
      + apply (aget_in _ mkey_eqb_spec), (in_map fst), AK in E as (r & Hi & E). cbn in E. rewrite <- not_true_iff_false in Ex. exfalso. apply Ex, existsb_exists. exists r. split; [exact Hi|apply mkey_eqb_spec, E].
      + split; reflexivity.
  Qed.
End It.
