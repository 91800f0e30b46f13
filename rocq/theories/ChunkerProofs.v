(** Proofs about ChunkerModel: lookups, threads, merging. *)
From Verif Require Import Base MixtureKeyModel MixtureKeyProofs ChunkerModel SpecChunker.
Open Scope Z_scope.

Definition ilook (idx : cindex) (k : str) (d f : Z) : list interval :=
  getd Z.eqb f (getd Z.eqb d (getd str_eqb k idx)).

Lemma getd_aset {K V} (eqb : K -> K -> bool) (es : forall a b, eqb a b = true <-> a = b) k k' (v : list V) l :
  getd eqb k' (aset eqb k v l) = if eqb k' k then v else getd eqb k' l.
Proof.
  unfold getd. destruct (eqb k' k) eqn:E.
  - apply es in E. subst. rewrite (aget_aset_same _ es). reflexivity.
  - rewrite (aget_aset_other _ es); [reflexivity|]. intros Ek. subst k. rewrite (proj2 (es k' k') eq_refl) in E. discriminate.
Qed.
Lemma ilook_push k d f i idx k' d' f' :
  ilook (push k d f i idx) k' d' f' =
  ilook idx k' d' f' ++ (if str_eqb k k' && (d =? d') && (f =? f') then [i] else []).
Proof.
  unfold ilook, push. rewrite (getd_aset _ str_eqb_spec).
  assert (S : forall a b, str_eqb a b = str_eqb b a).
  { intros a b. destruct (str_eqb a b) eqn:E; symmetry; [apply str_eqb_spec in E; subst; apply str_eqb_spec; reflexivity|].
    destruct (str_eqb b a) eqn:E2; [apply str_eqb_spec in E2; subst; rewrite (proj2 (str_eqb_spec a a) eq_refl) in E; discriminate|reflexivity]. }
  rewrite (S k k'). destruct (str_eqb k' k) eqn:E; cbn [andb]; [|rewrite app_nil_r; reflexivity].
  apply str_eqb_spec in E. subst k'. rewrite (getd_aset _ Z.eqb_eq), (Z.eqb_sym d d'). destruct (d' =? d) eqn:E; cbn [andb]; [|rewrite app_nil_r; reflexivity].
  apply Z.eqb_eq in E. subst d'. rewrite (getd_aset _ Z.eqb_eq), (Z.eqb_sym f f'). destruct (f' =? f) eqn:E; [|rewrite app_nil_r; reflexivity].
  apply Z.eqb_eq in E. subst f'. reflexivity.
Qed.

Lemma in_aset {K V} (eqb : K -> K -> bool) (k : K) (v : V) l x y : In (x, y) (aset eqb k v l) -> y = v \/ In (x, y) l.
Proof.
  induction l as [|[k1 v1] l IH]; cbn; [intros [[= <- <-]|[]]; left; reflexivity|].
  destruct (eqb k k1); intros [E|H]; [injection E as <- <-; left; reflexivity|right; right; exact H|right; left; exact E|].
  destruct (IH H); [left; assumption|right; right; assumption].
Qed.
Lemma aset_nonnil {K V} (eqb : K -> K -> bool) (k : K) (v : V) l : aset eqb k v l <> [].
Proof. destruct l as [|[k1 v1] l]; cbn; [discriminate|destruct (eqb k k1); discriminate]. Qed.
Lemma wf_f_getd d ds : wf_d ds -> wf_f (getd Z.eqb d ds).
Proof.
  intros [_ H]. unfold getd. destruct (aget Z.eqb d ds) eqn:E; [|split; [constructor|intros ? ? []]].
  apply (aget_in _ Z.eqb_eq) in E. apply (H _ _ E).
Qed.
Lemma wf_d_getd k (idx : cindex) : wf_i idx -> wf_d (getd str_eqb k idx).
Proof.
  intros [_ H]. unfold getd. destruct (aget str_eqb k idx) eqn:E; [|split; [constructor|intros ? ? []]].
  apply (aget_in _ str_eqb_spec) in E. apply (H _ _ E).
Qed.
Lemma wf_aset_f f iv fs : iv <> [] -> wf_f fs -> wf_f (aset Z.eqb f iv fs).
Proof.
  intros Hn [H1 H2]. split; [apply (NoDup_akeys_aset _ Z.eqb_eq), H1|]. intros f' iv' Hi. apply in_aset in Hi as [->|Hi]; [exact Hn|apply (H2 _ _ Hi)].
Qed.
Lemma wf_aset_d d fs ds : fs <> [] -> wf_f fs -> wf_d ds -> wf_d (aset Z.eqb d fs ds).
Proof.
  intros Hn Hw [H1 H2]. split; [apply (NoDup_akeys_aset _ Z.eqb_eq), H1|]. intros f' iv' Hi. apply in_aset in Hi as [->|Hi]; [split; assumption|apply (H2 _ _ Hi)].
Qed.
Lemma wf_aset_i k ds (idx : cindex) : ds <> [] -> wf_d ds -> wf_i idx -> wf_i (aset str_eqb k ds idx).
Proof.
  intros Hn Hw [H1 H2]. split; [apply (NoDup_akeys_aset _ str_eqb_spec), H1|]. intros f' iv' Hi. apply in_aset in Hi as [->|Hi]; [split; assumption|apply (H2 _ _ Hi)].
Qed.
Lemma wf_push k d f i idx : wf_i idx -> wf_i (push k d f i idx).
Proof.
  intros H. assert (Hd := wf_d_getd k idx H). assert (Hf := wf_f_getd d _ Hd). unfold push.
  apply wf_aset_i; [apply aset_nonnil| |exact H]. apply wf_aset_d; [apply aset_nonnil| |exact Hd]. apply wf_aset_f; [|exact Hf].
  destruct (getd Z.eqb f _); discriminate.
Qed.

(** ** Rows and batches *)
Definition row_fine (cols : list str) (r : trow) : bool :=
  match row_key cols r with Some _ => negb (tr_e r <? tr_s r) | None => false end.
Definition keyed (cols : list str) (k : str) (d f : Z) (r : trow) : bool :=
  match row_key cols r with Some k' => str_eqb k' k && (tr_d r =? d) && (tr_f r =? f) | None => false end.
Definition iv_of (r : trow) : interval := (tr_s r, tr_e r).

Lemma process_batch_spec cols b : forall idx,
  if forallb (row_fine cols) b
  then exists idx', process_batch cols b idx = Some idx' /\ (wf_i idx -> wf_i idx') /\
       forall k d f, ilook idx' k d f = ilook idx k d f ++ map iv_of (filter (keyed cols k d f) b)
  else process_batch cols b idx = None.
Proof.
  induction b as [|r b IH]; intros idx; cbn [forallb].
  - exists idx. split; [reflexivity|]. split; [auto|]. intros k d f. cbn [filter map]. rewrite app_nil_r. reflexivity.
  - unfold row_fine at 1. cbn [process_batch filter]. unfold process_row. destruct (row_key cols r) as [k0|] eqn:Ek; cbn [andb]; [|reflexivity].
    destruct (tr_e r <? tr_s r) eqn:E; cbn [negb andb]; [reflexivity|]. specialize (IH (push k0 (tr_d r) (tr_f r) (tr_s r, tr_e r) idx)).
    destruct (forallb (row_fine cols) b); [|exact IH]. destruct IH as (idx' & H1 & H2 & H3). exists idx'. split; [exact H1|]. split; [intros W; apply H2, wf_push, W|].
    intros k d f. rewrite H3, ilook_push. unfold keyed at 2. rewrite Ek. destruct (str_eqb k0 k && (tr_d r =? d) && (tr_f r =? f)); cbn [map]; [rewrite <- app_assoc; reflexivity|rewrite app_nil_r; reflexivity].
Qed.
Lemma process_batch_app cols a b idx :
  process_batch cols (a ++ b) idx = match process_batch cols a idx with Some idx' => process_batch cols b idx' | None => None end.
Proof. revert idx. induction a as [|r a IH]; intros idx; cbn; [reflexivity|]. destruct (process_row cols r idx); [apply IH|reflexivity]. Qed.

(** ** Threads *)
Definition trun (cols : list str) (t : list (list trow) * option cindex) : option cindex :=
  match snd t with None => None | Some idx => process_batch cols (concat (fst t)) idx end.
Lemma tstep_trun cols s s' : tstep cols s s' -> map (trun cols) s' = map (trun cols) s.
Proof.
  intros []. rewrite !map_app. cbn [map]. f_equal. f_equal. unfold trun at 2. cbn [fst snd concat]. rewrite process_batch_app. destruct (process_batch cols b idx); reflexivity.
Qed.
Lemma tsteps_trun cols s s' : tsteps cols s s' -> map (trun cols) s' = map (trun cols) s.
Proof. induction 1 as [|s s1 s2 H _ IH]; [reflexivity|]. rewrite IH. apply tstep_trun, H. Qed.
Fixpoint all_some {A} (l : list (option A)) : option (list A) :=
  match l with
  | [] => Some []
  | None :: _ => None
  | Some x :: l' => match all_some l' with None => None | Some m => Some (x :: m) end
  end.
Lemma thread_results_done cols s : threads_done s -> thread_results s = all_some (map (trun cols) s).
Proof.
  induction 1 as [|[bs o] s H _ IH]; [reflexivity|]. cbn in H. subst bs. cbn. destruct o as [idx|]; cbn; [rewrite IH; reflexivity|reflexivity].
Qed.
Lemma map_trun_start cols nt batches :
  map (trun cols) (threads_start nt batches) = map (fun t => process_batch cols (concat (thread_batches nt batches t)) []) (seq 0 nt).
Proof. unfold threads_start. rewrite map_map. reflexivity. Qed.

Lemma firstn_min {A} n (l : list A) : firstn (Nat.min n (length l)) l = firstn n l.
Proof. revert l. induction n as [|n IH]; intros [|x l]; cbn; [reflexivity|reflexivity|reflexivity|]. f_equal. apply IH. Qed.
Lemma thread_batches_eq {A} nt (batches : list A) t :
  thread_batches nt batches t = firstn ((length batches + nt - 1) / nt) (skipn (t * ((length batches + nt - 1) / nt)) batches).
Proof.
  unfold thread_batches. set (b := ((length batches + nt - 1) / nt)%nat). set (s := (t * b)%nat).
  rewrite <- (firstn_min b). f_equal. rewrite skipn_length. lia.
Qed.
Lemma concat_pieces {A} b (l : list A) n s : concat (map (fun t => firstn b (skipn (t * b) l)) (seq s n)) = firstn (n * b) (skipn (s * b) l).
Proof.
  revert s. induction n as [|n IH]; intros s; [reflexivity|]. cbn [seq map concat]. rewrite IH.
  replace (S n * b)%nat with (b + n * b)%nat by lia. replace (S s * b)%nat with (b + s * b)%nat by lia.
  set (m := skipn (s * b) l). assert (E : skipn (b + s * b) l = skipn b m).
  { unfold m. clear. revert l. induction (s * b)%nat as [|k IHk]; intros l; [rewrite Nat.add_0_r; reflexivity|]. destruct l as [|x l]; [rewrite !skipn_nil; reflexivity|].
    rewrite Nat.add_succ_r. cbn [skipn]. apply IHk. }
  rewrite E. clear E. clearbody m. generalize (n * b)%nat as q. clear. intros q. revert m. induction b as [|b IHb]; intros m; [reflexivity|]. destruct m as [|x m]; [cbn; rewrite firstn_nil; reflexivity|]. cbn. f_equal. apply IHb.
Qed.
Lemma concat_thread_batches {A} nt (batches : list A) : (0 < nt)%nat -> concat (map (thread_batches nt batches) (seq 0 nt)) = batches.
Proof.
  intros H. rewrite (map_ext _ _ (thread_batches_eq nt batches)). rewrite concat_pieces. cbn [Nat.mul skipn]. apply firstn_all2.
  assert (X := Nat.div_mod (length batches + nt - 1) nt ltac:(lia)). assert (Y := Nat.mod_upper_bound (length batches + nt - 1) nt ltac:(lia)). lia.
Qed.

(** ** Merging *)
Lemma iv_ltb_le a b : iv_ltb b a = false <-> iv_le a b.
Proof. unfold iv_ltb, iv_le. rewrite orb_false_iff, andb_false_iff, Z.ltb_ge, Z.eqb_neq, Z.ltb_ge. lia. Qed.
Lemma iv_merge_nil_r a : iv_merge a [] = a.
Proof. destruct a; reflexivity. Qed.
Lemma iv_merge_perm a : forall b, Permutation (iv_merge a b) (a ++ b).
Proof.
  induction a as [|x a IH]; intros b; [reflexivity|]. induction b as [|y b IHb]; [cbn; rewrite app_nil_r; reflexivity|].
  cbn [iv_merge]. destruct (iv_ltb y x).
  - change (Permutation (y :: iv_merge (x :: a) b) ((x :: a) ++ y :: b)). rewrite IHb. apply Permutation_middle.
  - cbn. constructor. apply IH.
Qed.
Lemma iv_merge_app a : forall b, StronglySorted iv_le (a ++ b) -> iv_merge a b = a ++ b.
Proof.
  induction a as [|x a IH]; intros b H; [reflexivity|]. cbn in H. inversion H as [|? ? H1 H2]; subst. destruct b as [|y b]; [rewrite app_nil_r; reflexivity|].
  cbn [iv_merge]. assert (E : iv_ltb y x = false). { apply iv_ltb_le. rewrite Forall_forall in H2. apply H2, in_or_app. right. left. reflexivity. }
  rewrite E. cbn. f_equal. apply IH, H1.
Qed.

Section Upd.
  Context {K A B : Type} (eqb : K -> K -> bool) (es : forall a b, eqb a b = true <-> a = b).
  Variable g : list A -> list B -> list B.
  Definition upd (m : list (K * list B)) (e : K * list A) : list (K * list B) := aset eqb (fst e) (g (snd e) (getd eqb (fst e) m)) m.
  Lemma fold_upd l : forall m, NoDup (akeys l) -> forall k,
    getd eqb k (fold_left upd l m) = match aget eqb k l with Some v => g v (getd eqb k m) | None => getd eqb k m end.
  Proof using es.
    induction l as [|[k0 v0] l IH]; intros m Hn k; [reflexivity|]. inversion Hn as [|? ? H1 H2]; subst. cbn [fold_left]. rewrite IH by exact H2. cbn [aget].
    unfold upd. cbn [fst snd]. rewrite (getd_aset _ es). destruct (eqb k k0) eqn:E.
    - apply es in E. subst k0. assert (N : aget eqb k l = None).
      { destruct (aget eqb k l) eqn:E; [|reflexivity]. apply (aget_in _ es) in E. exfalso. apply H1. apply (in_map fst) in E. exact E. }
      rewrite N. reflexivity.
    - reflexivity.
  Qed.
End Upd.
Lemma getd_perm {K V} (eqb : K -> K -> bool) (es : forall a b, eqb a b = true <-> a = b) (l l' : list (K * V)) k :
  Permutation l l' -> NoDup (akeys l) -> aget eqb k l = aget eqb k l'.
Proof.
  intros P N. destruct (aget eqb k l) as [v|] eqn:E.
  - apply (aget_in _ es) in E. symmetry. apply (in_aget _ es); [apply (Permutation_NoDup (Permutation_map fst P)), N|apply (Permutation_in _ P), E].
  - destruct (aget eqb k l') as [v|] eqn:E'; [|reflexivity]. apply (aget_in _ es) in E'. apply (Permutation_in _ (Permutation_sym P)) in E'.
    apply (in_aget _ es) in E'; [congruence|exact N].
Qed.

Section It.
  Variable itk : cindex -> cindex.
  Variable itd : list (Z * list (Z * list interval)) -> list (Z * list (Z * list interval)).
  Variable itf : list (Z * list interval) -> list (Z * list interval).
  Hypothesis itk_perm : forall l, Permutation (itk l) l.
  Hypothesis itd_perm : forall l, Permutation (itd l) l.
  Hypothesis itf_perm : forall l, Permutation (itf l) l.

  Lemma getd_merge_files fs tf f : NoDup (akeys fs) -> getd Z.eqb f (merge_files itf fs tf) = iv_merge (getd Z.eqb f tf) (getd Z.eqb f fs).
  Proof using itf_perm.
    intros H. unfold merge_files.
    assert (X := fold_upd Z.eqb Z.eqb_eq (fun (s t : list interval) => match t with [] => s | _ => iv_merge t s end) (itf fs) tf).
    unfold upd in X. cbv beta zeta in X. rewrite X by (apply (Permutation_NoDup (Permutation_map fst (Permutation_sym (itf_perm fs)))), H).
    rewrite (getd_perm _ Z.eqb_eq _ _ f (itf_perm fs)) by (apply (Permutation_NoDup (Permutation_map fst (Permutation_sym (itf_perm fs)))), H).
    set (t := getd Z.eqb f tf). clearbody t. unfold getd. destruct (aget Z.eqb f fs); [destruct t; reflexivity|]. rewrite iv_merge_nil_r. reflexivity.
  Qed.
  Lemma getd_merge_datasets ds td d : NoDup (akeys ds) -> getd Z.eqb d (merge_datasets itd itf ds td) = merge_files itf (getd Z.eqb d ds) (getd Z.eqb d td).
  Proof using itd_perm itf_perm.
    intros H. unfold merge_datasets.
    assert (X := fold_upd Z.eqb Z.eqb_eq (merge_files itf) (itd ds) td).
    unfold upd in X. cbv beta zeta in X. rewrite X by (apply (Permutation_NoDup (Permutation_map fst (Permutation_sym (itd_perm ds)))), H).
    rewrite (getd_perm _ Z.eqb_eq _ _ d (itd_perm ds)) by (apply (Permutation_NoDup (Permutation_map fst (Permutation_sym (itd_perm ds)))), H).
    set (t := getd Z.eqb d td). clearbody t. unfold getd. destruct (aget Z.eqb d ds); [reflexivity|]. unfold merge_files. assert (E := itf_perm []). apply Permutation_sym, Permutation_nil in E. rewrite E. reflexivity.
  Qed.
  Lemma getd_merge_index m local k : NoDup (akeys local) -> getd str_eqb k (merge_index itk itd itf m local) = merge_datasets itd itf (getd str_eqb k local) (getd str_eqb k m).
  Proof using itk_perm itd_perm itf_perm.
    intros H. unfold merge_index.
    assert (X := fold_upd str_eqb str_eqb_spec (merge_datasets itd itf) (itk local) m).
    unfold upd in X. cbv beta zeta in X. rewrite X by (apply (Permutation_NoDup (Permutation_map fst (Permutation_sym (itk_perm local)))), H).
    rewrite (getd_perm _ str_eqb_spec _ _ k (itk_perm local)) by (apply (Permutation_NoDup (Permutation_map fst (Permutation_sym (itk_perm local)))), H).
    set (t := getd str_eqb k m). clearbody t. unfold getd. destruct (aget str_eqb k local); [reflexivity|]. unfold merge_datasets. assert (E := itd_perm []). apply Permutation_sym, Permutation_nil in E. rewrite E. reflexivity.
  Qed.
  Lemma ilook_merge m local k d f : wf_i local -> ilook (merge_index itk itd itf m local) k d f = iv_merge (ilook m k d f) (ilook local k d f).
  Proof using itk_perm itd_perm itf_perm.
    intros W. unfold ilook. rewrite getd_merge_index by apply W. rewrite getd_merge_datasets by apply (wf_d_getd k local W).
    apply getd_merge_files. apply (wf_f_getd d _ (wf_d_getd k local W)).
  Qed.

  (** the maps stay well-formed *)
  Lemma fold_wf {K A B} (eqb : K -> K -> bool) (es : forall a b, eqb a b = true <-> a = b) (P : list B -> Prop) (g : list A -> list B -> list B) :
    forall l m, NoDup (akeys m) -> (forall k v, In (k, v) m -> P v) ->
    (forall k v o, In (k, v) l -> (o = [] \/ P o) -> P (g v o)) ->
    NoDup (akeys (fold_left (upd eqb g) l m)) /\ (forall k v, In (k, v) (fold_left (upd eqb g) l m) -> P v).
  Proof using.
    induction l as [|[k0 v0] l IH]; intros m H1 H2 H3; [split; assumption|]. cbn [fold_left]. apply IH.
    - unfold upd. apply (NoDup_akeys_aset _ es), H1.
    - intros k v Hi. unfold upd in Hi. apply in_aset in Hi as [->|Hi]; [|apply (H2 _ _ Hi)]. apply (H3 k0); [left; reflexivity|]. cbn [fst]. unfold getd.
      destruct (aget eqb k0 m) eqn:E; [right|left; reflexivity]. apply (aget_in _ es) in E. apply (H2 _ _ E).
    - intros k v o Hi. apply (H3 k). right. exact Hi.
  Qed.
  Lemma fold_upd_nonnil {K A B} (eqb : K -> K -> bool) (g : list A -> list B -> list B) l : forall m, l <> [] \/ m <> [] -> fold_left (upd eqb g) l m <> [].
  Proof using.
    induction l as [|e l IH]; intros m H; [cbn; destruct H as [H|H]; [exfalso; apply H; reflexivity|exact H]|]. cbn. apply IH. right. apply aset_nonnil.
  Qed.
  Lemma perm_nonnil {A} (a b : list A) : Permutation a b -> b <> [] -> a <> [].
  Proof using. clear. intros P H ->. apply Permutation_nil in P. contradiction. Qed.
  Lemma wf_merge_files fs tf : wf_f fs -> wf_f tf -> wf_f (merge_files itf fs tf).
  Proof using itf_perm.
    intros [A1 A2] [B1 B2]. unfold merge_files.
    assert (X := fold_wf Z.eqb Z.eqb_eq (fun v : list interval => v <> []) (fun (s t : list interval) => match t with [] => s | _ => iv_merge t s end) (itf fs) tf B1 B2).
    destruct X as [X1 X2].
    - intros k v o Hi Ho. apply (Permutation_in _ (itf_perm fs)), A2 in Hi. destruct o as [|x o]; [exact Hi|]. apply (perm_nonnil _ _ (iv_merge_perm (x :: o) v)). discriminate.
    - split; assumption.
  Qed.
  Lemma wf_f_nil : wf_f []. Proof using. clear. split; [constructor|intros ? ? []]. Qed.
  Lemma wf_d_nil : wf_d []. Proof using. clear. split; [constructor|intros ? ? []]. Qed.
  Lemma wf_merge_datasets ds td : wf_d ds -> wf_d td -> wf_d (merge_datasets itd itf ds td).
  Proof using itd_perm itf_perm.
    intros [A1 A2] [B1 B2]. unfold merge_datasets.
    assert (X := fold_wf Z.eqb Z.eqb_eq (fun v => v <> [] /\ wf_f v) (merge_files itf) (itd ds) td B1 B2).
    destruct X as [X1 X2].
    - intros k v o Hi Ho. apply (Permutation_in _ (itd_perm ds)), A2 in Hi as [Hi1 Hi2]. split.
      + unfold merge_files. apply (fold_upd_nonnil Z.eqb (fun (s t : list interval) => match t with [] => s | _ => iv_merge t s end)). left. apply (perm_nonnil _ _ (itf_perm v)), Hi1.
      + apply wf_merge_files; [exact Hi2|]. destruct Ho as [->|Ho]; [apply wf_f_nil|apply Ho].
    - split; assumption.
  Qed.
  Lemma wf_merge_index m local : wf_i local -> wf_i m -> wf_i (merge_index itk itd itf m local).
  Proof using itk_perm itd_perm itf_perm.
    intros [A1 A2] [B1 B2]. unfold merge_index.
    assert (X := fold_wf str_eqb str_eqb_spec (fun v => v <> [] /\ wf_d v) (merge_datasets itd itf) (itk local) m B1 B2).
    destruct X as [X1 X2].
    - intros k v o Hi Ho. apply (Permutation_in _ (itk_perm local)), A2 in Hi as [Hi1 Hi2]. split.
      + unfold merge_datasets. apply (fold_upd_nonnil Z.eqb (merge_files itf)). left. apply (perm_nonnil _ _ (itd_perm v)), Hi1.
      + apply wf_merge_datasets; [exact Hi2|]. destruct Ho as [->|Ho]; [apply wf_d_nil|apply Ho].
    - split; assumption.
  Qed.
  Lemma wf_merge_indices l : Forall wf_i l -> wf_i (merge_indices itk itd itf l).
  Proof using itk_perm itd_perm itf_perm.
    intros H. assert (F : forall m, wf_i m -> wf_i (fold_left (merge_index itk itd itf) l m)).
    { induction H as [|i l Hi _ IH]; intros m Hm; [exact Hm|]. cbn. apply IH, wf_merge_index; assumption. }
    assert (N : wf_i (@nil (str * list (Z * list (Z * list interval))))) by (split; [constructor|intros ? ? []]).
    unfold merge_indices. destruct l as [|i [|j l]]; [exact N|inversion H; assumption|]. apply F, N.
  Qed.
  Lemma ilook_merge_indices l k d f : Forall wf_i l -> ilook (merge_indices itk itd itf l) k d f = fold_left iv_merge (map (fun i => ilook i k d f) l) [].
  Proof using itk_perm itd_perm itf_perm.
    intros H. assert (F : forall m, ilook (fold_left (merge_index itk itd itf) l m) k d f = fold_left iv_merge (map (fun i => ilook i k d f) l) (ilook m k d f)).
    { induction H as [|i l Hi _ IH]; intros m; [reflexivity|]. cbn. rewrite IH, ilook_merge by exact Hi. reflexivity. }
    unfold merge_indices. destruct l as [|i [|j l]]; [reflexivity|reflexivity|]. apply F.
  Qed.
End It.

Lemma fold_merge_perm l : forall a, Permutation (fold_left iv_merge l a) (a ++ concat l).
Proof.
  induction l as [|b l IH]; intros a; cbn; [rewrite app_nil_r; reflexivity|]. rewrite IH, iv_merge_perm, app_assoc. reflexivity.
Qed.
Lemma StronglySorted_app_l {A} (R : A -> A -> Prop) a b : StronglySorted R (a ++ b) -> StronglySorted R a.
Proof.
  induction a as [|x a IH]; intros H; [constructor|]. cbn in H. inversion H as [|? ? H1 H2]; subst. constructor; [apply IH, H1|]. rewrite Forall_forall in *. intros y Hy. apply H2, in_or_app. left. exact Hy.
Qed.
Lemma fold_merge_sorted l : forall a, StronglySorted iv_le (a ++ concat l) -> fold_left iv_merge l a = a ++ concat l.
Proof.
  induction l as [|b l IH]; intros a H; cbn; [rewrite app_nil_r; reflexivity|]. cbn in H. rewrite app_assoc in H. rewrite iv_merge_app by apply (StronglySorted_app_l _ _ _ H).
  rewrite IH by exact H. rewrite app_assoc. reflexivity.
Qed.
