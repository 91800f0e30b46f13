(** Lemmas about the catalogue. *)
From Verif Require Import Base MixtureKeyModel MixtureKeyProofs ChunkGenModel ParserModel MdcModel SpecMdc.
Open Scope Z_scope.

Lemma exists_dataset_in s name : exists_dataset s name = true <-> In name (list_datasets s).
Proof.
  unfold exists_dataset, list_datasets. rewrite existsb_exists, in_map_iff. split.
  - intros (d & I & E). apply str_eqb_spec in E. exists d. auto.
  - intros (d & E & I). exists d. split; [assumption|]. apply str_eqb_spec. auto.
Qed.
Lemma key_eqb_spec a b : key_eqb a b = true <-> a = b.
Proof.
  destruct a as [[a1 a2] a3], b as [[b1 b2] b3]. unfold key_eqb. cbn [fst snd].
  rewrite !andb_true_iff, !Z.eqb_eq. split; [intros [[-> ->] ->]; reflexivity|intros [= -> -> ->]; auto].
Qed.
Lemma no_dup_keys_spec l : no_dup_keys l = true <-> NoDup l.
Proof.
  induction l as [|k l IH]; cbn [no_dup_keys]; [split; auto; constructor|].
  rewrite andb_true_iff, negb_true_iff, IH. split.
  - intros [H N]. constructor; [|assumption]. intros I. apply not_true_iff_false in H. apply H.
    apply existsb_exists. exists k. split; [assumption|]. now apply key_eqb_spec.
  - intros N. inversion N; subst. split; [|assumption]. apply not_true_iff_false. intros E. apply existsb_exists in E.
    destruct E as (x & I & E). apply key_eqb_spec in E. now subst.
Qed.
Lemma NoDup_app_intro {A} (a b : list A) : NoDup a -> NoDup b -> (forall x, In x a -> ~ In x b) -> NoDup (a ++ b).
Proof.
  induction a as [|x a IH]; intros Na Nb H; [assumption|]. inversion Na; subst. cbn. constructor.
  - rewrite in_app_iff. intros [I|I]; [contradiction|]. exact (H x (or_introl eq_refl) I).
  - apply IH; auto. intros y Hy. apply H. now right.
Qed.
Lemma last_app_one {A} (l : list A) x d : last (l ++ [x]) d = x.
Proof. induction l as [|y l IH]; [reflexivity|]. cbn [app]. destruct (l ++ [x]) eqn:E; [destruct l; discriminate|]. cbn. exact IH. Qed.

(** ** Growing by one dataset *)
(** [s'] is [s] with the dataset (did, nm) added and any of its files and samples *)
Definition grown (s : db) (did : Z) (nm : str * dinfo) (s' : db) : Prop :=
  datasets s' = datasets s ++ [(did, nm)] /\
  (exists fs, files s' = files s ++ map (fun r => (fst r, (did, snd r))) fs) /\
  (exists ss, samples s' = samples s ++ ss /\ Forall (fun r => fst (fst (fst r)) = did) ss).

Lemma consistent_same s s' : consistent s -> datasets s' = datasets s -> files s' = files s -> samples s' = samples s ->
  next_dataset s' = next_dataset s -> next_file s' = next_file s -> consistent s'.
Proof. unfold consistent, list_datasets. intros C -> -> -> -> ->. exact C. Qed.
Lemma consistent_insert_dataset s name info s1 did : consistent s -> insert_dataset s name info = Some (s1, did) ->
  consistent s1 /\ did = next_dataset s /\ ~ In name (list_datasets s) /\ grown s did (name, info) s1 /\
  version s1 = version s /\ samples s1 = samples s /\ files s1 = files s /\ next_file s1 = next_file s /\ columns s1 = columns s.
Proof.
  unfold insert_dataset. intros C H. destruct (exists_dataset s name) eqn:E; [discriminate|]. injection H as <- <-.
  assert (NI : ~ In name (list_datasets s)). { intros I. apply exists_dataset_in in I. congruence. }
  destruct C as (C1 & C2 & C3 & C4 & C5 & C6 & C7).
  split; [|repeat split; cbn; auto].
  - unfold consistent, list_datasets in *. cbn [datasets files samples next_dataset next_file]. rewrite !map_app. cbn [map fst snd].
    split; [|split; [|split; [|split; [|split; [|split]]]]]; try assumption.
    + apply NoDup_app_intro; [assumption|repeat constructor; auto|]. intros x I [<-|[]]. apply C7 in I. lia.
    + apply NoDup_app_intro; [assumption|repeat constructor; auto|]. intros x I [<-|[]]. now apply NI.
    + intros f d l I. destruct (C5 f d l I). split; [|assumption]. apply in_or_app. now left.
    + intros d I. apply in_app_or in I as [I|[<-|[]]]; [apply C7 in I; lia|lia].
  - exists []. cbn. now rewrite app_nil_r.
  - exists []. cbn. now rewrite app_nil_r.
Qed.
Lemma grown_same s did nm a b : grown s did nm a -> datasets b = datasets a -> files b = files a -> samples b = samples a ->
  grown s did nm b.
Proof. unfold grown. intros G -> -> ->. exact G. Qed.

Lemma add_columns_trace props : forall s tr ok, add_columns s props = (tr, ok) ->
  Forall (fun s' => datasets s' = datasets s /\ files s' = files s /\ samples s' = samples s /\ version s' = version s /\
                    next_dataset s' = next_dataset s /\ next_file s' = next_file s) tr.
Proof.
  induction props as [|p props IH]; intros s tr ok H; cbn [add_columns] in H; [injection H as <- <-; constructor|].
  destruct (existsb _ (columns s)); [now apply IH in H|].
  set (s' := Db _ _ _ _ _ _ _) in H.
  assert (X : (tr = [] /\ ok = false) \/ exists tr', tr = s' :: tr' /\ add_columns s' props = (tr', ok)).
  { destruct (p_dtype p), (p_options p); try (destruct (add_columns s' props) as [tr' ok']; injection H as <- <-; right; eauto; fail).
    injection H as <- <-. auto. }
  destruct X as [[-> ->]|(tr' & -> & E)]; [constructor|]. apply IH in E. constructor; [subst s'; cbn; repeat split|exact E].
Qed.
Lemma last_db_forall (P : db -> Prop) s tr : P s -> Forall P tr -> P (last_db s tr).
Proof.
  unfold last_db. revert s. induction tr as [|x tr IH]; intros s Hs F; [assumption|]. inversion F; subst.
  cbn. destruct tr; [assumption|]. now apply (IH s).
Qed.

Definition new_rows (s : db) (locs : list str) : list (Z * str) :=
  combine (map (fun k => next_file s + Z.of_nat k) (seq 0 (length locs))) locs.
Lemma new_rows_fst s locs : map fst (new_rows s locs) = map (fun k => next_file s + Z.of_nat k) (seq 0 (length locs)).
Proof.
  unfold new_rows. generalize 0%nat. induction locs as [|l locs IH]; intros k; [reflexivity|]. cbn. now rewrite IH.
Qed.
Lemma new_rows_snd s locs : map snd (new_rows s locs) = locs.
Proof.
  unfold new_rows. generalize 0%nat. induction locs as [|l locs IH]; intros k; [reflexivity|]. cbn. now rewrite IH.
Qed.
Lemma new_rows_fresh s locs f : In f (map fst (new_rows s locs)) -> next_file s <= f < next_file s + Z.of_nat (length locs).
Proof. rewrite new_rows_fst, in_map_iff. intros (k & <- & I). apply in_seq in I. lia. Qed.
Lemma new_rows_nodup s locs : NoDup (map fst (new_rows s locs)).
Proof.
  rewrite new_rows_fst. apply FinFun.Injective_map_NoDup; [intros a b; lia|]. apply seq_NoDup.
Qed.
Lemma id_map_get rows : forall m, NoDup (map snd rows) ->
  forall loc, aget str_eqb loc (fold_left (fun m r => aset str_eqb (snd r) (fst r) m) rows m) =
    match find (fun r : Z * str => str_eqb loc (snd r)) rows with Some r => Some (fst r) | None => aget str_eqb loc m end.
Proof.
  induction rows as [|r rows IH]; intros m N loc; [reflexivity|]. cbn [fold_left find]. inversion N; subst.
  rewrite IH by assumption. destruct (str_eqb loc (snd r)) eqn:E.
  - apply str_eqb_spec in E. subst loc.
    destruct (find (fun r0 : Z * str => str_eqb (snd r) (snd r0)) rows) as [r'|] eqn:F.
    + apply find_some in F as [I Q]. apply str_eqb_spec in Q. exfalso. apply H1. rewrite Q. now apply in_map.
    + apply (aget_aset_same _ str_eqb_spec).
  - destruct (find _ rows); [reflexivity|]. apply (aget_aset_other _ str_eqb_spec). intros Q. subst loc.
    rewrite (eqb_refl_ _ str_eqb_spec) in E. discriminate.
Qed.
Lemma nodup_snd_eq (rows : list (Z * str)) r r' : NoDup (map snd rows) -> In r rows -> In r' rows -> snd r = snd r' -> r = r'.
Proof.
  induction rows as [|x rows IH]; intros NS I I' Q; [destruct I|].
  cbn in NS. inversion NS; subst. destruct I as [->|I], I' as [->|I']; auto.
  - exfalso. apply H1. rewrite Q. now apply in_map.
  - exfalso. apply H1. rewrite <- Q. now apply in_map.
Qed.
Lemma insert_files_ids s did locs : NoDup locs -> snd (insert_files s did locs) = map fst (new_rows s locs).
Proof.
  intros N. cbn [insert_files snd]. fold (new_rows s locs). set (rows := new_rows s locs).
  assert (NS : NoDup (map snd rows)) by (unfold rows; now rewrite new_rows_snd).
  assert (ML : locs = map snd rows) by (unfold rows; now rewrite new_rows_snd). rewrite ML at 1. rewrite map_map.
  apply map_ext_in. intros r I. rewrite id_map_get by assumption.
  destruct (find (fun r0 : Z * str => str_eqb (snd r) (snd r0)) rows) as [r'|] eqn:F.
  - apply find_some in F as [I' Q]. apply str_eqb_spec in Q.
    now rewrite (nodup_snd_eq rows r r' NS I I' Q).
  - exfalso. assert (X := find_none _ _ F r I). cbn in X. rewrite (eqb_refl_ _ str_eqb_spec) in X. discriminate.
Qed.
(** whatever the locations, the ids handed to the tasks are ids of the new files *)
Lemma insert_files_ids_in s did locs : Forall (fun i => In i (map fst (new_rows s locs))) (snd (insert_files s did locs)).
Proof.
  cbn [insert_files snd]. fold (new_rows s locs). set (rows := new_rows s locs).
  assert (ML : locs = map snd rows) by (unfold rows; now rewrite new_rows_snd).
  assert (G : forall rs m, (forall k v, aget str_eqb k m = Some v -> In v (map fst rows)) -> incl rs rows ->
     let m' := fold_left (fun m r => aset str_eqb (snd r) (fst r) m) rs m in
     (forall k v, aget str_eqb k m' = Some v -> In v (map fst rows)) /\
     (forall r, In r rs -> aget str_eqb (snd r) m' <> None) /\ (forall k, aget str_eqb k m <> None -> aget str_eqb k m' <> None)).
  { induction rs as [|r rs IH]; intros m Hm Hi; cbn [fold_left]; [split; [assumption|split; [intros r []|auto]]|].
    destruct (IH (aset str_eqb (snd r) (fst r) m)) as (A & B & D).
    - intros k v Hk. destruct (str_eqb k (snd r)) eqn:E.
      + apply str_eqb_spec in E. subst k. rewrite (aget_aset_same _ str_eqb_spec) in Hk. injection Hk as <-.
        apply in_map, Hi. now left.
      + rewrite (aget_aset_other _ str_eqb_spec) in Hk; [eauto|]. intros Q. subst k. rewrite (eqb_refl_ _ str_eqb_spec) in E. discriminate.
    - intros x Hx. apply Hi. now right.
    - cbn zeta. split; [assumption|]. split.
      + intros x [<-|Hx]; [|auto]. apply D. rewrite (aget_aset_same _ str_eqb_spec). discriminate.
      + intros k Hk. apply D. destruct (str_eqb k (snd r)) eqn:E.
        * apply str_eqb_spec in E. subst k. rewrite (aget_aset_same _ str_eqb_spec). discriminate.
        * rewrite (aget_aset_other _ str_eqb_spec); [assumption|]. intros Q. subst k. rewrite (eqb_refl_ _ str_eqb_spec) in E. discriminate. }
  destruct (G rows [] ltac:(discriminate) ltac:(apply incl_refl)) as (A & B & _). cbn zeta in *.
  apply Forall_map. apply Forall_forall. intros loc I. rewrite ML in I. apply in_map_iff in I as (r & <- & I).
  specialize (B r I). destruct (aget str_eqb (snd r) _) as [i|] eqn:E; [|congruence]. now apply A in E.
Qed.
Lemma insert_files_facts s did locs s4 fids : insert_files s did locs = (s4, fids) ->
  datasets s4 = datasets s /\ samples s4 = samples s /\ version s4 = version s /\ next_dataset s4 = next_dataset s /\
  files s4 = files s ++ map (fun r => (fst r, (did, snd r))) (new_rows s locs) /\
  next_file s4 = next_file s + Z.of_nat (length locs) /\
  length fids = length locs /\ Forall (fun i => In i (map fst (new_rows s locs))) fids /\
  (NoDup locs -> fids = map fst (new_rows s locs)).
Proof.
  intros H. assert (A := insert_files_ids_in s did locs). assert (B := insert_files_ids s did locs).
  rewrite H in A, B. cbn [snd] in A, B. unfold insert_files in H. injection H as <- <-. cbn. repeat split; auto.
  now rewrite map_length.
Qed.
Lemma consistent_insert_files s did locs s4 fids : consistent s -> In did (map fst (datasets s)) ->
  insert_files s did locs = (s4, fids) -> consistent s4.
Proof.
  intros C D H. apply insert_files_facts in H as (H1 & H2 & _ & H3 & H4 & H5 & _).
  destruct C as (C1 & C2 & C3 & C4 & C5 & C6 & C7). unfold consistent, list_datasets in *. rewrite H1, H2, H3, H4, H5.
  split; [|split; [|split; [|split; [|split; [|split]]]]]; try assumption.
  - rewrite map_app, map_map. cbn [fst]. apply NoDup_app_intro; [assumption|apply new_rows_nodup|].
    intros x I J. apply new_rows_fresh in J. apply in_map_iff in I as ((f & d & l) & <- & I). apply C5 in I. cbn in J. lia.
  - intros f d l I. apply in_app_or in I as [I|I].
    + destruct (C5 f d l I). split; [assumption|lia].
    + apply in_map_iff in I as (r & [= <- <- <-] & I). split; [assumption|].
      apply (in_map fst), new_rows_fresh in I. lia.
  - intros d f i r I. destruct (C6 d f i r I) as [l L]. exists l. apply in_or_app. now left.
Qed.

Section Chunks.
  Variable castable : list str -> list mprop -> list sample -> bool.
  Variable metadata_of : str -> res (list (Z * record)).
  Notation insert_samples := (insert_samples castable).
  Notation insert_chunks := (insert_chunks castable metadata_of).

  Lemma in_sample_rows did props results d f i r :
    In ((d, f, i), r) (sample_rows did props results) -> d = did /\ In f (map fst results).
  Proof.
    unfold sample_rows. rewrite in_flat_map. intros ([f' ms] & I & J). apply in_map_iff in J as (m & [= <- <- <- <-] & J).
    split; [reflexivity|]. apply in_map_iff. exists (f', ms). auto.
  Qed.
  Lemma insert_samples_ok s did props results s' : insert_samples s did props results = Some s' ->
    consistent s -> (forall f, In f (map fst results) -> exists l, In (f, (did, l)) (files s)) ->
    consistent s' /\ datasets s' = datasets s /\ files s' = files s /\ version s' = version s /\
    next_dataset s' = next_dataset s /\ next_file s' = next_file s /\
    samples s' = samples s ++ sample_rows did props results.
  Proof.
    unfold MdcModel.insert_samples. intros H C F. destruct (_ && _) eqn:E; [|discriminate]. injection H as <-.
    apply andb_true_iff in E as [_ E]. apply no_dup_keys_spec in E. split; [|cbn; auto 10].
    destruct C as (C1 & C2 & C3 & C4 & C5 & C6 & C7). unfold consistent, list_datasets. cbn [set_samples datasets files samples next_dataset next_file].
    split; [|split; [|split; [|split; [|split; [|split]]]]]; try assumption.
    intros d f i r I. apply in_app_or in I as [I|I]; [eauto|]. apply in_sample_rows in I as [-> I]. now apply F.
  Qed.
  Lemma sequence_ok {A B} (g : A -> res B) l r : sequence (map g l) = Ok r -> map g l = map Ok r.
  Proof.
    revert r. induction l as [|x l IH]; intros r H; cbn in *; [injection H as <-; reflexivity|].
    destruct (g x) as [b|]; [|discriminate]. destruct (sequence (map g l)) as [r'|]; [|discriminate]. injection H as <-.
    cbn. now rewrite (IH r').
  Qed.
  Lemma chunk_results (c : list (Z * str)) (results : list (Z * list (Z * record))) :
    sequence (map (fun t => match metadata_of (snd t) with Ok m => Ok (fst t, m) | Err e => Err e end) c) = Ok results ->
    map fst results = map fst c /\ map metadata_of (map snd c) = map Ok (map snd results).
  Proof.
    intros H. apply sequence_ok in H. revert results H.
    induction c as [|[f l] c IH]; intros [|[f' m] results] H; cbn [map fst snd] in *; try discriminate; [auto|].
    destruct (metadata_of l) as [m'|e]; [|discriminate]. injection H as -> -> H. destruct (IH results H) as [-> ->]. auto.
  Qed.
  (** all states while the chunks go in *)
  Lemma insert_chunks_trace s did props : forall chunks s0 tr ok,
    consistent s0 -> (forall f l, In (f, l) (concat chunks) -> exists l, In (f, (did, l)) (files s0)) ->
    insert_chunks s0 did props chunks = (tr, ok) ->
    grown s did (hd (([], DInfo [] 0 [])) (map snd (filter (fun d => fst d =? did) (datasets s0)))) s0 ->
    Forall (fun s' => consistent s' /\ datasets s' = datasets s0 /\ files s' = files s0 /\ version s' = version s0 /\
       grown s did (hd (([], DInfo [] 0 [])) (map snd (filter (fun d => fst d =? did) (datasets s0)))) s') tr.
  Proof.
    induction chunks as [|c chunks IH]; intros s0 tr ok C F H G; cbn [MdcModel.insert_chunks] in H.
    { injection H as <- <-. constructor. }
    destruct (sequence _) as [results|] eqn:Q; [|injection H as <- <-; constructor].
    destruct (insert_samples s0 did props results) as [s1|] eqn:I; [|injection H as <- <-; constructor].
    destruct (insert_chunks s1 did props chunks) as [tr' ok'] eqn:R. injection H as <- <-.
    apply chunk_results in Q as [Q _].
    destruct (insert_samples_ok _ _ _ _ _ I C) as (C1 & E1 & E2 & E3 & E4 & E5 & E6).
    { intros f Hf. rewrite Q in Hf. apply in_map_iff in Hf as ([f' l] & <- & Hf). apply (F f' l). cbn. apply in_or_app. now left. }
    assert (G1 : grown s did (hd (([], DInfo [] 0 [])) (map snd (filter (fun d => fst d =? did) (datasets s0)))) s1).
    { destruct G as (G1 & G2 & ss & G3 & G4). split; [congruence|]. split; [rewrite E2; exact G2|].
      exists (ss ++ sample_rows did props results). rewrite E6, G3, app_assoc. split; [reflexivity|].
      apply Forall_app. split; [assumption|]. apply Forall_forall. intros [[[d f] i] r] Hr. apply in_sample_rows in Hr. cbn. tauto. }
    constructor; [auto 10|]. apply IH in R; [|assumption| |rewrite E1; exact G1].
    - eapply Forall_impl; [|exact R]. cbn. intros x (X1 & X2 & X3 & X4 & X5). rewrite E1 in X2, X5.
      split; [exact X1|]. split; [exact X2|]. split; [congruence|]. split; [congruence|exact X5].
    - intros f l Hf. rewrite E2. apply (F f l). cbn. apply in_or_app. now right.
  Qed.
  (** the final state if all went well *)
  Lemma insert_chunks_done did props : forall chunks s0 tr,
    consistent s0 -> (forall f l, In (f, l) (concat chunks) -> exists l, In (f, (did, l)) (files s0)) ->
    insert_chunks s0 did props chunks = (tr, true) ->
    exists metas, map metadata_of (map snd (concat chunks)) = map Ok metas /\
      samples (last_db s0 tr) = samples s0 ++ sample_rows did props (combine (map fst (concat chunks)) metas) /\
      consistent (last_db s0 tr) /\
      datasets (last_db s0 tr) = datasets s0 /\ files (last_db s0 tr) = files s0 /\ version (last_db s0 tr) = version s0.
  Proof.
    induction chunks as [|c chunks IH]; intros s0 tr C F H; cbn [MdcModel.insert_chunks] in H.
    { injection H as <-. exists []. cbn. rewrite app_nil_r. auto 10. }
    destruct (sequence _) as [results|] eqn:Q; [|discriminate].
    destruct (insert_samples s0 did props results) as [s1|] eqn:I; [|discriminate].
    destruct (insert_chunks s1 did props chunks) as [tr' ok'] eqn:R. injection H as <- ->.
    apply chunk_results in Q as [Q1 Q2].
    destruct (insert_samples_ok _ _ _ _ _ I C) as (C1 & E1 & E2 & E3 & E4 & E5 & E6).
    { intros f Hf. rewrite Q1 in Hf. apply in_map_iff in Hf as ([f' l] & <- & Hf). apply (F f' l). cbn. apply in_or_app. now left. }
    destruct (IH s1 tr' C1) as (metas & M1 & M2 & M3 & M4 & M5 & M6); [|assumption|].
    { intros f l Hf. rewrite E2. apply (F f l). cbn. apply in_or_app. now right. }
    assert (L : last_db s0 (s1 :: tr') = last_db s1 tr').
    { unfold last_db. cbn. destruct tr' as [|x tr']; [reflexivity|]. clear. revert x. induction tr' as [|y tr' IH]; intros x; [reflexivity|].
      cbn in *. apply IH. }
    rewrite L. exists (map snd results ++ metas). cbn [concat]. split; [rewrite !map_app, Q2, M1; reflexivity|].
    split; [|split; [exact M3|split; [congruence|split; congruence]]].
    rewrite M2, E6, <- app_assoc. f_equal. rewrite map_app, <- Q1.
    assert (CB : combine (map fst results ++ map fst (concat chunks)) (map snd results ++ metas) =
                 results ++ combine (map fst (concat chunks)) metas).
    { clear. induction results as [|[a b] results IH]; [reflexivity|]. cbn. now rewrite IH. }
    rewrite CB. unfold sample_rows. now rewrite flat_map_app.
  Qed.
End Chunks.

Lemma chunks_of_concat {A} n (l : list A) : (0 < n)%nat -> forall fuel, (length l <= fuel)%nat -> concat (chunks_of fuel n l) = l.
Proof.
  intros Hn fuel. revert l. induction fuel as [|fuel IH]; intros l H.
  - destruct l; [reflexivity|cbn in H; lia].
  - destruct l as [|x l]; [reflexivity|]. cbn [chunks_of concat]. rewrite IH; [apply firstn_skipn|].
    rewrite skipn_length. cbn [length] in *. lia.
Qed.
Lemma chunk_size_pos : (0 < chunk_size)%nat.
Proof. unfold chunk_size. lia. Qed.
Lemma of_dataset_grown s did nm s' d : consistent s -> grown s did nm s' -> d <> did -> of_dataset s' d = of_dataset s d.
Proof.
  intros C (G1 & (fs & G2) & (ss & G3 & G4)) N. unfold of_dataset. rewrite G1, G2, G3, !filter_app.
  assert (E1 : filter (fun x : Z * (str * dinfo) => fst x =? d) [(did, nm)] = []) by (cbn; replace (did =? d) with false by lia; reflexivity).
  assert (E2 : filter (fun f : Z * (Z * str) => fst (snd f) =? d) (map (fun r => (fst r, (did, snd r))) fs) = []).
  { clear - N. induction fs as [|r fs IH]; [reflexivity|]. cbn. replace (did =? d) with false by lia. exact IH. }
  assert (E3 : filter (fun r : sample => fst (fst (fst r)) =? d) ss = []).
  { clear - G4 N. induction G4 as [|r ss H F IH]; [reflexivity|]. cbn [filter]. rewrite H. replace (did =? d) with false by lia. exact IH. }
  rewrite E1, E2, !app_nil_r. f_equal. f_equal. etransitivity; [|apply app_nil_r]. f_equal. exact E3.
Qed.

(** ** The whole registration *)
Lemma grown_did s did nm s' : grown s did nm s' -> In did (map fst (datasets s')).
Proof. intros (G & _). rewrite G, map_app. apply in_or_app. right. now left. Qed.

Lemma combine_maps {A B} (a : list A) : forall (b : list B), length a = length b ->
  map fst (combine a b) = a /\ map snd (combine a b) = b.
Proof.
  induction a as [|x a IH]; intros [|y b] L; try discriminate; [auto|]. cbn in *. destruct (IH b) as [-> ->]; auto.
Qed.
Section Whole.
  Variable castable : list str -> list mprop -> list sample -> bool.
  Variable metadata_of : str -> res (list (Z * record)).
  Notation register := (register castable metadata_of).
  Notation insert_chunks := (insert_chunks castable metadata_of).

  Definition reg_state (s : db) (name : str) (info : dinfo) (s' : db) : Prop :=
    consistent s' /\ grown s (next_dataset s) (name, info) s' /\ version s <= version s' <= version s + 3 /\
    (samples s' = samples s \/ version s + 2 <= version s') /\ (columns s' = columns s \/ version s + 1 <= version s').
  Lemma in_chunks (fids : list Z) (locs : list str) n (P : Z -> Prop) : (0 < n)%nat -> length fids = length locs -> Forall P fids ->
    forall f l, In (f, l) (concat (chunks_of (length locs) n (combine fids locs))) -> P f.
  Proof.
    intros Hn HL F f l I. rewrite chunks_of_concat in I; [|assumption|rewrite combine_length; lia].
    apply in_combine_l in I. rewrite Forall_forall in F. auto.
  Qed.
  Lemma insert_chunks_trace' s did nm props chunks s0 tr ok :
    consistent s0 -> (forall f l, In (f, l) (concat chunks) -> exists l, In (f, (did, l)) (files s0)) ->
    insert_chunks s0 did props chunks = (tr, ok) -> grown s did nm s0 ->
    Forall (fun s' => consistent s' /\ version s' = version s0 /\ grown s did nm s') tr.
  Proof.
    intros C F H G.
    set (h := hd (([], DInfo [] 0 [])) (map snd (filter (fun d => fst d =? did) (datasets s0)))).
    assert (N : NoDup (map fst (datasets s0))) by apply C.
    assert (X : h = nm).
    { subst h. destruct G as (G & _). rewrite G in *. rewrite filter_app, map_app. cbn [filter fst]. rewrite Z.eqb_refl.
      assert (E : filter (fun d : Z * (str * dinfo) => fst d =? did) (datasets s) = []).
      { rewrite map_app in N. apply NoDup_remove_2 in N. rewrite app_nil_r in N. cbn in N. clear - N.
        induction (datasets s) as [|[a b] l IH]; [reflexivity|]. cbn in *. destruct (a =? did) eqn:E; [|auto].
        exfalso. apply N. left. lia. }
      rewrite E. reflexivity. }
    assert (T := insert_chunks_trace castable metadata_of s did props chunks s0 tr ok C F H). fold h in T. rewrite X in T.
    eapply Forall_impl; [|exact (T G)]. cbn. tauto.
  Qed.
  Lemma register_trace s name info vt found schema tr o : consistent s ->
    register s name info vt found schema = (tr, o) -> Forall (reg_state s name info) tr.
  Proof.
    intros C H. unfold MdcModel.register in H. destruct (negb vt); [injection H as <- <-; constructor|].
    destruct (insert_dataset s name info) as [[s1 did]|] eqn:I; [|injection H as <- <-; constructor].
    destruct (consistent_insert_dataset _ _ _ _ _ C I) as (C1 & -> & NI & G1 & V1 & S1 & F1 & NF1 & CO1).
    set (s2 := incr_version s1) in H.
    assert (C2 : consistent s2) by (apply (consistent_same s1); auto).
    assert (G2 : grown s (next_dataset s) (name, info) s2) by (apply (grown_same _ _ _ s1); auto).
    assert (V2 : version s2 = version s + 1) by (unfold s2; cbn; lia).
    assert (S2 : samples s2 = samples s) by exact S1.
    assert (R1 : reg_state s name info s1) by (split; [exact C1|split; [exact G1|split; [lia|split; left; assumption]]]).
    assert (R2 : reg_state s name info s2) by (split; [exact C2|split; [exact G2|split; [lia|split; [left; assumption|right; lia]]]]).
    destruct found as [locs|e]; [|injection H as <- <-; auto].
    destruct locs as [|l0 locs0]; [injection H as <- <-; auto|]. set (locs := l0 :: locs0) in *.
    destruct schema as [props|]; [|injection H as <- <-; auto].
    destruct (add_columns s2 props) as [tr3 ok3] eqn:A. assert (TA := add_columns_trace _ _ _ _ A).
    assert (R3 : forall x, (datasets x = datasets s2 /\ files x = files s2 /\ samples x = samples s2 /\ version x = version s2 /\
                    next_dataset x = next_dataset s2 /\ next_file x = next_file s2) -> reg_state s name info x /\ version x = version s + 1 /\
                    samples x = samples s /\ In (next_dataset s) (map fst (datasets x))).
    { intros x (X1 & X2 & X3 & X4 & X5 & X6).
      assert (G : grown s (next_dataset s) (name, info) x) by (apply (grown_same _ _ _ s2); auto).
      split; [|split; [lia|split; [congruence|eapply grown_did, G]]].
      split; [apply (consistent_same s2); auto|]. split; [exact G|]. split; [lia|]. split; [left; congruence|right; lia]. }
    assert (T3 : Forall (reg_state s name info) tr3) by (eapply Forall_impl; [|exact TA]; intros x X; now apply R3).
    destruct (negb ok3); [injection H as <- <-; constructor; auto|].
    set (s3 := last_db s2 tr3) in H.
    assert (X3 : reg_state s name info s3 /\ version s3 = version s + 1 /\ samples s3 = samples s /\ In (next_dataset s) (map fst (datasets s3))).
    { apply R3. apply last_db_forall with (P := fun x => datasets x = datasets s2 /\ files x = files s2 /\ samples x = samples s2 /\
        version x = version s2 /\ next_dataset x = next_dataset s2 /\ next_file x = next_file s2); auto 10. }
    destruct X3 as (RS3 & V3 & S3 & D3). destruct (insert_files s3 (next_dataset s) locs) as [s4 fids] eqn:IF.
    destruct RS3 as (C3 & G3 & _).
    assert (C4 := consistent_insert_files _ _ _ _ _ C3 D3 IF).
    destruct (insert_files_facts _ _ _ _ _ IF) as (E1 & E2 & E3 & E4 & E5 & E6 & E7 & E8 & _).
    assert (G4 : grown s (next_dataset s) (name, info) s4).
    { destruct G3 as (P1 & (fs & P2) & P3). split; [congruence|]. split; [|rewrite E2; exact P3].
      exists (fs ++ new_rows s3 locs). now rewrite E5, P2, map_app, app_assoc. }
    set (s5 := incr_version s4) in H.
    assert (C5 : consistent s5) by (apply (consistent_same s4); auto).
    assert (G5 : grown s (next_dataset s) (name, info) s5) by (apply (grown_same _ _ _ s4); auto).
    assert (V5 : version s5 = version s + 2) by (unfold s5; cbn; lia).
    assert (R4 : reg_state s name info s4) by (split; [exact C4|split; [exact G4|split; [lia|split; [left; congruence|right; lia]]]]).
    assert (R5 : reg_state s name info s5) by (split; [exact C5|split; [exact G5|split; [lia|split; right; lia]]]).
    set (chunks := chunks_of _ _ _) in H. destruct (insert_chunks s5 (next_dataset s) props chunks) as [tr6 ok6] eqn:IC.
    assert (FF : forall f l, In (f, l) (concat chunks) -> exists l, In (f, (next_dataset s, l)) (files s5)).
    { intros f l Hf. apply in_chunks with (P := fun i => In i (map fst (new_rows s3 locs))) in Hf; [|apply chunk_size_pos|assumption|assumption].
      apply in_map_iff in Hf as (r & <- & Hr). exists (snd r). cbn. rewrite E5. apply in_or_app. right. apply in_map_iff. exists r. auto. }
    assert (T6 := insert_chunks_trace' s _ _ _ _ _ _ _ C5 FF IC G5).
    assert (R6 : Forall (reg_state s name info) tr6).
    { eapply Forall_impl; [|exact T6]. cbn. intros x (X1 & X2 & X3). split; [exact X1|split; [exact X3|split; [lia|split; right; lia]]]. }
    destruct (negb ok6).
    - injection H as <- <-. constructor; [auto|]. constructor; [auto|]. rewrite !Forall_app. cbn. auto.
    - injection H as <- <-. constructor; [auto|]. constructor; [auto|]. apply Forall_app. split; [assumption|].
      constructor; [assumption|]. constructor; [assumption|]. apply Forall_app. split; [assumption|]. constructor; [|constructor].
      assert (X : consistent (last_db s5 tr6) /\ version (last_db s5 tr6) = version s5 /\ grown s (next_dataset s) (name, info) (last_db s5 tr6)).
      { apply last_db_forall with (P := fun x => consistent x /\ version x = version s5 /\ grown s (next_dataset s) (name, info) x); auto. }
      destruct X as (X1 & X2 & X3). split; [apply (consistent_same (last_db s5 tr6)); auto|].
      split; [apply (grown_same _ _ _ (last_db s5 tr6)); auto|]. cbn. split; [lia|split; right; lia].
  Qed.

  (** what a completed registration stores *)
  Lemma register_done s name info vt found schema tr : consistent s ->
    register s name info vt found schema = (tr, Done true) ->
    let s' := last_db s tr in
    exists locs props metas, found = Ok locs /\ locs <> [] /\ schema = Some props /\ ~ In name (list_datasets s) /\
      map metadata_of locs = map Ok metas /\ length metas = length locs /\
      datasets s' = datasets s ++ [(next_dataset s, (name, info))] /\
      files s' = files s ++ map (fun r => (fst r, (next_dataset s, snd r))) (new_files s locs) /\
      (NoDup locs -> samples s' = samples s ++ sample_rows (next_dataset s) props (combine (map fst (new_files s locs)) metas)) /\
      version s' = version s + 3.
  Proof.
    intros C H. unfold MdcModel.register in H. destruct (negb vt); [discriminate|].
    destruct (insert_dataset s name info) as [[s1 did]|] eqn:I; [|discriminate].
    destruct (consistent_insert_dataset _ _ _ _ _ C I) as (C1 & -> & NI & G1 & V1 & S1 & F1 & NF1 & _).
    assert (DS1 : datasets s1 = datasets s ++ [(next_dataset s, (name, info))]) by apply G1.
    set (s2 := incr_version s1) in H.
    assert (C2 : consistent s2) by (apply (consistent_same s1); auto).
    assert (V2 : version s2 = version s + 1) by (unfold s2; cbn; lia).
    assert (S2 : samples s2 = samples s) by exact S1. assert (F2 : files s2 = files s) by exact F1.
    assert (NF2 : next_file s2 = next_file s) by exact NF1. assert (DS2 : datasets s2 = datasets s1) by reflexivity.
    destruct found as [locs|e]; [|discriminate].
    destruct locs as [|l0 locs0]; [discriminate|]. set (locs := l0 :: locs0) in *.
    destruct schema as [props|]; [|discriminate].
    destruct (add_columns s2 props) as [tr3 ok3] eqn:A. assert (TA := add_columns_trace _ _ _ _ A).
    destruct (negb ok3); [discriminate|]. set (s3 := last_db s2 tr3) in H.
    assert (X3 : datasets s3 = datasets s2 /\ files s3 = files s2 /\ samples s3 = samples s2 /\
        version s3 = version s2 /\ next_dataset s3 = next_dataset s2 /\ next_file s3 = next_file s2).
    { apply last_db_forall with (P := fun x => datasets x = datasets s2 /\ files x = files s2 /\ samples x = samples s2 /\
        version x = version s2 /\ next_dataset x = next_dataset s2 /\ next_file x = next_file s2); auto 10. }
    destruct X3 as (D3 & F3 & S3 & V3 & ND3 & NF3).
    assert (C3 : consistent s3) by (apply (consistent_same s2); auto).
    destruct (insert_files s3 (next_dataset s) locs) as [s4 fids] eqn:IF.
    assert (ID : In (next_dataset s) (map fst (datasets s3))).
    { rewrite D3, DS2, DS1, map_app. apply in_or_app. right. now left. }
    assert (C4 := consistent_insert_files _ _ _ _ _ C3 ID IF).
    destruct (insert_files_facts _ _ _ _ _ IF) as (E1 & E2 & E3 & E4 & E5 & E6 & E7 & E8 & E9).
    assert (NR : new_rows s3 locs = new_files s locs) by (unfold new_rows, new_files; now rewrite NF3, NF2).
    rewrite NR in *.
    set (s5 := incr_version s4) in H. assert (C5 : consistent s5) by (apply (consistent_same s4); auto).
    set (chunks := chunks_of _ _ _) in H. destruct (insert_chunks s5 (next_dataset s) props chunks) as [tr6 ok6] eqn:IC.
    assert (FF : forall f l, In (f, l) (concat chunks) -> exists l, In (f, (next_dataset s, l)) (files s5)).
    { intros f l Hf. apply in_chunks with (P := fun i => In i (map fst (new_files s locs))) in Hf; [|apply chunk_size_pos|assumption|assumption].
      apply in_map_iff in Hf as (r & <- & Hr). exists (snd r). cbn. rewrite E5. apply in_or_app. right. apply in_map_iff. exists r. auto. }
    destruct ok6; cbn [negb] in H; [|discriminate]. injection H as <-.
    destruct (insert_chunks_done castable metadata_of _ _ _ _ _ C5 FF IC) as (metas & M1 & M2 & M3 & M4 & M5 & M6).
    assert (CC : concat chunks = combine fids locs).
    { apply chunks_of_concat; [apply chunk_size_pos|]. rewrite combine_length. lia. }
    rewrite CC in *.
    destruct (combine_maps fids locs E7) as [FN SN].
    rewrite SN in M1. rewrite FN in M2.
    assert (LA : last_db s (s1 :: s2 :: tr3 ++ s4 :: s5 :: tr6 ++ [incr_version (last_db s5 tr6)]) = incr_version (last_db s5 tr6)).
    { unfold last_db at 1. change (s1 :: s2 :: tr3 ++ s4 :: s5 :: tr6 ++ [incr_version (last_db s5 tr6)]) with
        ((s1 :: s2 :: tr3) ++ (s4 :: s5 :: tr6) ++ [incr_version (last_db s5 tr6)]). rewrite app_assoc. apply last_app_one. }
    cbn zeta. cbn [app]. rewrite LA. exists locs, props, metas. cbn [incr_version datasets files samples version].
    split; [reflexivity|]. split; [discriminate|]. split; [reflexivity|]. split; [assumption|]. split; [assumption|].
    split. { rewrite <- (map_length (@Ok _) metas), <- M1. apply map_length. }
    split; [rewrite M4; cbn; rewrite E1, D3, DS2; exact DS1|].
    split; [rewrite M5; cbn; rewrite E5, F3, F2; reflexivity|].
    split; [|rewrite M6; cbn; lia].
    intros N. rewrite M2. cbn [s5 incr_version samples]. rewrite E2, S3, S2, (E9 N). reflexivity.
  Qed.
End Whole.
