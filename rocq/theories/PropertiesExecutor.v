(** C47: property calculation labels every row. *)
From Verif Require Import Base MixtureKeyModel ChunkGenModel ReaderModel SpecReader ReaderProofs ExecutorModel.
Open Scope Z_scope.

(** The lines of a list of files, each with its file, dataset and line number. *)
Definition all_lines (rstrip : str -> str) (files : list ((Z * Z) * str)) : list lrow :=
  flat_map (fun f => map (fun il => (rstrip (snd il), (fst (fst f), (snd (fst f), fst il))))
                         (numbered (local_file_iterable (snd f)))) files.
Definition existing (files : list ((Z * Z) * str)) : list ifile := map (fun f => (fst f, Some (Some (snd f)))) files.

Lemma load_lines_ok bsz f d ls : forall bs cur,
  let out := load_lines bsz f d ls bs cur in
  concat (fst out) ++ snd out = concat bs ++ cur ++ map (fun il => (snd il, (f, (d, fst il)))) ls.
Proof.
  induction ls as [|[i l] ls IH]; intros bs cur; cbn [load_lines map fst snd].
  - now rewrite app_nil_r.
  - destruct (_ =? bsz); cbn zeta in IH; rewrite IH.
    + rewrite concat_app. cbn. now rewrite app_nil_r, <- !app_assoc.
    + now rewrite <- !app_assoc.
Qed.
(** every batch but the last has exactly the batch size, the last at most *)
Lemma load_lines_sizes bsz f d ls : forall bs cur, 0 < bsz -> Z.of_nat (length cur) < bsz ->
  Forall (fun b => Z.of_nat (length b) = bsz) bs ->
  let out := load_lines bsz f d ls bs cur in
  Forall (fun b => Z.of_nat (length b) = bsz) (fst out) /\ Z.of_nat (length (snd out)) < bsz.
Proof.
  induction ls as [|[i l] ls IH]; intros bs cur P C F; cbn [load_lines fst snd]; [auto|].
  destruct (Z.of_nat (length (cur ++ [(l, (f, (d, i)))])) =? bsz) eqn:E.
  - apply IH; [assumption|cbn; lia|]. apply Forall_app. split; [assumption|]. constructor; [lia|constructor].
  - apply IH; [assumption|rewrite app_length in *; cbn [length] in *; lia|assumption].
Qed.
Lemma load_files_ok rstrip bsz files : forall bs cur,
  exists bs' cur', load_files rstrip bsz (existing files) bs cur = (bs', Ok cur') /\
  concat bs' ++ cur' = concat bs ++ cur ++ all_lines rstrip files.
Proof.
  induction files as [|[[f d] raw] files IH]; intros bs cur.
  - exists bs, cur. cbn. now rewrite app_nil_r.
  - cbn [existing map load_files read_samples fst snd]. set (ls := map _ (combine _ _)).
    assert (X := load_lines_ok bsz f d ls bs cur). cbn zeta in X.
    destruct (load_lines bsz f d ls bs cur) as [bs1 cur1]. cbn [fst snd] in X.
    destruct (IH bs1 cur1) as (bs' & cur' & E & C). exists bs', cur'. split; [exact E|].
    rewrite C, app_assoc, X. cbn [all_lines flat_map fst snd]. rewrite <- !app_assoc. f_equal. f_equal. f_equal.
    unfold ls. rewrite map_map. reflexivity.
Qed.
Lemma load_files_sizes rstrip bsz files : forall bs cur, 0 < bsz -> Z.of_nat (length cur) < bsz ->
  Forall (fun b => Z.of_nat (length b) = bsz) bs ->
  let out := load_files rstrip bsz files bs cur in
  Forall (fun b => Z.of_nat (length b) = bsz) (fst out) /\ (forall cur', snd out = Ok cur' -> Z.of_nat (length cur') < bsz).
Proof.
  induction files as [|[[f d] src] files IH]; intros bs cur P C F; cbn [load_files fst snd].
  - split; [assumption|]. now intros cur' [= <-].
  - destruct (read_samples rstrip src) as [ls|e]; [|split; [assumption|discriminate]].
    destruct (load_lines_sizes bsz f d ls bs cur P C F) as [H1 H2].
    destruct (load_lines bsz f d ls bs cur) as [bs1 cur1]. now apply IH.
Qed.

(** Loading readable files adds batches that contain every line of every file exactly once, in order; with a positive
    batch size no batch is larger, and all new ones but the last are full. *)
Theorem C47_load (rstrip : str -> str) (batch_size : Z) (files : list ((Z * Z) * str)) (old : list batch) :
  exists new, load_data rstrip batch_size (existing files) old = (old ++ new, None) /\
    concat new = all_lines rstrip files /\
    (0 < batch_size -> Forall (fun b => Z.of_nat (length b) = batch_size) (removelast new) /\
                       Forall (fun b => 0 < Z.of_nat (length b) <= batch_size) new).
Proof.
  assert (PFX : forall fs bs cur, exists new, fst (load_files rstrip batch_size fs bs cur) = bs ++ new).
  { clear. intros fs. induction fs as [|[[f d] src] fs IH]; intros bs cur; cbn [load_files].
    - exists []. cbn. now rewrite app_nil_r.
    - destruct (read_samples rstrip src) as [ls|e]; [|exists []; cbn; now rewrite app_nil_r].
      assert (X : exists n, fst (load_lines batch_size f d ls bs cur) = bs ++ n).
      { revert bs cur. clear. induction ls as [|[i l] ls IHl]; intros bs cur; cbn [load_lines].
        - exists []. cbn. now rewrite app_nil_r.
        - destruct (_ =? batch_size).
          + destruct (IHl (bs ++ [cur ++ [(l, (f, (d, i)))]]) []) as [n ->]. rewrite <- app_assoc. eauto.
          + apply IHl. }
      destruct X as [n X]. destruct (load_lines batch_size f d ls bs cur) as [bs1 cur1]. cbn [fst] in X. subst bs1.
      destruct (IH (bs ++ n) cur1) as [n2 ->]. rewrite <- app_assoc. eauto. }
  unfold load_data. destruct (load_files_ok rstrip batch_size files old []) as (bs' & cur' & E & C).
  destruct (PFX (existing files) old []) as [new N]. rewrite E in N. cbn [fst] in N. subst bs'. rewrite E.
  rewrite concat_app, <- app_assoc in C. apply app_inv_head in C. cbn [app] in C.
  exists (match cur' with [] => new | _ => new ++ [cur'] end). split; [destruct cur'; [reflexivity|now rewrite app_assoc]|].
  split.
  { destruct cur'; [now rewrite app_nil_r in C|]. rewrite concat_app. cbn. now rewrite app_nil_r. }
  intros P.
  assert (S : Forall (fun b => Z.of_nat (length b) = batch_size) new /\ Z.of_nat (length cur') < batch_size).
  { (* the new batches do not depend on the old ones *)
    assert (IND : forall fs bs cur, load_files rstrip batch_size fs bs cur =
       (bs ++ fst (load_files rstrip batch_size fs [] cur), snd (load_files rstrip batch_size fs [] cur))).
    { clear. intros fs. induction fs as [|[[f d] src] fs IH]; intros bs cur; cbn [load_files].
      - cbn. now rewrite app_nil_r.
      - destruct (read_samples rstrip src) as [ls|e]; [|cbn; now rewrite app_nil_r].
        assert (X : forall ls bs cur, load_lines batch_size f d ls bs cur =
           (bs ++ fst (load_lines batch_size f d ls [] cur), snd (load_lines batch_size f d ls [] cur))).
        { clear. intros ls. induction ls as [|[i l] ls IHl]; intros bs cur; cbn [load_lines]; [cbn; now rewrite app_nil_r|].
          destruct (_ =? batch_size); [|apply IHl]. rewrite (IHl (bs ++ _)), (IHl ([] ++ [_])). cbn [fst snd].
          now rewrite <- !app_assoc. }
        rewrite (X ls bs cur). destruct (load_lines batch_size f d ls [] cur) as [b1 c1]. cbn [fst snd].
        rewrite (IH (bs ++ b1)), (IH b1). cbn [fst snd]. now rewrite <- app_assoc. }
    rewrite IND in E. injection E as E1 E2. apply app_inv_head in E1.
    destruct (load_files_sizes rstrip batch_size (existing files) [] [] P ltac:(cbn; lia) ltac:(constructor)) as [Z1 Z2].
    split; [rewrite <- E1; exact Z1|]. apply Z2. exact E2. }
  destruct S as [S1 S2]. split.
  - destruct cur'.
    + clear - S1. induction S1 as [|b l Hb F IH]; [constructor|]. destruct l; [constructor|]. constructor; assumption.
    + rewrite removelast_app by discriminate. cbn. now rewrite app_nil_r.
  - assert (S3 : Forall (fun b => 0 < Z.of_nat (length b) <= batch_size) new).
    { eapply Forall_impl; [|exact S1]. cbn. intros a Ha. rewrite Ha. lia. }
    destruct cur'; [assumption|]. apply Forall_app. split; [assumption|]. constructor; [|constructor]. cbn [length] in *. lia.
Qed.

(** Whatever the calculation function does: if running succeeds there is exactly one result for each line, under the
    line's file, dataset and line number, in order. *)
Lemma run_rows_ids {P} (ok : P -> bool) preds : forall b r, length preds = length b -> run_rows ok preds b = Ok r ->
  map snd r = map snd b /\ map fst r = preds.
Proof.
  induction preds as [|p preds IH]; intros [|[x ids] b] r L H; cbn [run_rows length] in *; try discriminate.
  - now injection H as <-.
  - destruct (ok p); [|discriminate]. destruct (run_rows ok preds b) as [r'|] eqn:E; [|discriminate].
    injection H as <-. cbn. destruct (IH b r' ltac:(lia) E) as [-> ->]. auto.
Qed.
Theorem C47_one_result_per_line {P} (ok : P -> bool) (calc : batch -> res (list P)) (bs : list batch) r :
  run ok calc bs = Ok r -> map snd r = map snd (concat bs).
Proof.
  revert r. induction bs as [|b bs IH]; intros r H; cbn [run concat] in *; [now injection H as <-|].
  destruct (calc b) as [preds|]; [|discriminate]. destruct (Nat.eqb_spec (length preds) (length b)); [|discriminate]. cbn [negb] in H.
  destruct (run_rows ok preds b) as [r1|] eqn:E; [|discriminate]. destruct (run ok calc bs) as [r2|]; [|discriminate].
  injection H as <-. rewrite !map_app. f_equal; [|now apply IH]. now apply (run_rows_ids ok preds).
Qed.
(** A calculation function that returns a wrong number of values is reported, never silently cut. *)
Theorem C47_length_mismatch_raises {P} (ok : P -> bool) (calc : batch -> res (list P)) (bs1 : list batch) b bs2 preds :
  calc b = Ok preds -> length preds <> length b -> exists e, run ok calc (bs1 ++ b :: bs2) = Err e.
Proof.
  intros C L. induction bs1 as [|b1 bs1 [e IH]]; cbn [app run].
  - rewrite C. apply Nat.eqb_neq in L. rewrite L. cbn. eauto.
  - destruct (calc b1) as [p1|]; [|eauto]. destruct (negb _); [eauto|]. destruct (run_rows ok p1 b1); [|eauto]. rewrite IH. eauto.
Qed.
(** Loading and running with a calculation function that treats each line on its own: exactly the value of each line
    of each file, independent of the batch size. *)
Theorem C47_values {P} (ok : P -> bool) (f : lrow -> P) (rstrip : str -> str) (batch_size : Z) (files : list ((Z * Z) * str)) :
  (forall x, ok (f x) = true) ->
  exists bs, load_data rstrip batch_size (existing files) [] = (bs, None) /\
    run ok (fun b => Ok (map f b)) bs = Ok (map (fun x => (f x, snd x)) (all_lines rstrip files)).
Proof.
  intros K. destruct (C47_load rstrip batch_size files []) as (bs & L & C & _). exists bs. split; [exact L|].
  rewrite <- C. clear - K. induction bs as [|b bs IH]; [reflexivity|]. cbn [run concat].
  rewrite map_length, Nat.eqb_refl. cbn [negb].
  assert (R : run_rows ok (map f b) b = Ok (map (fun x => (f x, snd x)) b)).
  { induction b as [|[x ids] b IHb]; [reflexivity|]. cbn [map run_rows]. now rewrite K, IHb. }
  now rewrite R, IH, map_app.
Qed.
(** Two batch sizes give the same result. *)
Corollary C47_batch_size_irrelevant {P} (ok : P -> bool) (f : lrow -> P) rstrip b1 b2 files :
  (forall x, ok (f x) = true) ->
  run ok (fun b => Ok (map f b)) (fst (load_data rstrip b1 (existing files) [])) =
  run ok (fun b => Ok (map f b)) (fst (load_data rstrip b2 (existing files) [])).
Proof.
  intros K. destruct (C47_values ok f rstrip b1 files K) as (x1 & E1 & R1).
  destruct (C47_values ok f rstrip b2 files K) as (x2 & E2 & R2). rewrite E1, E2. cbn [fst]. now rewrite R1, R2.
Qed.
(** A missing or unsupported file is reported. *)
Theorem C47_bad_file_raises (rstrip : str -> str) (batch_size : Z) (files : list ifile) (old : list batch) ids src :
  In (ids, src) files -> (forall raw, src <> Some (Some raw)) -> snd (load_data rstrip batch_size files old) <> None.
Proof.
  intros I B. unfold load_data. generalize (@nil lrow) as cur. revert old.
  induction files as [|[[f d] s] files IH]; intros old cur; [destruct I|]. cbn [load_files].
  destruct (read_samples rstrip s) as [ls|e] eqn:E; [|cbn; discriminate].
  destruct I as [I|I].
  - injection I as _ ->. destruct src as [[raw|]|]; [exfalso; exact (B raw eq_refl)|discriminate|discriminate].
  - destruct (load_lines batch_size f d ls old cur) as [bs c]. now apply IH.
Qed.

(** ** What the calculation function sees, in terms of the files' texts *)
(** Specification: [d] is the line [l] without the white space at its end. *)
Definition trimmed (l d : str) : Prop :=
  exists w, l = d ++ w /\ Forall (fun c => py_space c = true) w /\ (d = [] \/ py_space (last d 0) = false).
(** Specification: a file with its ids, its text and the lines of that text; the samples it stands for. *)
Definition labelled (f : (Z * Z) * (str * list str)) : list (str * (Z * (Z * Z))) :=
  map (fun il => (snd il, (fst (fst f), (snd (fst f), fst il)))) (numbered (snd (snd f))).

Lemma drop_head_spec f s : exists w, s = w ++ drop_head f s /\ Forall (fun c => f c = true) w /\
  (drop_head f s = [] \/ exists c t, drop_head f s = c :: t /\ f c = false).
Proof.
  induction s as [|c s (w & E & F & H)]; cbn [drop_head].
  - exists []. repeat split; auto.
  - destruct (f c) eqn:Fc.
    + exists (c :: w). split; [cbn; now f_equal|]. split; [now constructor|exact H].
    + exists []. split; [reflexivity|]. split; [constructor|]. right. eauto.
Qed.
Lemma drop_end_spec f s : exists w, s = drop_end f s ++ w /\ Forall (fun c => f c = true) w /\
  (drop_end f s = [] \/ f (last (drop_end f s) 0) = false).
Proof.
  unfold drop_end. destruct (drop_head_spec f (rev s)) as (w & E & F & H). exists (rev w). split.
  - rewrite <- (rev_involutive s), E at 1. apply rev_app_distr.
  - split; [now apply Forall_rev|]. destruct H as [->|(c & t & -> & Fc)]; [now left|right].
    cbn [rev]. rewrite last_last. exact Fc.
Qed.
Lemma seen_trimmed l : ~ In 0 l -> trimmed l (seen l).
Proof.
  intros N. unfold seen, np_str. destruct (drop_end_spec (Z.eqb 0) (py_rstrip l)) as (w & E & F & _).
  destruct (drop_end_spec py_space l) as (w2 & E2 & F2 & H2). fold (py_rstrip l) in E2, H2.
  assert (W : w = []).
  { destruct w as [|c w]; [reflexivity|]. exfalso. inversion F as [|? ? Fc _]; subst. apply N. rewrite E2, E.
    apply Z.eqb_eq in Fc. subst c. rewrite !in_app_iff. cbn. auto. }
  subst w. rewrite app_nil_r in E. rewrite <- E. exists w2. auto.
Qed.

(** Files without NUL characters: whatever the batch size, the batches together hold every line of every file's text once, in
    order, each without the white space at its end and under its own file, dataset and line number. *)
Theorem C47_seen (batch_size : Z) (files : list ((Z * Z) * (str * list str))) :
  Forall (fun f => text_lines (fst (snd f)) (snd (snd f)) /\ ~ In 0 (fst (snd f))) files ->
  exists bs, load_data seen batch_size (map (fun f => (fst f, Some (Some (fst (snd f))))) files) [] = (bs, None) /\
    Forall2 (fun x row => snd row = snd x /\ trimmed (fst x) (fst row)) (flat_map labelled files) (concat bs).
Proof.
  intros F. destruct (C47_load seen batch_size (map (fun f => (fst f, fst (snd f))) files) []) as (bs & L & C & _).
  exists bs. split; [unfold existing in L; rewrite map_map in L; exact L|]. rewrite C. clear L C bs.
  induction F as [|[[f d] [raw ls]] files [T N] F IH]; [constructor|]. cbn [fst snd] in T, N.
  cbn [map flat_map all_lines fst snd]. apply Forall2_app; [|exact IH].
  rewrite <- (text_lines_fun _ _ T). unfold labelled. cbn [fst snd].
  assert (NL : forall l, In l ls -> ~ In 0 l).
  { clear - T N. induction T as [|l NE I|l t ls I T IH|l t ls I T IH|l t ls I H T IH].
    - intros l [].
    - intros l' [<-|[]]. exact N.
    - intros l' [<-|J]; [|apply IH; [intros J'; apply N; apply in_or_app; right; right; exact J'|exact J]].
      intros J'. apply in_app_or in J' as [J'|[J'|[]]]; [|discriminate]. apply N. apply in_or_app. now left.
    - intros l' [<-|J]; [|apply IH; [intros J'; apply N; apply in_or_app; right; right; right; exact J'|exact J]].
      intros J'. apply in_app_or in J' as [J'|[J'|[]]]; [|discriminate]. apply N. apply in_or_app. now left.
    - intros l' [<-|J]; [|apply IH; [intros J'; apply N; apply in_or_app; right; right; exact J'|exact J]].
      intros J'. apply in_app_or in J' as [J'|[J'|[]]]; [|discriminate]. apply N. apply in_or_app. now left. }
  assert (NX : forall x, In x (numbered ls) -> ~ In 0 (snd x)).
  { intros x J. apply NL. unfold numbered in J. destruct x as [i l]. eapply in_combine_r; exact J. }
  revert NX. generalize (numbered ls) as nl. clear. induction nl as [|x nl IH]; intros NX; cbn [map]; constructor.
  - cbn [fst snd]. split; [reflexivity|]. apply seen_trimmed, NX. now left.
  - apply IH. intros y Hy. apply NX. now right.
Qed.
(** With NUL characters the values are not the lines': numpy's string arrays drop them, so two different samples look the same
    to the calculation function. *)
Theorem C47_nul_refuted : exists raw b1 b2,
  text_lines raw [[97; 0; 10]; [97; 10]] /\
  load_data seen 10 [((1, 1), Some (Some raw))] [] = ([[(b1, (1, (1, 0))); (b2, (1, (1, 1)))]], None) /\
  b1 = b2 /\ ~ trimmed [97; 0; 10] b1.
Proof.
  exists [97; 0; 10; 97; 10], [97], [97]. split.
  { apply (tl_lf [97; 0] [97; 10]); [split; intros [H|[H|[]]]; discriminate|].
    apply (tl_lf [97] []); [split; intros [H|[]]; discriminate|]. constructor. }
  split; [vm_compute; reflexivity|]. split; [reflexivity|].
  intros (w & E & F & _). injection E as <-. inversion F as [|? ? H _]. discriminate H.
Qed.

(** ** Non-vacuity *)
Example executor_example :
  let files := [((4, 9), [65; 10; 66; 10; 67]); ((5, 9), [68])] in
  load_data (fun l => filter (fun c => negb (c =? 10)) l) 2 (existing files) [] =
  ([[([65], (4, (9, 0))); ([66], (4, (9, 1)))]; [([67], (4, (9, 2))); ([68], (5, (9, 0)))]], None) /\
  all_lines (fun l => filter (fun c => negb (c =? 10)) l) files =
  [([65], (4, (9, 0))); ([66], (4, (9, 1))); ([67], (4, (9, 2))); ([68], (5, (9, 0)))].
Proof. split; reflexivity. Qed.
Example run_example :
  run (fun _ => true) (fun b : batch => Ok (map (fun x => Z.of_nat (length (fst x))) b)) [[([65], (4, (9, 0)))]; [([66; 66], (4, (9, 1)))]]
  = Ok [(1, (4, (9, 0))); (2, (4, (9, 1)))] /\
  run (fun _ : Z => true) (fun b : batch => Ok []) [[([65], (4, (9, 0)))]] = Err RuntimeError.
Proof. split; reflexivity. Qed.

Print Assumptions C47_load.
Print Assumptions C47_one_result_per_line.
Print Assumptions C47_length_mismatch_raises.
Print Assumptions C47_values.
Print Assumptions C47_batch_size_irrelevant.
Print Assumptions C47_bad_file_raises.
Print Assumptions C47_seen.
Print Assumptions C47_nul_refuted.
