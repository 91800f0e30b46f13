(** C28: the readers return exactly the requested rows.  C56: the numbers under which samples are indexed are the
    numbers under which they are read.  C57: reading through the server equals reading locally. *)
From Verif Require Import Base MixtureKeyModel MixtureKeyProofs UtilsModel ChunkGenModel ReaderModel SpecReader ReaderProofs.
Open Scope Z_scope.

(** ** C28 *)
(** jsonl: for every file and every sorted, non-overlapping list of ranges, exactly the requested lines, in order.
    Ranges may reach past the end of the file. *)
Theorem C28_jsonl_partial {A} (parse : str -> res A) (text : list str) (rs : list range) :
  tidy rs -> delivers parse (requested text rs) (jsonl_read_file parse text rs).
Proof. intros T. rewrite jsonl_read by assumption. apply delivers_gmap. Qed.

(** jsonl: any other list of well-formed ranges is refused with an error at the first offending range, after exactly
    the lines of the ranges before it were delivered: no line is ever silently left out or repeated. *)
Theorem C28_jsonl_untidy_raises {A} (f : str -> A) (text : list str) (rs : list range) :
  Forall (fun r => 0 <= fst r <= snd r) rs -> ~ tidy rs ->
  exists pre post, rs = pre ++ post /\ post <> [] /\ tidy pre /\ ~ tidy (pre ++ firstn 1 post) /\
    jsonl_read_file (fun l => Ok (f l)) text rs = (map f (requested text pre), Some RuntimeError).
Proof.
  intros W N. unfold jsonl_read_file.
  destruct (jsonl_ranges_bad f rs text 0 (-1) W ltac:(lia) ltac:(lia)) as [[T _]|(pre & post & E & H1 & T & F & X & J)].
  - contradiction.
  - exists pre, post. repeat split; try assumption; try apply T.
    + intros T2. apply X. split; [assumption|]. destruct T2 as [T2 _]. eapply Forall_impl; [|exact T2]. cbn. lia.
    + rewrite J. f_equal. f_equal. apply flat_map_ext. intros r. symmetry. apply rows_in_win.
Qed.

(** parquet: for every layout of row groups (empty ones included), however the table is cut into batches. *)
Theorem C28_parquet_partial {R A} (batches : list R -> list (list R)) (parse : R -> res A) (groups : list (list R)) rs :
  (forall l, concat (batches l) = l) -> tidy rs ->
  delivers parse (requested (concat groups) rs) (parquet_read_file batches parse groups rs).
Proof.
  intros B T. unfold parquet_read_file. rewrite parquet_read_rows by assumption. apply delivers_gmap.
Qed.

(** web: ranges inside the file. *)
Lemma tar_sample_ok (k : str) ms : k <> [] -> forall acc, NoDup (map fst acc ++ map fst ms) ->
  ~ In key_name (map fst acc ++ map fst ms) ->
  tar_sample k acc (map (fun m => ((k, fst m), snd m)) ms) = Ok (acc ++ ms ++ [(key_name, k)]).
Proof.
  intros K. induction ms as [|[e d] ms IH]; intros acc N X; cbn [map tar_sample fst snd].
  - f_equal. rewrite app_nil_r in X. cbn [app]. clear N. induction acc as [|[a b] acc IH]; [reflexivity|].
    cbn [map fst aset app] in *. destruct (str_eqb key_name a) eqn:E.
    + apply str_eqb_spec in E. subst. exfalso. apply X. now left.
    + rewrite IH; [reflexivity|]. intros H. apply X. now right.
  - destruct k as [|c k]; [congruence|]. cbn zeta. rewrite (eqb_refl_ _ str_eqb_spec).
    assert (E : aset str_eqb e d acc = acc ++ [(e, d)]).
    { assert (Y : ~ In e (map fst acc)).
      { intros H. cbn [map fst] in N. apply NoDup_remove_2 in N. apply N. apply in_or_app. now left. }
      clear - Y. induction acc as [|[a b] acc IH]; [reflexivity|]. cbn [map fst aset app] in *.
      destruct (str_eqb e a) eqn:E; [apply str_eqb_spec in E; subst; exfalso; apply Y; now left|].
      rewrite IH; [reflexivity|]. intros H. apply Y. now right. }
    rewrite E. cbn [map fst] in N, X. rewrite IH.
    + now rewrite <- app_assoc.
    + rewrite map_app. cbn. rewrite <- app_assoc. exact N.
    + rewrite map_app. cbn. rewrite <- app_assoc. exact X.
Qed.
Lemma sample_of_good {S} (decode : list (str * str) -> res S) s :
  good_wsample s -> sample_of decode (in_tar s) = decode (record_of s).
Proof.
  destruct s as [k ms]. intros (K & M & N & X). cbn [fst snd] in *. unfold sample_of, in_tar, record_of. cbn [fst snd].
  destruct ms as [|[e d] ms]; [congruence|].
  assert (Q : tar_sample [] [] (map (fun m => ((k, fst m), snd m)) ((e, d) :: ms))
              = tar_sample k [] (map (fun m => ((k, fst m), snd m)) ((e, d) :: ms))).
  { destruct k; [congruence|]. reflexivity. }
  rewrite Q, tar_sample_ok; [reflexivity|assumption|exact N|exact X].
Qed.
Lemma requested_map {R S} (h : R -> S) l rs : requested (map h l) rs = map h (requested l rs).
Proof.
  unfold requested. induction rs as [|r rs IH]; [reflexivity|]. cbn [flat_map].
  rewrite map_app, IH. f_equal. rewrite !rows_in_win. apply win_map.
Qed.
Lemma in_win {R} (x : R) r l : forall o, In x (win o l r) -> In x l.
Proof.
  induction l as [|y l IH]; intros o; [auto|]. cbn [win]. destruct (_ && _); cbn; intuition eauto.
Qed.
Lemma in_requested {R} (x : R) l rs : In x (requested l rs) -> In x l.
Proof.
  unfold requested. rewrite in_flat_map. intros (r & _ & H). rewrite rows_in_win in H. now apply in_win in H.
Qed.
Theorem C28_web_partial {S A} (decode : list (str * str) -> res S) (parse : S -> res A) (file : list wsample) rs :
  Forall good_wsample file -> tidy rs -> Forall (fun r => snd r <= Z.of_nat (length file)) rs ->
  delivers (fun s => match decode (record_of s) with Ok v => parse v | Err e => Err e end)
           (requested file rs) (web_read_file decode parse (map in_tar file) rs).
Proof.
  intros G T B. rewrite web_read; [|assumption|now rewrite map_length].
  rewrite requested_map, gmap_map.
  rewrite (gmap_ext _ (fun s => match decode (record_of s) with Ok v => parse v | Err e => Err e end)).
  - apply delivers_gmap.
  - intros s H. apply in_requested in H. rewrite Forall_forall in G. now rewrite sample_of_good by auto.
Qed.

(** several files: the files one after the other *)
Theorem C28_files {F R A} (rows : F -> list R) (parse : R -> res A) (read_file : F -> list range -> gen A) job :
  (forall f rs, tidy rs -> delivers parse (requested (rows f) rs) (read_file f rs)) ->
  Forall (fun fr => tidy (snd fr)) job ->
  delivers parse (flat_map (fun fr => requested (rows (fst fr)) (snd fr)) job) (read_files read_file job).
Proof.
  intros H. induction job as [|[f rs] job IH]; intros T; [left; now exists []|].
  inversion T; subst. cbn [read_files flat_map fst snd] in *. specialize (IH H3). specialize (H f rs H2).
  destruct H as [(v1 & E1 & ->)|(v1 & e & rest & E1 & ->)]; unfold gapp; cbn [fst snd].
  - destruct IH as [(v2 & E2 & ->)|(v2 & e & rest & E2 & ->)]; cbn [fst snd].
    + left. exists (v1 ++ v2). now rewrite !map_app, E1, E2.
    + right. exists (v1 ++ v2), e, rest. now rewrite !map_app, E1, E2, app_assoc.
  - right. exists v1, e, (rest ++ map parse (flat_map (fun fr => requested (rows (fst fr)) (snd fr)) job)).
    now rewrite map_app, E1, <- app_assoc.
Qed.

(** The parquet reader, unlike the others, does not refuse ranges that overlap or are out of order: it silently drops
    rows.  Row groups of two rows; [0,4) and then [1,2): row 1 is delivered once only.  And [2,4) before [0,2): the
    second range is lost. *)
Theorem C28_parquet_untidy_refuted :
  let groups := [[10; 11]; [12; 13]] in
  parquet_read_file (fun l => [l]) Ok groups [(0, 4); (1, 2)] = ([10; 11; 12; 13], None) /\
  requested (concat groups) [(0, 4); (1, 2)] = [10; 11; 12; 13; 11] /\
  parquet_read_file (fun l => [l]) Ok groups [(2, 4); (0, 2)] = ([12; 13], None) /\
  requested (concat groups) [(2, 4); (0, 2)] = [12; 13; 10; 11].
Proof. repeat split; reflexivity. Qed.

(** ** C56: indexing and reading use the same numbers *)
Lemma gmap_numbered {R V W} (h : R -> res V) (mk : Z -> V -> W) (l : list R) : forall k g,
  g = gmap (fun il => match h (snd il) with Ok v => Ok (mk (fst il) v) | Err e => Err e end)
           (combine (map Z.of_nat (seq k (length l))) l) ->
  snd g = None ->
  exists vals, map h l = map Ok vals /\ fst g = map (fun iv => mk (fst iv) (snd iv)) (combine (map Z.of_nat (seq k (length l))) vals).
Proof.
  induction l as [|x l IH]; intros k g -> H; [now exists []|].
  cbn [length seq map combine gmap fst snd] in *. destruct (h x) as [v|e] eqn:E; [|discriminate].
  cbn [fst snd] in *. destruct (IH (S k) _ eq_refl H) as (vals & M & F). exists (v :: vals).
  cbn [map combine fst snd]. split; [now rewrite M|]. now rewrite F.
Qed.
Lemma combine_seq_nth {V} (vals : list V) : forall k n i v, n = length vals ->
  In (i, v) (combine (map Z.of_nat (seq k n)) vals) ->
  Z.of_nat k <= i /\ nth_error vals (Z.to_nat i - k) = Some v.
Proof.
  induction vals as [|w vals IH]; intros k n i v ->; [cbn; tauto|]. cbn [length seq map combine].
  intros [E|H].
  - injection E as <- <-. split; [lia|]. replace (Z.to_nat (Z.of_nat k) - k)%nat with 0%nat by lia. reflexivity.
  - apply IH in H; [|reflexivity]. destruct H as [L N]. split; [lia|].
    replace (Z.to_nat i - k)%nat with (S (Z.to_nat i - S k)) by lia. exact N.
Qed.
Lemma map_fst_combine_seq {V} (vals : list V) k n : n = length vals ->
  map fst (combine (map Z.of_nat (seq k n)) vals) = zrange (Z.of_nat k) (Z.of_nat k + Z.of_nat n).
Proof.
  intros ->. revert k. induction vals as [|w vals IH]; intros k; cbn [length seq map combine fst].
  - rewrite zrange_nil by lia. reflexivity.
  - rewrite IH. rewrite (zrange_cons (Z.of_nat k)) by lia. f_equal. f_equal; lia.
Qed.
Lemma win_single {R} (l : list R) i x : 0 <= i -> nth_error l (Z.to_nat i) = Some x -> win 0 l (i, i + 1) = [x].
Proof.
  intros H N. rewrite win_skip by lia. replace (Z.to_nat (i + 1 - i)) with 1%nat by lia. rewrite Z.sub_0_r.
  revert N. generalize (Z.to_nat i) as k. clear. induction l as [|y l IH]; intros [|k] N; cbn [skipn nth_error] in *; try discriminate.
  - now injection N as ->.
  - now apply IH.
Qed.
Lemma tidy_single i : 0 <= i -> tidy [(i, i + 1)].
Proof. intros H. split; repeat constructor; cbn; lia. Qed.
Lemma map_Ok_nth {R V} (h : R -> res V) l vals k v :
  map h l = map Ok vals -> nth_error vals k = Some v -> exists x, nth_error l k = Some x /\ h x = Ok v.
Proof.
  revert vals k. induction l as [|x l IH]; intros [|w vals] [|k] M N; cbn in *; try discriminate.
  - injection M as M1 M2. injection N as ->. eauto.
  - injection M as M1 M2. eauto.
Qed.

(** If the file could be parsed, the parser saw the numbers 0, 1, ..., n-1, and what it saw under a number is what
    reading that row gives. *)
Theorem C56_jsonl {V} (loads : str -> res V) (text : list str) :
  snd (jsonl_inform loads text) = None ->
  map fst (fst (jsonl_inform loads text)) = zrange 0 (Z.of_nat (length text)) /\
  (forall i v, In (i, v) (fst (jsonl_inform loads text)) -> jsonl_read_file loads text [(i, i + 1)] = ([v], None)).
Proof.
  intros H. destruct (gmap_numbered loads pair text 0 _ eq_refl H) as (vals & M & F).
  assert (L : length text = length vals) by (rewrite <- (map_length loads text), M; apply map_length).
  change (fst (jsonl_inform loads text) = map (fun iv => (fst iv, snd iv)) (combine (map Z.of_nat (seq 0 (length text))) vals)) in F.
  rewrite (map_ext _ (fun iv => iv)) in F by (now intros []). rewrite map_id in F. rewrite F. split.
  - rewrite (map_fst_combine_seq vals 0 _ L). reflexivity.
  - intros i v I. apply combine_seq_nth in I; [|assumption]. destruct I as [I N]. rewrite Nat.sub_0_r in N.
    destruct (map_Ok_nth _ _ _ _ _ M N) as (x & NX & HX).
    rewrite jsonl_read by (apply tidy_single; lia). unfold requested. cbn [flat_map].
    rewrite app_nil_r, rows_in_win, (win_single _ _ x) by (assumption || lia). cbn. now rewrite HX.
Qed.
Theorem C56_parquet {R} (iter_batches to_batches : list R -> list (list R)) (groups : list (list R)) :
  (forall l, concat (iter_batches l) = l) -> (forall l, concat (to_batches l) = l) ->
  map fst (parquet_inform iter_batches groups) = zrange 0 (Z.of_nat (length (concat groups))) /\
  (forall i v, In (i, v) (parquet_inform iter_batches groups) ->
     parquet_read_file to_batches Ok groups [(i, i + 1)] = ([v], None)).
Proof.
  intros B1 B2. unfold parquet_inform. change 0 with (Z.of_nat 0) at 1 3. rewrite (inform_from_ok (iter_batches (concat groups)) 0), B1.
  split.
  - now rewrite map_fst_combine_seq.
  - intros i v I. apply combine_seq_nth in I; [|reflexivity]. destruct I as [I N]. rewrite Nat.sub_0_r in N.
    unfold parquet_read_file. rewrite parquet_read_rows by (assumption || (apply tidy_single; lia)).
    unfold requested. cbn [flat_map]. now rewrite app_nil_r, rows_in_win, (win_single _ _ v) by (assumption || lia).
Qed.
Lemma gmap_zrange_pairs {V} (get : Z -> res V) n : forall s g,
  g = gmap (fun i => match get i with Ok v => Ok (i, v) | Err e => Err e end) (zrange s (s + Z.of_nat n)) ->
  snd g = None -> map fst (fst g) = zrange s (s + Z.of_nat n) /\ (forall i v, In (i, v) (fst g) -> s <= i < s + Z.of_nat n /\ get i = Ok v).
Proof.
  induction n as [|n IH]; intros s g -> H.
  - rewrite zrange_nil by lia. cbn. tauto.
  - rewrite zrange_cons in * by lia. cbn [gmap] in *. destruct (get s) as [v|e] eqn:E; [|discriminate]. cbn [fst snd map] in *.
    replace (s + Z.of_nat (S n)) with (s + 1 + Z.of_nat n) in * by lia.
    destruct (IH (s + 1) _ eq_refl H) as [I1 I2]. split; [now rewrite I1|].
    intros i w [X|X]; [injection X as <- <-; split; [lia|assumption]|]. apply I2 in X. split; [lia|tauto].
Qed.
Theorem C56_web {S} (decode : list (str * str) -> res S) (groups : list (list member)) :
  snd (web_inform decode groups) = None ->
  map fst (fst (web_inform decode groups)) = zrange 0 (Z.of_nat (length groups)) /\
  (forall i v, In (i, v) (fst (web_inform decode groups)) -> web_read_file decode Ok groups [(i, i + 1)] = ([v], None)).
Proof.
  intros H. destruct (gmap_zrange_pairs (tar_getitem decode groups) (length groups) 0 _ eq_refl H) as [I1 I2].
  split; [exact I1|]. intros i v I. apply I2 in I. destruct I as [L G].
  unfold web_read_file. cbn [web_ranges]. replace (i <? -1) with false by lia. replace (0 >? i) with false by lia.
  rewrite zrange_cons, zrange_nil by lia. cbn [gmap]. rewrite G. reflexivity.
Qed.

(** ** C57: reading through the server *)
(** For a parsing function that does not care about a trailing newline, reading rows of the file through the server
    gives what reading the file locally gives. *)
Theorem C57_same_rows_partial {A} (parse : str -> res A) (raw : str) (rs : list range) :
  (forall l, parse (l ++ [nl]) = parse l) ->
  tidy rs -> Forall (fun r => snd r <= Z.of_nat (length (local_file_iterable raw))) rs ->
  jsonl_read_file parse (server_file_iterable (Some (server_read_file raw))) rs
  = jsonl_read_file parse (local_file_iterable raw) rs.
Proof.
  intros P T B. rewrite !jsonl_read by assumption. unfold server_file_iterable, server_read_file, local_file_iterable in *.
  rewrite concat_lines, requested_server by assumption. rewrite gmap_map. apply gmap_ext. intros l _.
  unfold chop. destruct (rev l) as [|c r] eqn:E; [reflexivity|]. destruct (c =? nl) eqn:C; [|reflexivity].
  apply (f_equal (@rev Z)) in E. rewrite rev_involutive in E. cbn [rev] in E. rewrite E.
  replace c with nl by (unfold nl in *; lia). symmetry. apply P.
Qed.
(** Past the end of the file the two differ (an empty line too many), and when the server cannot be reached the reader
    delivers nothing at all, without an error. *)
Theorem C57_past_end_refuted :
  let raw := [123; 125; nl] in
  jsonl_read_file Ok (local_file_iterable raw) [(1, 2)] = ([], None) /\
  jsonl_read_file Ok (server_file_iterable (Some (server_read_file raw))) [(1, 2)] = ([[]], None).
Proof. split; reflexivity. Qed.
Theorem C57_unreachable_refuted {A} (parse : str -> res A) (rs : list range) :
  tidy rs -> jsonl_read_file parse (server_file_iterable None) rs = ([], None).
Proof.
  intros T. rewrite jsonl_read by assumption. cbn [server_file_iterable].
  replace (requested (@nil str) rs) with (@nil str); [reflexivity|]. unfold requested. induction rs as [|r rs IH]; [reflexivity|].
  cbn [flat_map]. rewrite rows_in_win. cbn. apply IH. now apply tidy_cons in T.
Qed.

(** The lines a reader sees of a file's text are the text's lines, ending in LF, CR LF or CR; a text has one sequence of
    lines. *)
Theorem C28_text_lines raw ls : text_lines raw ls <-> local_file_iterable raw = ls.
Proof. split; [intros H; symmetry; apply text_lines_fun; exact H|intros <-; apply text_lines_ex]. Qed.
Example C28_text_lines_example : text_lines [65; 13; 10; 66; 10; 10; 67; 13; 68] [[65; 10]; [66; 10]; [10]; [67; 10]; [68]].
Proof.
  apply (tl_crlf [65]); [split; cbn; intuition discriminate|]. apply (tl_lf [66]); [split; cbn; intuition discriminate|]. apply (tl_lf []); [split; intros []|].
  apply (tl_cr [67]); [split; cbn; intuition discriminate|cbn; discriminate|]. apply tl_rest; [discriminate|]. split; cbn; intuition discriminate.
Qed.

(** ** Non-vacuity *)
Example tidy_example : tidy [(0, 2); (2, 2); (3, 5)].
Proof. split; repeat constructor; cbn; lia. Qed.
Example jsonl_example :
  jsonl_read_file Ok [[1]; [2]; [3]; [4]] [(0, 2); (2, 2); (3, 5)] = ([[1]; [2]; [4]], None) /\
  jsonl_read_file Ok [[1]; [2]; [3]; [4]] [(2, 3); (0, 1)] = ([[3]], Some RuntimeError).
Proof. split; reflexivity. Qed.
Example parquet_example :
  parquet_read_file (fun l => map (fun x => [x]) l) Ok [[10; 11]; []; [12; 13; 14]; [15]] [(1, 3); (4, 9)]
  = ([11; 12; 14; 15], None).
Proof. reflexivity. Qed.
Example web_example :
  let file := [([97], [([120], [1]); ([121], [2])]); ([98], [([120], [3])])] in
  Forall good_wsample file /\
  web_read_file Ok Ok (map in_tar file) [(1, 2)] = ([[([120], [3]); (key_name, [98])]], None) /\
  web_read_file Ok Ok (map in_tar file) [(1, 3)] = ([[([120], [3]); (key_name, [98])]], Some IndexError).
Proof.
  split; [|split; reflexivity].
  repeat constructor; cbn; try discriminate; intuition discriminate.
Qed.
Example inform_example : jsonl_inform Ok [[1]; [2]] = ([(0, [1]); (1, [2])], None).
Proof. reflexivity. Qed.
Example server_example :
  let raw := [65; cr; nl; 66; nl] in
  local_file_iterable raw = [[65; nl]; [66; nl]] /\
  server_file_iterable (Some (server_read_file raw)) = [[65]; [66]; []].
Proof. split; reflexivity. Qed.

Print Assumptions C28_text_lines.
Print Assumptions C28_jsonl_partial.
Print Assumptions C28_jsonl_untidy_raises.
Print Assumptions C28_parquet_partial.
Print Assumptions C28_web_partial.
Print Assumptions C28_files.
Print Assumptions C28_parquet_untidy_refuted.
Print Assumptions C56_jsonl.
Print Assumptions C56_parquet.
Print Assumptions C56_web.
Print Assumptions C57_same_rows_partial.
Print Assumptions C57_past_end_refuted.
Print Assumptions C57_unreachable_refuted.
