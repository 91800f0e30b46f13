(** Proofs for C73: reading the rows of a chunk gives the contents of the files. *)
From Coq Require Import String.
From Verif Require Import Base MixtureKeyModel MixtureKeyProofs UtilsModel ChunkGenModel ParserModel MdcModel SpecMdc ReaderModel SpecReader ReaderProofs FilesModel SpecFiles FilesProofs PropertiesFiles
  ChunkerModel TokenModel SpecChunk DeliverModel SpecDeliver.
Open Scope Z_scope.

(** ** Rows of ranges *)
Definition in_ranges (rs : list range) (i : Z) : Prop := exists r, In r rs /\ fst r <= i < snd r.
Definition indices (rs : list range) : list Z := flat_map (fun r => zrange (fst r) (snd r)) rs.
Lemma in_indices i rs : In i (indices rs) <-> in_ranges rs i.
Proof. unfold indices, in_ranges. rewrite in_flat_map. split; intros (r & H & H'); exists r; rewrite in_zrange in *; auto. Qed.

Lemma window_items {R} (l : list R) n : forall s, (s + n <= length l)%nat ->
  Forall2 (fun i x => nth_error l (Z.to_nat i) = Some x) (zrange (Z.of_nat s) (Z.of_nat s + Z.of_nat n)) (firstn n (skipn s l)).
Proof.
  induction n as [|n IH]; intros s H; [rewrite zrange_nil by lia; constructor|].
  rewrite zrange_cons by lia. destruct (nth_error l s) as [x|] eqn:E; [|apply nth_error_None in E; lia].
  assert (K : skipn s l = x :: skipn (S s) l).
  { clear - E. revert s E. induction l as [|y l IH]; intros [|s] E; try discriminate; cbn in *; [congruence|apply IH, E]. }
  rewrite K. cbn [firstn]. constructor; [rewrite Nat2Z.id; exact E|].
  replace (Z.of_nat s + 1) with (Z.of_nat (S s)) by lia. replace (Z.of_nat s + Z.of_nat (S n)) with (Z.of_nat (S s) + Z.of_nat n) by lia. apply IH. lia.
Qed.
Lemma rows_in_items {R} (l : list R) r : 0 <= fst r <= snd r -> snd r <= Z.of_nat (length l) \/ fst r = snd r ->
  Forall2 (fun i x => nth_error l (Z.to_nat i) = Some x) (zrange (fst r) (snd r)) (rows_in l r).
Proof.
  intros H B. rewrite rows_in_win. destruct r as [s e]. cbn [fst snd] in *. rewrite win_skip by lia.
  destruct B as [B|<-]; [|rewrite zrange_nil by lia; replace (Z.to_nat (s - s)) with O by lia; constructor].
  assert (W := window_items l (Z.to_nat (e - s)) (Z.to_nat s) ltac:(lia)). rewrite Z.sub_0_r. 
  replace (Z.of_nat (Z.to_nat s)) with s in W by lia. replace (s + Z.of_nat (Z.to_nat (e - s))) with e in W by lia. exact W.
Qed.
Lemma Forall2_flat_map {X Y Z'} (P : Y -> Z' -> Prop) (f : X -> list Y) (g : X -> list Z') l :
  (forall x, In x l -> Forall2 P (f x) (g x)) -> Forall2 P (flat_map f l) (flat_map g l).
Proof. induction l as [|x l IH]; intros H; [constructor|]. cbn. apply Forall2_app; [apply H; left; reflexivity|apply IH; intros; apply H; right; assumption]. Qed.
Lemma requested_items {R} (l : list R) rs : tidy rs -> (forall i, in_ranges rs i -> nth_error l (Z.to_nat i) <> None) ->
  Forall2 (fun i x => nth_error l (Z.to_nat i) = Some x) (indices rs) (requested l rs).
Proof.
  intros [T _] H. unfold requested, indices. apply Forall2_flat_map. intros r Hr. rewrite Forall_forall in T. specialize (T r Hr). apply rows_in_items; [exact T|].
  destruct (Z.eq_dec (fst r) (snd r)) as [E|N]; [right; exact E|left]. specialize (H (snd r - 1) ltac:(exists r; split; [exact Hr|lia])).
  apply nth_error_Some in H. lia.
Qed.
Lemma gmap_all {X B} (parse : X -> res B) l : forall ts, Forall2 (fun x t => parse x = Ok t) l ts -> gmap parse l = (ts, None).
Proof. induction l as [|x l IH]; intros ts H; inversion H; subst; [reflexivity|]. cbn [gmap]. rewrite H2, (IH _ H4). reflexivity. Qed.
(** Reading ranges whose rows are there and parse. *)
Lemma read_rows {R B} (parse : R -> res B) (l : list R) rs (P : Z -> B -> Prop) : tidy rs ->
  (forall i, in_ranges rs i -> exists x t, nth_error l (Z.to_nat i) = Some x /\ parse x = Ok t /\ P i t) ->
  exists ts, gmap parse (requested l rs) = (ts, None) /\ Forall2 P (indices rs) ts.
Proof.
  intros T H. assert (F := requested_items l rs T (fun i Hi => let (x, H') := H i Hi in let (t, H'') := H' in fun E => eq_ind None (fun o => match o with None => True | Some _ => False end) I (Some x) (eq_trans (eq_sym E) (proj1 H'')))).
  assert (G : forall is xs, Forall2 (fun i x => nth_error l (Z.to_nat i) = Some x) is xs -> (forall i, In i is -> in_ranges rs i) ->
    exists ts, Forall2 (fun x t => parse x = Ok t) xs ts /\ Forall2 P is ts).
  { clear F. induction 1 as [|i x is xs E F IH]; intros Hin; [exists []; split; constructor|].
    destruct IH as (ts & I1 & I2); [intros; apply Hin; right; assumption|]. destruct (H i (Hin i (or_introl eq_refl))) as (x' & t & E' & Et & Pt).
    rewrite E in E'. injection E' as <-. exists (t :: ts). split; constructor; assumption. }
  destruct (G _ _ F (fun i => proj1 (in_indices i rs))) as (ts & G1 & G2). exists ts. split; [apply gmap_all, G1|exact G2].
Qed.

Lemma sorted_tidy rs : ranges_sorted rs -> (forall r, In r rs -> 0 <= fst r) -> tidy rs.
Proof.
  induction rs as [|r rs IH]; intros S N; [split; constructor|]. cbn in S. destruct S as (S1 & S2 & S3).
  destruct (IH S3 (fun r' H => N r' (or_intror H))) as [T1 T2]. split; constructor; auto. split; [apply N; left; reflexivity|exact S1].
Qed.
Lemma type_id_inj c t : type_id c = t -> c <> CroissantDs -> from_type_id t = Ok c.
Proof. intros <- N. destruct c; try reflexivity. contradiction. Qed.
Lemma build_get {B} (get : Z -> res B) ids l : build get ids = Ok l -> forall i, aget Z.eqb i l = if existsb (Z.eqb i) ids then match get i with Ok b => Some b | Err _ => None end else None.
Proof.
  revert l. induction ids as [|j ids IH]; intros l H i; cbn [build] in H; [injection H as <-; reflexivity|].
  destruct (get j) as [b|] eqn:E; [|discriminate]. destruct (build get ids) as [l'|]; [|discriminate]. injection H as <-. cbn [aget existsb].
  destruct (Z.eqb_spec i j) as [->|N]; [rewrite E; reflexivity|]. cbn [orb]. apply IH. reflexivity.
Qed.
Lemma build_ok {B} (get : Z -> res B) ids : (forall i, In i ids -> exists b, get i = Ok b) -> exists l, build get ids = Ok l.
Proof.
  induction ids as [|j ids IH]; intros H; [eexists; reflexivity|]. destruct (H j (or_introl eq_refl)) as [b E]. destruct IH as [l El]; [intros; apply H; right; assumption|].
  cbn. rewrite E, El. eauto.
Qed.

Section Deliver.
  Variables (root : node) (cwd : node) (cwd_anc : list node).
  Variable unpack : str -> str -> res str.
  Variable parquet_open : str -> res (list (list pval)).
  Variable to_batches : list pval -> list (list pval).
  Variable tar_open : str -> res (list (list member)).
  Variable decode : list (str * str) -> res pval.
  Context {A : Type}.
  Variable parsing_func : str -> pval -> res A.
  Hypothesis Hb : forall l, concat (to_batches l) = l.
  Notation payload := (payload root cwd cwd_anc unpack parquet_open tar_open decode).
  Notation content := (content root cwd cwd_anc unpack parquet_open tar_open decode parsing_func).
  Notation on_disk := (on_disk root cwd cwd_anc unpack parquet_open tar_open decode parsing_func).
  Notation read_one := (read_one root cwd cwd_anc unpack parquet_open to_batches tar_open decode).
  Notation read_workload := (read_workload root cwd cwd_anc unpack parquet_open to_batches tar_open decode parsing_func).

  Lemma payload_open c p i v : payload c p i v -> absolute p -> wants_dir p = false -> exists raw, open_bytes root cwd cwd_anc p = Ok raw /\ find root cwd cwd_anc p = Some (NFile raw).
  Proof using. intros (_ & raw & F & _) Ab W. exists raw. split; [|exact F]. unfold open_bytes. rewrite F, W. reflexivity. Qed.
  Lemma read_one_ok c (func : pval -> res A) p rs : absolute p -> wants_dir p = false -> tidy rs -> rs <> [] -> (forall r, In r rs -> exists v, payload c p (fst r) v) ->
    (forall i, in_ranges rs i -> exists v t, payload c p i v /\ func v = Ok t) ->
    exists ts, read_one c func p rs = (ts, None) /\ Forall2 (fun i t => exists v, payload c p i v /\ func v = Ok t) (indices rs) ts.
  Proof using Hb parsing_func.
    intros Ab W T Ne St H. destruct rs as [|r0 rs0] eqn:Ers; [contradiction|]. rewrite <- Ers in *. assert (H0 : In r0 rs) by (rewrite Ers; left; reflexivity).
    destruct (St r0 H0) as (v0 & P0). destruct (payload_open c p _ _ P0 Ab W) as (raw & O & F). destruct P0 as (_ & raw' & F' & P0). rewrite F in F'. injection F' as <-.
    assert (Q : forall i v, payload c p i v -> 0 <= i /\ match c with
      | JsonlDs => exists text ls line, unpack p raw = Ok text /\ text_lines text ls /\ nth_error ls (Z.to_nat i) = Some line /\ v = PStr line
      | ParquetDs => exists groups, parquet_open raw = Ok groups /\ nth_error (concat groups) (Z.to_nat i) = Some v
      | WebDs => exists groups g r, tar_open raw = Ok groups /\ nth_error groups (Z.to_nat i) = Some g /\ tar_sample [] [] g = Ok r /\ decode r = Ok v
      | _ => False end).
    { intros i v (N & raw' & F' & X). rewrite F in F'. injection F' as <-. auto. }
    destruct c; cbn [DeliverModel.read_one]; try contradiction.
    - destruct P0 as (text & ls0 & line & U & _). unfold open_file. rewrite from_path_absolute by exact Ab. cbn [negb]. rewrite O, U. rewrite jsonl_read by exact T.
      apply (read_rows (fun l => func (PStr l)) (local_file_iterable text) rs); [exact T|]. intros i Hi. destruct (H i Hi) as (v & t & P & E). destruct (Q i v P) as (_ & text' & ls' & line' & U' & TL & N & ->). apply text_lines_fun in TL as ->.
      rewrite U in U'. injection U' as <-. exists line', t. split; [exact N|]. split; [exact E|]. exists (PStr line'). auto.
    - destruct P0 as (groups & g & r & U & N0 & _). rewrite O, U.
      assert (LB : Forall (fun r => snd r <= Z.of_nat (length groups)) rs).
      { apply Forall_forall. intros r' Hr. destruct T as [T _]. rewrite Forall_forall in T. specialize (T r' Hr). destruct (Z.eq_dec (fst r') (snd r')) as [E|N].
        - destruct (St r' Hr) as (v & P). destruct (Q _ _ P) as (_ & g' & y & z & U' & N' & _). rewrite U in U'. injection U' as <-.
          assert (X : nth_error groups (Z.to_nat (fst r')) <> None) by congruence. apply nth_error_Some in X. lia.
        - destruct (H (snd r' - 1)) as (v & t & P & _); [exists r'; split; [exact Hr|lia]|]. destruct (Q _ _ P) as (_ & g' & y & z & U' & N' & _). rewrite U in U'. injection U' as <-.
          assert (X : nth_error groups (Z.to_nat (snd r' - 1)) <> None) by congruence. apply nth_error_Some in X. lia. }
      rewrite web_read by assumption.
      apply (read_rows _ groups rs); [exact T|]. intros i Hi. destruct (H i Hi) as (v & t & P & E). destruct (Q i v P) as (_ & g' & y & z & U' & N & S & D). rewrite U in U'. injection U' as <-.
      exists y, t. split; [exact N|]. split; [unfold sample_of; rewrite S, D; exact E|]. exists v. auto.
    - destruct P0 as (groups & U & N0). rewrite O, U. unfold parquet_read_file. rewrite parquet_read_rows by assumption.
      apply (read_rows func (concat groups) rs); [exact T|]. intros i Hi. destruct (H i Hi) as (v & t & P & E). destruct (Q i v P) as (_ & g' & U' & N). rewrite U in U'. injection U' as <-.
      exists v, t. split; [exact N|]. split; [exact E|]. exists v. auto.
  Qed.

  Lemma rows_indices d f rs : flat_map (range_rows d f) rs = map (fun i => (d, f, i)) (indices rs).
  Proof using. induction rs as [|r rs IH]; [reflexivity|]. cbn [flat_map indices]. fold (indices rs). rewrite map_app, <- IH. reflexivity. Qed.
  Lemma Forall2_map_l {X Y W} (f : X -> Y) (P : Y -> W -> Prop) l l' : Forall2 (fun x w => P (f x) w) l l' -> Forall2 P (map f l) l'.
  Proof using. induction 1; constructor; assumption. Qed.
  Lemma Forall2_mono {X Y} (P Q : X -> Y -> Prop) l l' : (forall x y, P x y -> Q x y) -> Forall2 P l l' -> Forall2 Q l l'.
  Proof using. intros H. induction 1; constructor; auto. Qed.

  (** Reading one element of a workload: the rows asked for, in order. *)
  Lemma workload_ok s table m d f rs : consistent s -> on_disk s -> parse_meta s table = Ok m -> In d (map tr_d table) -> In f (map tr_f table) ->
    ranges_sorted rs -> rs <> [] -> (forall r, In r rs -> In (d, f, fst r) (map fst (samples s))) -> (forall i, in_ranges rs i -> In (d, f, i) (map fst (samples s))) ->
    exists ts, read_workload m d f rs = (ts, None) /\ Forall2 (content s) (flat_map (range_rows d f) rs) ts.
  Proof using Hb.
    intros (ND & _ & NF & _) [OD1 OD2] PM Hd Hf Srt Ne St Hin.
    assert (C : forall i, In (d, f, i) (map fst (samples s)) -> exists t, content s (d, f, i) t) by (intros i H; apply in_map_iff in H as ([x r] & <- & H); apply (OD1 _ _ H)).
    destruct rs as [|r0 rs0] eqn:Ers; [contradiction|]. rewrite <- Ers in *. assert (H0 : In r0 rs) by (rewrite Ers; left; reflexivity).
    destruct (C _ (St r0 H0)) as (t0 & name & info & c & path & v0 & I1 & I2 & I3 & P0 & _).
    assert (Nc : c <> CroissantDs) by (intros ->; destruct P0 as (_ & raw & _ & F); contradiction F).
    assert (U : forall i t, content s (d, f, i) t -> exists v, payload c path i v /\ parsing_func (d_func info) v = Ok t).
    { intros i t (name' & info' & c' & path' & v & J1 & J2 & J3 & P & E).
      assert (X := in_aget _ Z.eqb_eq _ _ _ ND I1). rewrite (in_aget _ Z.eqb_eq _ _ _ ND J1) in X. injection X as <- <-.
      assert (X := in_aget _ Z.eqb_eq _ _ _ NF I3). rewrite (in_aget _ Z.eqb_eq _ _ _ NF J3) in X. injection X as <-.
      assert (Nc' : c' <> CroissantDs) by (intros ->; destruct P as (_ & raw & _ & F); contradiction F).
      assert (c = c') by (assert (X := type_id_inj c _ (eq_sym I2) Nc); rewrite (type_id_inj c' _ (eq_sym J2) Nc') in X; congruence). subst c'. eauto. }
    destruct (OD2 _ _ _ I3) as [Ab W].
    destruct (read_one_ok c (parsing_func (d_func info)) path rs Ab W) as (ts & R1 & R2).
    - apply sorted_tidy; [exact Srt|]. intros r Hr. destruct (C _ (St r Hr)) as (t & Ct). destruct (U _ _ Ct) as (v & P & _). apply P.
    - exact Ne.
    - intros r Hr. destruct (C _ (St r Hr)) as (t & Ct). destruct (U _ _ Ct) as (v & P & _). eauto.
    - intros i Hi. destruct (C _ (Hin i Hi)) as (t & Ct). destruct (U _ _ Ct) as (v & P & E). eauto.
    - exists ts. split.
      + unfold DeliverModel.read_workload. unfold parse_meta in PM.
        destruct (build (type_by_id s) _) as [types|] eqn:B1; [|discriminate]. destruct (build (fun d0 => or_raise (dataset_func s d0)) _) as [funcs|] eqn:B2; [|discriminate].
        destruct (build (fun f0 => or_raise (file_path s f0)) _) as [paths|] eqn:B3; [|discriminate]. injection PM as <-. cbn [qm_path qm_type qm_func].
        assert (X1 : existsb (Z.eqb d) (nodup Z.eq_dec (map tr_d table)) = true) by (apply existsb_exists; exists d; split; [apply nodup_In, Hd|apply Z.eqb_refl]).
        assert (X2 : existsb (Z.eqb f) (nodup Z.eq_dec (map tr_f table)) = true) by (apply existsb_exists; exists f; split; [apply nodup_In, Hf|apply Z.eqb_refl]).
        rewrite (build_get _ _ _ B3), X2, (build_get _ _ _ B1), (build_get _ _ _ B2), X1.
        unfold file_path, type_by_id, dataset_type, dataset_func. rewrite (in_aget _ Z.eqb_eq _ _ _ NF I3), (in_aget _ Z.eqb_eq _ _ _ ND I1). cbn [option_map snd or_raise].
        rewrite (type_id_inj c _ (eq_sym I2) Nc). cbn [read_files]. rewrite R1. cbn. rewrite ?app_nil_r. reflexivity.
      + rewrite rows_indices. apply Forall2_map_l. refine (Forall2_mono _ _ _ _ _ R2). intros i t (v & P & E). exists name, info, c, path, v. auto.
  Qed.
End Deliver.
