(** Proofs about SerialModel: names, files, tasks. *)
From Coq Require Import Decimal DecimalZ DecimalPos.
From Verif Require Import Base MixtureKeyModel MixtureKeyProofs ChunkerModel ChunkerProofs IntervalModel IntervalProofs SerialModel SpecSerial.
Open Scope Z_scope.

(** ** Names *)
Lemma str_uint_inv d : str_uint (uint_str d) = Some d.
Proof. induction d; cbn; rewrite ?IHd; reflexivity. Qed.
Lemma uint_str_digits d c : In c (uint_str d) -> 48 <= c <= 57.
Proof. induction d; cbn; intros H; [destruct H|..]; (destruct H as [<-|H]; [lia|apply IHd, H]). Qed.
Lemma to_int_nonnil n : match Z.to_int n with Pos d => d <> Nil | Neg d => d <> Nil end.
Proof. destruct n; cbn; [discriminate|apply Unsigned.to_uint_nonnil|apply Unsigned.to_uint_nonnil]. Qed.
Lemma str_int_inv n : str_int (int_str n) = Some n.
Proof.
  unfold int_str. assert (N := to_int_nonnil n). assert (V := DecimalZ.of_to n). destruct (Z.to_int n) as [d|d].
  - assert (S := str_uint_inv d). destruct (uint_str d) as [|c s] eqn:E.
    + destruct d; try discriminate E. contradiction.
    + cbn [str_int]. assert (C : 48 <= c <= 57) by (apply (uint_str_digits d); rewrite E; left; reflexivity).
      replace (c =? minus) with false by (unfold minus; lia). rewrite S. cbn. f_equal. exact V.
  - assert (S := str_uint_inv d). cbn [str_int]. rewrite Z.eqb_refl. destruct (uint_str d) as [|c s] eqn:E.
    + destruct d; try discriminate E. contradiction.
    + rewrite S. cbn [option_map]. f_equal. exact V.
Qed.
Lemma int_str_chars n c : In c (int_str n) -> c <> underscore.
Proof.
  unfold int_str, underscore. destruct (Z.to_int n); intros H; [apply uint_str_digits in H; lia|]. destruct H as [<-|H]; [unfold minus; lia|apply uint_str_digits in H; lia].
Qed.
Lemma int_str_inj a b : int_str a = int_str b -> a = b.
Proof. intros H. assert (X := str_int_inv a). rewrite H, str_int_inv in X. injection X. auto. Qed.
Lemma split_us_app cur a s : (forall c, In c a -> c <> underscore) -> split_us cur (a ++ underscore :: s) = (cur ++ a) :: split_us [] s.
Proof.
  revert cur. induction a as [|c a IH]; intros cur H; cbn [app split_us]; [rewrite Z.eqb_refl, app_nil_r; reflexivity|].
  assert (E : c =? underscore = false) by (apply Z.eqb_neq, H; left; reflexivity). rewrite E, IH by (intros c' Hc; apply H; right; exact Hc). rewrite <- app_assoc. reflexivity.
Qed.
Lemma split_us_end cur a : (forall c, In c a -> c <> underscore) -> split_us cur a = [cur ++ a].
Proof.
  revert cur. induction a as [|c a IH]; intros cur H; cbn [split_us]; [rewrite app_nil_r; reflexivity|].
  assert (E : c =? underscore = false) by (apply Z.eqb_neq, H; left; reflexivity). rewrite E, IH by (intros c' Hc; apply H; right; exact Hc). rewrite <- app_assoc. reflexivity.
Qed.
Lemma second_part_spec pre n : (forall c, In c pre -> c <> underscore) -> second_part (pre ++ underscore :: int_str n) = Some n.
Proof.
  intros H. unfold second_part. rewrite split_us_app by exact H. rewrite split_us_end by (intros c Hc; apply (int_str_chars n), Hc). cbn [nth_error app]. apply str_int_inv.
Qed.
Lemma second_part_ddir d : second_part (ddir d) = Some d.
Proof. apply (second_part_spec [100; 97; 116; 97; 115; 101; 116]). cbn. unfold underscore. intuition lia. Qed.
Lemma stem_fname f : stem (fname f) = file_pre ++ int_str f.
Proof.
  unfold stem, fname. rewrite !app_length. replace (length file_pre + (length (int_str f) + length npy) - length npy)%nat with (length (file_pre ++ int_str f)) by (rewrite app_length; lia).
  rewrite app_assoc, firstn_app, Nat.sub_diag, firstn_all. cbn [firstn]. apply app_nil_r.
Qed.
Lemma second_part_fname f : second_part (stem (fname f)) = Some f.
Proof. rewrite stem_fname. apply (second_part_spec [102; 105; 108; 101]). cbn. unfold underscore. intuition lia. Qed.
Lemma starts_with_app p s : starts_with p (p ++ s) = true.
Proof. unfold starts_with. rewrite firstn_app, Nat.sub_diag, firstn_all. cbn. rewrite app_nil_r. apply str_eqb_spec. reflexivity. Qed.
Lemma ends_with_app p s : ends_with p (s ++ p) = true.
Proof.
  unfold ends_with. rewrite app_length. replace (length s + length p - length p)%nat with (length s) by lia.
  rewrite skipn_app, Nat.sub_diag, skipn_all. cbn. apply str_eqb_spec. reflexivity.
Qed.
Lemma fname_glob f : starts_with file_pre (fname f) && ends_with npy (fname f) = true.
Proof. rewrite andb_true_iff. split; [apply starts_with_app|]. unfold fname. rewrite app_assoc. apply ends_with_app. Qed.
Lemma ddir_inj a b : ddir a = ddir b -> a = b.
Proof. intros H. apply app_inv_head in H. apply int_str_inj, H. Qed.
Lemma fname_inj a b : fname a = fname b -> a = b.
Proof. intros H. assert (X := second_part_fname a). rewrite H, second_part_fname in X. injection X. auto. Qed.
Lemma kdir_inj a b : kdir a = kdir b -> a = b.
Proof. intros H. apply app_inv_head in H. apply int_str_inj in H. lia. Qed.
Lemma path_eqb_spec a b : path_eqb a b = true <-> a = b.
Proof. apply list_eqb_spec, str_eqb_spec. Qed.

Lemma cons_inj {A} (x y : A) l m : x :: l = y :: m -> x = y /\ l = m.
Proof. intros [= -> ->]. auto. Qed.
Lemma ddir_starts d : starts_with dataset_pre (ddir d) = true.
Proof. apply starts_with_app. Qed.
Opaque kdir ddir fname.
(** ** What is written *)
Definition tpath (t : task) : path := match t with (i, d, f, _) => [kdir i; ddir d; fname f] end.
Definition tent (t : task) : path * content := (tpath t, match t with (_, _, _, iv) => CArr iv end).
Definition tid (t : task) : nat * Z * Z := fst t.
Lemma tpath_inj a b : tpath a = tpath b -> tid a = tid b.
Proof. destruct a as [[[i d] f] iv], b as [[[i' d'] f'] iv']. cbn. intros H. apply cons_inj in H as [H1 H]. apply cons_inj in H as [H2 H]. apply cons_inj in H as [H3 _]. apply kdir_inj in H1. apply ddir_inj in H2. apply fname_inj in H3. subst. reflexivity. Qed.
Lemma fold_write l : forall fs, NoDup (map tid l) -> (forall t p, In t l -> In p (akeys fs) -> tpath t <> p) -> fold_left serialize_file l fs = fs ++ map tent l.
Proof.
  induction l as [|t l IH]; intros fs N H; [rewrite app_nil_r; reflexivity|]. cbn [fold_left map]. inversion N as [|? ? N1 N2]; subst.
  assert (E : serialize_file fs t = fs ++ [tent t]).
  { destruct t as [[[i d] f] iv]. unfold serialize_file, tent. cbn [tpath]. apply aset_perm_new. apply (aget_none _ path_eqb_spec). intros Hi. apply (H (i, d, f, iv) _ (or_introl eq_refl) Hi). reflexivity. }
  rewrite E, IH; [rewrite <- app_assoc; reflexivity|exact N2|]. intros t' p Ht Hp. rewrite map_app in Hp. apply in_app_or in Hp as [Hp|[<-|[]]]; [apply H; [right; exact Ht|exact Hp]|].
  cbn [fst tent]. intros X. apply tpath_inj in X. apply N1. rewrite <- X. apply in_map, Ht.
Qed.
Lemma fold_write_keys l : forall fs, NoDup (akeys l) -> (forall i p, In i (akeys l) -> In p (akeys fs) -> [kdir i; key_pkl] <> p) ->
  fold_left (fun fs e => aset path_eqb [kdir (fst e); key_pkl] (CKey (snd e)) fs) l fs = fs ++ map (fun e : nat * mkey => ([kdir (fst e); key_pkl], CKey (snd e))) l.
Proof.
  induction l as [|[i k] l IH]; intros fs N H; [rewrite app_nil_r; reflexivity|]. cbn [fold_left map fst snd]. inversion N as [|? ? N1 N2]; subst.
  rewrite (aset_perm_new path_eqb) by (apply (aget_none _ path_eqb_spec); intros Hi; apply (H i _ (or_introl eq_refl) Hi); reflexivity).
  rewrite IH; [rewrite <- app_assoc; reflexivity|exact N2|]. intros j p Hj Hp. rewrite map_app in Hp. apply in_app_or in Hp as [Hp|[<-|[]]]; [apply H; [right; exact Hj|exact Hp]|].
  cbn [fst]. intros X. apply cons_inj in X as [X _]. apply kdir_inj in X. subst j. contradiction.
Qed.
Lemma akeys_enumerate {A} (l : list A) : akeys (enumerate l) = seq 0 (length l).
Proof. unfold enumerate. assert (G : forall s, map fst (combine (seq s (length l)) l) = seq s (length l)) by (induction l as [|x l IH]; intros s; [reflexivity|cbn; f_equal; apply IH]). apply G. Qed.
Lemma in_enumerate {A} (l : list A) i x : In (i, x) (enumerate l) <-> nth_error l i = Some x.
Proof.
  unfold enumerate. assert (G : forall s i, In (i, x) (combine (seq s (length l)) l) <-> (s <= i)%nat /\ nth_error l (i - s) = Some x).
  { clear i. induction l as [|y l IH]; intros s i; cbn [length seq combine In].
    - split; [intros []|]. intros [_ H]. destruct (i - s)%nat; discriminate H.
    - rewrite IH. split.
      + intros [[= -> ->]|[H1 H2]]; [rewrite Nat.sub_diag; split; [lia|reflexivity]|]. split; [lia|]. replace (i - s)%nat with (S (i - S s)) by lia. exact H2.
      + intros [H1 H2]. destruct (Nat.eq_dec i s) as [->|E]; [rewrite Nat.sub_diag in H2; cbn in H2; injection H2 as ->; left; reflexivity|]. right. split; [lia|]. replace (i - s)%nat with (S (i - S s)) in H2 by lia. exact H2. }
  rewrite G. rewrite Nat.sub_0_r. split; [intros [_ H]; exact H|intros H; split; [lia|exact H]].
Qed.
Definition kent (e : nat * mkey) : path * content := ([kdir (fst e); key_pkl], CKey (snd e)).
Lemma save_keys_eq idx : save_keys idx = ([order_pkl], CKeys (akeys idx)) :: map kent (enumerate (akeys idx)).
Proof.
  unfold save_keys. rewrite fold_write_keys; [reflexivity| |].
  - rewrite akeys_enumerate. apply seq_NoDup.
  - intros i p _ [<-|[]]. discriminate.
Qed.
Lemma saved_dir order idx : NoDup (map tid order) -> fold_left serialize_file order (save_keys idx) = save_keys idx ++ map tent order.
Proof.
  intros N. apply fold_write; [exact N|]. intros [[[i d] f] iv] p _ Hp. rewrite save_keys_eq in Hp. cbn [map fst] in Hp. destruct Hp as [<-|Hp]; [discriminate|].
  rewrite map_map in Hp. apply in_map_iff in Hp as (e & <- & _). discriminate.
Qed.

(** ** What is read *)
Lemma group_perm {A B} (eqb : B -> B -> bool) (es : forall a b, eqb a b = true <-> a = b) (key : A -> B) ks : forall l, NoDup ks -> (forall x, In x l -> In (key x) ks) ->
  Permutation (flat_map (fun b => filter (fun x => eqb (key x) b) l) ks) l.
Proof.
  induction ks as [|b ks IH]; intros l N H; [destruct l as [|x l]; [reflexivity|destruct (H x (or_introl eq_refl))]|]. cbn [flat_map]. inversion N as [|? ? N1 N2]; subst.
  assert (E : flat_map (fun c => filter (fun x => eqb (key x) c) l) ks = flat_map (fun c => filter (fun x => eqb (key x) c) (filter (fun x => negb (eqb (key x) b)) l)) ks).
  { clear IH H. revert N1. generalize ks as m. induction m as [|c m IH]; intros H; [reflexivity|]. cbn [flat_map]. rewrite IH by (intros X; apply H; right; exact X). f_equal. clear IH N.
    induction l as [|x l IHl]; [reflexivity|]. cbn [filter]. destruct (eqb (key x) b) eqn:E1; cbn [negb].
    - apply es in E1. destruct (eqb (key x) c) eqn:E2; [|exact IHl]. apply es in E2. exfalso. apply H. left. congruence.
    - cbn [filter]. destruct (eqb (key x) c); [f_equal|]; exact IHl. }
  rewrite E, IH; [|exact N2|].
  - clear. induction l as [|x l IH]; [reflexivity|]. cbn [filter]. destruct (eqb (key x) b); cbn [negb app]; [constructor; exact IH|]. rewrite <- Permutation_middle. constructor. exact IH.
  - intros x Hx. apply filter_In in Hx as [Hx Hb]. destruct (H x Hx) as [Eb|Hk]; [|exact Hk]. rewrite <- Eb, (proj2 (es b b) eq_refl) in Hb. discriminate Hb.
Qed.
Lemma collect_map {A B} (g : A -> option B) (h : A -> B) l : (forall x, In x l -> g x = Some (h x)) -> collect g l = Some (map h l).
Proof. induction l as [|x l IH]; intros H; [reflexivity|]. cbn. rewrite (H x (or_introl eq_refl)), IH by (intros y Hy; apply H; right; exact Hy). reflexivity. Qed.

Definition t_i (t : task) : nat := match t with (i, _, _, _) => i end.
Definition t_d (t : task) : Z := match t with (_, d, _, _) => d end.
Definition t_f (t : task) : Z := match t with (_, _, f, _) => f end.
Definition t_iv (t : task) : list interval := match t with (_, _, _, iv) => iv end.
Lemma flat_map_nil_ {A B} (g : A -> list B) l : (forall x, In x l -> g x = []) -> flat_map g l = [].
Proof. induction l as [|x l IH]; intros H; [reflexivity|]. cbn. rewrite (H x (or_introl eq_refl)), IH by (intros y Hy; apply H; right; exact Hy). reflexivity. Qed.
Section Read.
  Variable idx : pindex.
  Variable order : list task.
  Let fs : dir := save_keys idx ++ map tent order.

  Lemma files_in_eq i d : files_in fs [kdir i; ddir d] = map (fun t => (fname (t_f t), CArr (t_iv t))) (filter (fun t => (Nat.eqb (t_i t) i && (t_d t =? d))) order).
  Proof using.
    unfold files_in, fs. rewrite save_keys_eq. cbn [app flat_map fst].
    assert (E1 : path_eqb (firstn (length [kdir i; ddir d]) [order_pkl]) [kdir i; ddir d] = false) by (destruct (path_eqb _ _) eqn:E; [apply path_eqb_spec in E; discriminate|reflexivity]).
    rewrite E1. cbn [app]. rewrite flat_map_app, (flat_map_nil_ _ (map kent _)).
    2: { intros x Hx. apply in_map_iff in Hx as (e & <- & _). unfold kent. cbn [fst length firstn skipn]. destruct (path_eqb [kdir (fst e); key_pkl] [kdir i; ddir d]); reflexivity. }
    cbn [app]. clear fs. induction order as [|t l IH]; [reflexivity|]. cbn [map flat_map filter]. rewrite IH. destruct t as [[[i' d'] f'] iv']. cbn [fst snd tent tpath length firstn skipn t_i t_d].
    destruct (path_eqb [kdir i'; ddir d'] [kdir i; ddir d]) eqn:E.
    - apply path_eqb_spec in E. apply cons_inj in E as [Ea E]. apply cons_inj in E as [Eb _]. apply kdir_inj in Ea. apply ddir_inj in Eb. subst. rewrite Nat.eqb_refl, Z.eqb_refl. reflexivity.
    - destruct (Nat.eqb i' i && (d' =? d)) eqn:E'; [|reflexivity]. apply andb_true_iff in E' as [Ea Eb]. apply Nat.eqb_eq in Ea. apply Z.eqb_eq in Eb. subst.
      rewrite (proj2 (path_eqb_spec [kdir i; ddir d] [kdir i; ddir d]) eq_refl) in E. discriminate E.
  Qed.
  Lemma in_subdirs i a : In a (subdirs fs [kdir i]) <-> exists t, In t order /\ t_i t = i /\ a = ddir (t_d t).
  Proof using.
    unfold subdirs. rewrite in_dedup by exact str_eqb_spec. rewrite in_flat_map. split.
    - intros (e & He & Ha). unfold fs in He. rewrite save_keys_eq in He. apply in_app_or in He as [[<-|He]|He].
      + destruct (path_eqb _ _); destruct Ha.
      + apply in_map_iff in He as (x & <- & _). cbn [fst kent length firstn skipn] in Ha. destruct (path_eqb [kdir (fst x)] [kdir i]); destruct Ha.
      + apply in_map_iff in He as (t & <- & Ht). destruct t as [[[i' d'] f'] iv']. cbn [fst tent tpath length firstn skipn] in Ha. destruct (path_eqb [kdir i'] [kdir i]) eqn:E; [|destruct Ha].
        apply path_eqb_spec in E. apply cons_inj in E as [E _]. apply kdir_inj in E. destruct Ha as [<-|[]]. exists (i', d', f', iv'). auto.
    - intros (t & Ht & E & ->). exists (tent t). split; [apply in_or_app; right; apply in_map, Ht|]. destruct t as [[[i' d'] f'] iv']. cbn in E. subst i'. cbn [fst tent tpath length firstn skipn t_d].
      rewrite (proj2 (path_eqb_spec [kdir i] [kdir i]) eq_refl). left. reflexivity.
  Qed.
  Lemma NoDup_subdirs i : NoDup (subdirs fs [kdir i]).
  Proof using. apply NoDup_dedup, str_eqb_spec. Qed.
  Lemma load_dataset_eq i d : load_dataset fs i (ddir d) = Some (filter (fun t => Nat.eqb (t_i t) i && (t_d t =? d)) order).
  Proof using.
    unfold load_dataset. rewrite second_part_ddir, files_in_eq.
    set (l := filter _ order). assert (H : forall t, In t l -> t_i t = i /\ t_d t = d).
    { intros t Ht. apply filter_In in Ht as [_ Ht]. apply andb_true_iff in Ht as [H1 H2]. apply Nat.eqb_eq in H1. apply Z.eqb_eq in H2. auto. }
    clearbody l. clear - H. induction l as [|t l IH]; [reflexivity|]. cbn [map filter fst]. rewrite fname_glob. cbn [collect]. unfold load_file at 1. cbn [fst snd]. rewrite second_part_fname, IH by (intros u Hu; apply H; right; exact Hu).
    destruct (H t (or_introl eq_refl)) as [<- <-]. destruct t as [[[i d] f] iv]. reflexivity.
  Qed.
  Lemma load_one i : exists l, option_map (@concat task) (collect (load_dataset fs i) (filter (starts_with dataset_pre) (subdirs fs [kdir i]))) = Some l /\
    Permutation l (filter (fun t => Nat.eqb (t_i t) i) order).
  Proof using.
    set (num := fun a => match second_part a with Some d => d | None => 0 end).
    set (ds := map num (subdirs fs [kdir i])).
    assert (E : subdirs fs [kdir i] = map ddir ds).
    { unfold ds. rewrite map_map. rewrite <- map_id at 1. apply map_ext_in. intros a Ha. apply in_subdirs in Ha as (t & _ & _ & ->). unfold num. rewrite second_part_ddir. reflexivity. }
    assert (Nd : NoDup ds) by (assert (N := NoDup_subdirs i); rewrite E in N; apply NoDup_map_inv in N; exact N).
    rewrite E. assert (F : filter (starts_with dataset_pre) (map ddir ds) = map ddir ds).
    { apply filter_all_true. intros a Ha. apply in_map_iff in Ha as (d & <- & _). apply ddir_starts. }
    rewrite F. set (h := fun d => filter (fun t => Nat.eqb (t_i t) i && (t_d t =? d)) order).
    assert (C : collect (load_dataset fs i) (map ddir ds) = Some (map h ds)).
    { clear - h. induction ds as [|d l IH]; [reflexivity|]. cbn [map collect]. rewrite load_dataset_eq, IH. reflexivity. }
    rewrite C. cbn [option_map]. exists (concat (map h ds)). split; [reflexivity|]. rewrite <- flat_map_concat_map.
    rewrite <- (group_perm Z.eqb Z.eqb_eq t_d ds (filter (fun t => Nat.eqb (t_i t) i) order) Nd).
    - apply Permutation_refl'. apply flat_map_ext. intros d. unfold h. clear. induction order as [|t l IH]; [reflexivity|]. cbn [filter]. destruct (Nat.eqb (t_i t) i); cbn [andb filter]; [|exact IH]. destruct (t_d t =? d); [f_equal|]; exact IH.
    - intros t Ht. apply filter_In in Ht as [Ht Hi]. apply Nat.eqb_eq in Hi. assert (X : In (ddir (t_d t)) (subdirs fs [kdir i])) by (apply in_subdirs; exists t; auto).
      rewrite E in X. apply in_map_iff in X as (d & Ed & Hd). apply ddir_inj in Ed. subst d. exact Hd.
  Qed.
  Lemma load_tasks_eq n : (forall t, In t order -> (t_i t < n)%nat) -> exists l, load_tasks fs n = Some l /\ Permutation l order.
  Proof using.
    intros H. unfold load_tasks.
    assert (G : forall is_, exists ls, collect (fun i => option_map (@concat task) (collect (load_dataset fs i) (filter (starts_with dataset_pre) (subdirs fs [kdir i])))) is_ = Some ls /\
      Permutation (concat ls) (flat_map (fun i => filter (fun t => Nat.eqb (t_i t) i) order) is_)).
    { induction is_ as [|i is_ IH]; [exists []; split; reflexivity|]. destruct (load_one i) as (l & L1 & L2). destruct IH as (ls & I1 & I2). exists (l :: ls). cbn [collect flat_map concat]. rewrite L1, I1. split; [reflexivity|]. apply Permutation_app; assumption. }
    destruct (G (seq 0 n)) as (ls & G1 & G2). rewrite G1. cbn [option_map]. exists (concat ls). split; [reflexivity|]. rewrite G2.
    apply (group_perm Nat.eqb Nat.eqb_eq t_i); [apply seq_NoDup|]. intros t Ht. apply in_seq. specialize (H t Ht). lia.
  Qed.
  Lemma load_key_eq i k : nth_error (akeys idx) i = Some k -> load_key fs i = Some k.
  Proof using.
    intros H. unfold load_key, fs. apply in_enumerate in H. rewrite save_keys_eq.
    assert (G : forall m, In (i, k) (enumerate (akeys idx)) -> aget path_eqb [kdir i; key_pkl] (map kent (enumerate (akeys idx)) ++ m) = Some (CKey k)).
    { intros m Hi. assert (N : NoDup (akeys (enumerate (akeys idx)))) by (rewrite akeys_enumerate; apply seq_NoDup). revert N Hi. generalize (enumerate (akeys idx)) as l. induction l as [|[j k'] l IH]; intros N Hi; [destruct Hi|]. destruct Hi as [E|Hi].
      - injection E as -> ->. cbn [map app kent fst snd aget]. rewrite (proj2 (path_eqb_spec [kdir i; key_pkl] [kdir i; key_pkl]) eq_refl). reflexivity.
      - cbn [map app]. unfold kent at 1. cbn [fst snd aget]. inversion N as [|? ? N1 N2]; subst. destruct (path_eqb [kdir i; key_pkl] [kdir j; key_pkl]) eqn:E; [|apply IH; assumption].
        apply path_eqb_spec in E. apply cons_inj in E as [E _]. apply kdir_inj in E. subst j. exfalso. apply N1. apply (in_map fst) in Hi. exact Hi. }
    cbn [app aget]. destruct (path_eqb [kdir i; key_pkl] [order_pkl]) eqn:E; [apply path_eqb_spec in E; discriminate|]. rewrite G by exact H. reflexivity.
  Qed.
  Lemma load_plan_eq : (forall t, In t order -> (t_i t < length idx)%nat) -> exists l, load_plan fs = Some (akeys idx, l) /\ Permutation l order.
  Proof using.
    intros H. destruct (load_tasks_eq (length idx) H) as (l & L1 & L2). exists l. split; [|exact L2]. unfold load_plan.
    assert (E : aget path_eqb [order_pkl] fs = Some (CKeys (akeys idx))). { unfold fs. rewrite save_keys_eq. cbn [app aget]. rewrite (proj2 (path_eqb_spec [order_pkl] [order_pkl]) eq_refl). reflexivity. }
    rewrite E. rewrite (map_length fst idx), L1.
    assert (C : collect (load_key fs) (seq 0 (length idx)) = Some (akeys idx)); [|rewrite C; reflexivity].
    assert (C : collect (load_key fs) (seq 0 (length idx)) = Some (map (fun i => nth i (akeys idx) []) (seq 0 (length idx)))).
    { apply collect_map. intros i Hi. apply in_seq in Hi. apply load_key_eq. apply nth_error_nth'. rewrite map_length. lia. }
    rewrite C. f_equal. rewrite <- (map_length fst idx). clear. induction (akeys idx) as [|k l IH]; [reflexivity|]. cbn [length seq map nth]. f_equal. rewrite <- seq_shift, map_map. exact IH.
  Qed.
End Read.
