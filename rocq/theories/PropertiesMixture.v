(** Theorems about mixtures: C13 (static), C14 (hierarchical), C15 (schedule), C46 (inferred), C52.  Vocabulary: SpecMixture.v. *)
From Verif Require Import Base MixtureKeyModel MixtureKeyProofs UtilsModel UtilsProofs ChunkGenModel SpecChunk ChunkGenProofs1
  MixtureModel SpecMixture MixtureProofs MixtureProofs2 PropertiesChunk.
From Coq Require Import QArith Qround Qabs Qminmax Lqa ZifyBool ZifyNat.
Open Scope Z_scope.

Lemma nth_combine {A B} (a : list A) (b : list B) i x y : nth_error a i = Some x -> nth_error b i = Some y -> nth_error (combine a b) i = Some (x, y).
Proof. revert b i. induction a as [|a0 a IH]; intros [|b0 b] [|i]; cbn; try discriminate; [congruence|apply IH]. Qed.
Lemma close_isclose1 t : (Qabs (t - 1) <= 1 # 1000)%Q -> isclose1 t = true.
Proof.
  intros H. apply Qle_bool_iff. eapply Qle_trans; [exact H|]. pose proof (Q.le_max_r (Qabs t) 1). lra.
Qed.

(** ** C13 *)
(** In exact arithmetic: weights that are non-negative and sum to one (up to 0.1%) are accepted; the row numbers are
    given for the same keys, sum to the chunk size, and are the normalised shares rounded down or up. *)
Theorem C13_static_exact : forall c mix,
  let S := qsum (map snd mix) in
  0 <= c -> Forall (fun kv => (0 <= snd kv)%Q) mix -> (Qabs (S - 1) <= 1 # 1000)%Q ->
  exists rows, static_mixture exactly c mix = Ok rows
    /\ map fst rows = map fst mix /\ zsum (map snd rows) = c
    /\ forall i k w, nth_error mix i = Some (k, w) ->
         exists v, nth_error rows i = Some (k, v) /\ 0 <= v
                   /\ (v = Qfloor (inject_Z c * (w / S)) \/ v = Qceiling (inject_Z c * (w / S))).
Proof.
  intros c mix S Hc Hpos Hcl. unfold static_mixture. set (t := fsum exactly (map snd mix)).
  assert (HtS : (t == S)%Q) by apply fsum_exact.
  assert (Hi : isclose1 t = true) by (apply close_isclose1; rewrite HtS; exact Hcl). rewrite Hi. cbn [negb].
  pose proof (isclose1_pos t Hi) as Ht.
  set (um := map (fun kv : mkey * Q => (fst kv, exactly (snd kv / t)%Q)) mix).
  destruct (parse_exact c um Hc) as (counts & E & Hl & Hz & Hn & Hr).
  { unfold um, exactly. rewrite Forall_map. eapply Forall_impl; [|exact Hpos]. cbn. intros kv Hkv. apply Qle_shift_div_l; lra. }
  { unfold um. rewrite map_map. cbn [snd]. transitivity (S / t)%Q; [|rewrite HtS; field; lra]. unfold exactly, S. clearbody t. clear - Ht.
    induction mix as [|[k w] l IH]; cbn [map snd]; [cbn; field; lra|]. rewrite !qsum_cons, IH. field. lra. }
  assert (Hf : map fst um = map fst mix) by (unfold um; rewrite map_map; reflexivity).
  assert (Hlm : length um = length mix) by (unfold um; apply map_length).
  exists (combine (map fst mix) counts). split; [rewrite E, Hf; reflexivity|].
  assert (Hlen : length (map fst mix) = length counts) by (rewrite map_length; congruence).
  split; [apply map_fst_combine_, Hlen|]. split; [rewrite map_snd_combine_ by exact Hlen; exact Hz|].
  intros i k w Hi'. destruct (Hr i k (w / t)%Q) as (v & Hv & Hor).
  { unfold um. rewrite nth_error_map, Hi'. reflexivity. }
  exists v. split; [apply nth_combine; [rewrite nth_error_map, Hi'; reflexivity|exact Hv]|].
  split; [rewrite Forall_forall in Hn; apply Hn; eapply nth_error_In; exact Hv|].
  rewrite HtS in Hor. exact Hor.
Qed.
Print Assumptions C13_static_exact.

(** In double precision: whatever the rounding of the individual operations (relative error at most 2^-53), as long as
    (chunk size + 1) * (number of keys + 3) < 2^53 the mixture is accepted, sums to the chunk size, and every number is
    within 1 + (c+1)(n+3)/2^53 of the exact share. *)
Definition eps53 : Q := 1 # 9007199254740992.
Theorem C13_static_float : forall (fl : Q -> Q) c mix,
  let S := qsum (map snd mix) in
  let n := inject_Z (Z.of_nat (length mix)) in
  (forall x, (0 <= x)%Q -> (Qabs (fl x - x) <= eps53 * x)%Q) ->
  0 <= c -> Forall (fun kv => (0 <= snd kv)%Q) mix ->
  (Qabs (fsum fl (map snd mix) - 1) <= 1 # 1000)%Q ->
  ((inject_Z c + 1) * (n + 3) * eps53 < 1)%Q ->
  exists rows, static_mixture fl c mix = Ok rows
    /\ map fst rows = map fst mix /\ zsum (map snd rows) = c
    /\ forall i k w, nth_error mix i = Some (k, w) ->
         exists v, nth_error rows i = Some (k, v) /\ 0 <= v
                   /\ (Qabs (inject_Z v - inject_Z c * w / S) <= 1 + (inject_Z c + 1) * (n + 3) * eps53)%Q.
Proof.
  intros fl c mix S n Hfl Hc Hpos Hcl He.
  destruct (static_float fl eps53) with (c := c) (mix := mix) as (counts & E & Hl & Hz & Hn & Hr); auto.
  - discriminate.
  - vm_compute. discriminate.
  - intros x Hx. specialize (Hfl x Hx). apply Qabs_Qle_condition in Hfl. split; lra.
  - apply close_isclose1, Hcl.
  - assert (Hlen : length (map fst mix) = length counts) by (rewrite map_length; congruence).
    exists (combine (map fst mix) counts). split; [exact E|].
    split; [apply map_fst_combine_, Hlen|]. split; [rewrite map_snd_combine_ by exact Hlen; exact Hz|].
    intros i k w Hi. destruct (Hr i k w Hi) as (v & Hv & Hb). exists v.
    split; [apply nth_combine; [rewrite nth_error_map, Hi; reflexivity|exact Hv]|].
    split; [rewrite Forall_forall in Hn; apply Hn; eapply nth_error_In; exact Hv|exact Hb].
Qed.
Print Assumptions C13_static_float.
Example C13_example : static_mixture exactly 10 [(ka, 1 # 3); (kb, 1 # 3); (kab, 1 # 3)] = Ok [(ka, 4); (kb, 3); (kab, 3)]
  /\ static_mixture exactly 10 [(ka, 1 # 2); (kb, 1 # 3)] = Err ValueError.
Proof. split; vm_compute; reflexivity. Qed.

Lemma forall2_len {A B} (R : A -> B -> Prop) l l' : Forall2 R l l' -> length l = length l'.
Proof. induction 1; cbn; congruence. Qed.

(** ** C14 *)
(** If property names do not repeat along a path and no two leaves describe the same key, the weights are the products
    along the paths; if moreover the weights of every level sum to one, the numbers fill the chunk, every leaf gets its
    share rounded down, and the first leaf also gets what is left (less than one row per leaf). *)
Theorem C14_hierarchical : forall c n,
  0 <= c -> weights_ok n ->
  (forall p, In p (paths n) -> NoDup (map fst (fst p))) ->
  NoDup (map (fun p => canon (fst p)) (paths n)) ->
  Forall2 (fun kv p => fst kv = canon (fst p) /\ (snd kv == snd p)%Q) (convert exactly n) (paths n)
  /\ exists rows, hierarchical_mixture exactly c n = Ok rows
       /\ zsum (map snd rows) = c
       /\ map fst rows = map (fun p => canon (fst p)) (paths n)
       /\ forall i k w, nth_error (paths n) i = Some (k, w) ->
            exists v, nth_error rows i = Some (canon k, v)
              /\ Qfloor (inject_Z c * w) <= v <= Qfloor (inject_Z c * w) + Z.of_nat (length (paths n))
              /\ (i <> 0%nat -> v = Qfloor (inject_Z c * w)).
Proof.
  intros c n Hc Hw Hp Hnd. pose proof (convert_paths n Hp Hnd) as HF. split; [exact HF|].
  destruct (paths_sum n Hw) as [Hs Hpos].
  assert (Hlen : length (convert exactly n) = length (paths n)) by (eapply forall2_len; exact HF).
  destruct (hierarchical_rows c n (convert exactly n) Hc eq_refl) as (counts & E & Hl & Hz & Hr).
  { clear - HF Hpos. induction HF as [|a b l l' [_ E] _ IH]; constructor; inversion Hpos as [|? ? H0 H1]; subst; [rewrite E; exact H0|auto]. }
  { rewrite <- Hs. apply qsum_ext. clear - HF. induction HF as [|a b l l' [_ E] _ IH]; cbn; constructor; auto. }
  exists (combine (map fst (convert exactly n)) counts). split; [exact E|].
  assert (Hlf : length (map fst (convert exactly n)) = length counts) by (rewrite map_length; congruence).
  split; [rewrite map_snd_combine_ by exact Hlf; exact Hz|].
  split; [rewrite map_fst_combine_ by exact Hlf; apply same_keys; exact HF|].
  intros i k w Hi.
  assert (Hi2 : exists w', nth_error (convert exactly n) i = Some (canon k, w') /\ (w' == w)%Q).
  { clear - HF Hi. revert i Hi. induction HF as [|[k1 w1] [k2 w2] l l' [E1 E2] _ IH]; intros [|i] Hi; cbn in Hi; try discriminate.
    - injection Hi as -> ->. cbn in E1, E2. subst k1. eexists; split; [reflexivity|exact E2].
    - apply IH, Hi. }
  destruct Hi2 as (w' & Hi2 & Ew). destruct (Hr i _ _ Hi2) as (v & Hv & H1 & H2 & H3).
  rewrite Ew in H1, H2, H3. exists v. split; [apply nth_combine; [rewrite nth_error_map, Hi2; reflexivity|exact Hv]|].
  rewrite Hlen in H3. split; [lia|exact H2].
Qed.
Print Assumptions C14_hierarchical.
(** topic: law 1/2 (language: en 2/3, de 1/3), medicine 1/2. *)
Definition tree_ex : mnode :=
  Node [116] [Comp [[108]] (1 # 2) (Some (Node [97] [Comp [[101]] (2 # 3) None; Comp [[100]] (1 # 3) None])); Comp [[109]] (1 # 2) None].
Example C14_example : weights_ok tree_ex
  /\ (forall p, In p (paths tree_ex) -> NoDup (map fst (fst p))) /\ NoDup (map (fun p => canon (fst p)) (paths tree_ex))
  /\ hierarchical_mixture exactly 100 tree_ex
     = Ok [([([97], [[101]]); ([116], [[108]])], 34); ([([97], [[100]]); ([116], [[108]])], 16); ([([116], [[109]])], 50)].
Proof.
  split; [cbn; repeat split; try reflexivity; try discriminate|]. split.
  { intros p H. cbn in H. destruct H as [<-|[<-|[<-|[]]]]; cbn; repeat (constructor; [cbn; intuition congruence|]); constructor. }
  split; [|vm_compute; reflexivity]. vm_compute. repeat (constructor; [cbn; intuition congruence|]). constructor.
Qed.
(** The code does not check that weights sum to one (StaticMixture does): the chunk is then not filled exactly. *)
Theorem C14_unchecked_weights_refuted : exists n rows,
  hierarchical_mixture exactly 10 n = Ok rows /\ zsum (map snd rows) = 15.
Proof.
  exists (Node [116] [Comp [[108]] (3 # 4) None; Comp [[109]] (3 # 4) None; Comp [[110]] (1 # 10) None]). eexists. split; vm_compute; reflexivity.
Qed.

(** ** C15 *)
(** After any sequence of feedback messages, in any order, a schedule behaves like the entry prescribed for the largest
    training step reported so far. *)
Theorem C15_schedule : forall c sched fbs m0,
  schedule_init c sched = Ok m0 ->
  exists s i e, largest (0 :: fbs) s /\ prescribed sched s i e
    /\ mixture_in_rows (fold_left feedback fbs m0) = mixture_in_rows (snd e).
Proof.
  intros c sched fbs m0 H. unfold schedule_init in H. destruct sched as [|e0 sched']; [discriminate|]. set (sched := e0 :: sched') in *.
  set (adj := map (fun e : Z * mixture => (fst e, if mx_csize (snd e) =? c then snd e else set_csize c (snd e))) sched) in H.
  assert (Em : m0 = Mixture c 0 true (KSchedule (isort (fun a b : Z * mixture => fst a <? fst b) adj))) by congruence.
  clear H. subst m0. rewrite fold_feedback. set (s := fold_left Z.max fbs 0).
  destruct (pick_spec s adj) as (i & e & Hp & Hi & Hor); [unfold adj, sched; discriminate|].
  exists s, i. unfold adj in Hi. rewrite nth_error_map in Hi. destruct (nth_error sched i) as [e1|] eqn:E1; [|discriminate].
  cbn in Hi. injection Hi as He. exists e1. split; [apply fold_max_largest|].
  assert (Hadj : forall j e', nth_error sched j = Some e' -> exists e'', nth_error adj j = Some e'' /\ fst e'' = fst e').
  { intros j e' Hj. unfold adj. rewrite nth_error_map, Hj. cbn. eauto. }
  assert (Hfst : fst e = fst e1) by (subst e; reflexivity).
  split.
  - split; [exact E1|]. rewrite Hfst in Hor. destruct Hor as [[H1 H2]|[H1 H2]]; [left|right]; (split; [try exact H1|]).
    + intros j e' Hj. destruct (Hadj j e' Hj) as (e'' & Hj' & <-). apply H2, Hj'.
    + intros j e' Hj. destruct (Hadj j e' Hj) as (e'' & Hj' & <-). eapply H1, Hj'.
    + intros j e' Hj. destruct (Hadj j e' Hj) as (e'' & Hj' & <-). apply H2, Hj'.
  - transitivity (mixture_in_rows (snd e)); [|subst e; cbn [snd]; destruct (mx_csize (snd e1) =? c); [reflexivity|apply rows_set_csize]].
    cbv beta iota. unfold mixture_in_rows at 1. cbn [depth]. set (d := fold_right _ _ _). cbn [mixture_in_rows_fuel]. fold s.
    rewrite Hp. destruct e as [st m].
    apply rows_fuel_enough. apply (depth_entry (st, m)). eapply pick_in. exact Hp.
Qed.
Print Assumptions C15_schedule.
Example C15_example : exists m0,
  schedule_init 4 [(100, Mixture 4 0 true (KRows [(ka, 4)])); (0, Mixture 4 0 true (KRows [(ka, 3); (kb, 1)])); (50, Mixture 4 0 true (KRows [(kb, 4)]))] = Ok m0
  /\ mixture_in_rows m0 = [(ka, 3); (kb, 1)]
  /\ mixture_in_rows (fold_left feedback [60; 20] m0) = [(kb, 4)]
  /\ mixture_in_rows (fold_left feedback [20; 110; 60] m0) = [(ka, 4)].
Proof. eexists. split; [vm_compute; reflexivity|]. vm_compute. auto. Qed.

(** ** C52: an entry of a schedule behaves as it would on its own *)
(** Row numbers, and strictness if all entries are strict, are those of the entry ([_partial]: missing are best-effort
    entries, the index an inferring entry needs, and the adaptation of row numbers to another chunk size). In general
    it is not so: (1) a best-effort entry is used strictly; (2) an inferring entry that is not current when the query result
    is made known never learns it and acts as an arbitrary mixture; (3) an entry made for another chunk size keeps its
    row numbers, which no longer fill the chunk. *)
Theorem C52_schedule_entry_partial : forall c sched fbs m0,
  schedule_init c sched = Ok m0 ->
  (forall e, In e sched -> mx_strict (snd e) = true) ->
  exists s i e, largest (0 :: fbs) s /\ prescribed sched s i e
    /\ let now := fold_left feedback fbs m0 in
       mixture_in_rows now = mixture_in_rows (snd e) /\ mx_strict now = mx_strict (snd e) /\ mx_csize now = c.
Proof.
  intros c sched fbs m0 H Hst. destruct (C15_schedule c sched fbs m0 H) as (s & i & e & H1 & H2 & H3).
  exists s, i, e. split; [exact H1|]. split; [exact H2|]. split; [exact H3|].
  rewrite (Hst e) by (eapply nth_error_In; exact (proj1 H2)).
  unfold schedule_init in H. destruct sched; [discriminate|]. injection H as <-. rewrite fold_feedback. split; reflexivity.
Qed.
Print Assumptions C52_schedule_entry_partial.
Theorem C52_schedule_entry_refuted :
  (exists m0 e, schedule_init 4 [(0, e)] = Ok m0 /\ mx_strict e = false /\ mx_strict m0 = true)
  /\ (exists m0 m1 e e1, schedule_init 4 [(0, Mixture 4 0 true (KRows [(ka, 3); (kb, 1)])); (10, e)] = Ok m0
        /\ process_index 5 exactly idx_ex m0 = Ok m1 /\ process_index 5 exactly idx_ex e = Ok e1
        /\ mixture_in_rows e1 = [(ka, 3); (kb, 1)] /\ mixture_in_rows (feedback m1 10) = [])
  /\ (exists m0 e, schedule_init 4 [(0, e)] = Ok m0 /\ mx_csize m0 = 4 /\ zsum (map snd (mixture_in_rows m0)) = 8).
Proof.
  split; [|split].
  - do 2 eexists. split; [reflexivity|]. split; [|reflexivity]. instantiate (1 := Mixture 4 0 false (KRows [])). reflexivity.
  - exists (Mixture 4 0 true (KSchedule [(0, Mixture 4 0 true (KRows [(ka, 3); (kb, 1)])); (10, Mixture 4 0 true (KInferring []))])).
    do 1 eexists. exists (Mixture 4 0 true (KInferring [])). eexists. repeat (split; [vm_compute; reflexivity|]). vm_compute. reflexivity.
  - eexists. exists (Mixture 8 0 true (KRows [(ka, 6); (kb, 2)])). split; [vm_compute; reflexivity|]. split; vm_compute; reflexivity.
Qed.
Print Assumptions C52_schedule_entry_refuted.

Lemma sorted_range_ok l : ranges_sorted l -> Forall range_ok l.
Proof. induction l as [|r l IH]; intros H; constructor; destruct H as (H1 & _ & H3); [unfold range_ok; lia|auto]. Qed.

(** ** C46 *)
(** An inferred mixture gives every key of the query result its share of the rows (shares sum to one); the row numbers
    of an InferringMixture fill the chunk and are these shares rounded down or up. *)
Theorem C46_inferred : forall c idx,
  0 <= c -> index_ok idx -> all_rows idx <> [] ->
  let T := Z.of_nat (length (all_rows idx)) in
  exists um rows, infer_mixture exactly idx = Ok (T, um) /\ map fst um = map fst idx /\ (qsum (map snd um) == 1)%Q
    /\ (forall i k p, nth_error idx i = Some (k, p) -> exists w, nth_error um i = Some (k, w)
          /\ (w * inject_Z T == inject_Z (Z.of_nat (length (rows_of p))))%Q /\ (rows_of p <> [] -> (0 < w)%Q))
    /\ infer_rows exactly c idx = Ok rows /\ map fst rows = map fst idx /\ zsum (map snd rows) = c
    /\ (forall i k w, nth_error um i = Some (k, w) -> exists v, nth_error rows i = Some (k, v) /\ 0 <= v
          /\ (v = Qfloor (inject_Z c * w) \/ v = Qceiling (inject_Z c * w))).
Proof.
  intros c idx Hc Hix Hne T.
  assert (Hok : forall k p, In (k, p) idx -> part_ok p).
  { intros k p Hin. unfold part_ok. rewrite Forall_forall. intros [d fs] Hd. rewrite Forall_forall. intros [f rs] Hf. cbn [snd].
    cbn [snd] in Hf. apply sorted_range_ok. eapply ix_ranges; eauto. }
  destruct (infer_exact idx Hok Hne) as [E Hs]. set (um := map (fun kp : mkey * part => _) idx) in *.
  assert (Ht : 0 < T) by (unfold T; destruct (all_rows idx); [congruence|cbn [length]; lia]).
  assert (HT : (0 < inject_Z T)%Q) by (change 0%Q with (inject_Z 0); rewrite <- Zlt_Qlt; exact Ht).
  assert (Hpos : Forall (fun kv => (0 <= snd kv)%Q) um).
  { unfold um. rewrite Forall_map. apply Forall_forall. intros kp _. cbn. apply Qle_shift_div_l; [exact HT|].
    rewrite Qmult_0_l. change 0%Q with (inject_Z 0). rewrite <- Zle_Qle. lia. }
  destruct (parse_exact c um Hc Hpos Hs) as (counts & Ep & Hl & Hz & Hn & Hr).
  assert (Hk : map fst um = map fst idx) by (unfold um; rewrite map_map; reflexivity).
  exists um, (combine (map fst um) counts). split; [exact E|]. split; [exact Hk|]. split; [exact Hs|].
  assert (Hlf : length (map fst um) = length counts) by (rewrite map_length; congruence).
  split.
  { intros i k p Hi. eexists. split; [unfold um; rewrite nth_error_map, Hi; reflexivity|]. cbn [snd]. fold T. split; [field; lra|].
    intros Hp. apply Qlt_shift_div_l; [exact HT|]. rewrite Qmult_0_l. change 0%Q with (inject_Z 0). rewrite <- Zlt_Qlt.
    destruct (rows_of p); [congruence|cbn [length]; lia]. }
  split.
  { unfold infer_rows. rewrite E. fold T. replace (T =? 0) with false by lia. replace (0 <? T) with true by lia.
    replace (Nat.eqb (length um) 0) with false; [exact Ep|].
    unfold um. rewrite map_length. destruct idx; [cbn in Hne; congruence|reflexivity]. }
  split; [rewrite map_fst_combine_ by exact Hlf; exact Hk|]. split; [rewrite map_snd_combine_ by exact Hlf; exact Hz|].
  intros i k w Hi. destruct (Hr i k w Hi) as (v & Hv & Hor). exists v.
  split; [apply nth_combine; [rewrite nth_error_map, Hi; reflexivity|exact Hv]|].
  split; [rewrite Forall_forall in Hn; apply Hn; eapply nth_error_In; exact Hv|exact Hor].
Qed.
Print Assumptions C46_inferred.
Example C46_example : infer_rows exactly 8 idx_ex = Ok [(ka, 5); (kb, 3)] /\ length (all_rows idx_ex) = 16%nat.
Proof. split; vm_compute; reflexivity. Qed.
