(** Theorems about how many chunks a query delivers (C92).  Vocabulary: SpecChunk.v, SpecCount.v. *)
From Verif Require Import Base MixtureKeyModel MixtureKeyProofs UtilsModel UtilsProofs ChunkGenModel SpecChunk SpecCount ChunkGenProofs1
  ChunkGenProofs2 ChunkGenProofs3 ChunkGenProofs4 ChunkGenProofs5 ChunkGenProofs6 ChunkGenProofs7 ChunkGenProofs9 ChunkGenProofs12
  ChunkGenProofs14 PropertiesChunk PropertiesChunk2.
From Coq Require Import ZifyBool ZifyNat.
Open Scope Z_scope.

(** ** Prefixes of histories *)
Lemma qrun_prefix fuel ops : forall q q' os1 os2, qrun fuel ops q = (q', os1 ++ os2) ->
  exists ops1 q1, qrun fuel ops1 q = (q1, os1) /\ incl ops1 ops
    /\ forall inst held i, (i < length os1)%nat -> nth_error (working ops1 os1 inst held) i = nth_error (working ops (os1 ++ os2) inst held) i.
Proof.
  induction ops as [|[h|h r] ops IH]; intros q q' os1 os2 H; cbn [qrun] in H.
  - injection H as <- H. destruct os1; [|discriminate]. exists [], q. split; [reflexivity|]. split; [intros x []|]. intros. cbn in *. lia.
  - destruct (qr_next fuel h q) as [q1 o] eqn:E. destruct (qrun fuel ops q1) as [q2 os] eqn:E2. injection H as <- H.
    destruct os1 as [|o1 os1].
    + exists [], q. split; [reflexivity|]. split; [intros x []|]. intros. cbn in *. lia.
    + cbn in H. injection H as <- ->. destruct (IH _ _ _ _ E2) as (ops1 & q1' & R & I & W). exists (Next h :: ops1), q1'. split.
      { cbn [qrun]. rewrite E, R. reflexivity. }
      split. { intros x [<-|Hx]; [left; reflexivity|right; apply I, Hx]. }
      intros inst held i Hi. cbn [app]. rewrite !working_cons. destruct i as [|i]; [reflexivity|]. cbn [nth_error]. apply W. cbn in Hi. lia.
  - destruct (IH _ _ _ _ H) as (ops1 & q1' & R & I & W). exists (Update h r :: ops1), q1'. split; [cbn [qrun]; exact R|].
    split. { intros x [<-|Hx]; [left; reflexivity|right; apply I, Hx]. }
    intros inst held i Hi. cbn [working]. apply W, Hi.
Qed.

Lemma in_available idx k x : In x (available idx k) <-> belongs idx k x.
Proof.
  unfold available, belongs. rewrite in_flat_map. split.
  - intros ([ck p] & H1 & H2). cbn [fst snd] in H2. destruct (key_eq k ck) eqn:E; [|destruct H2]. eauto.
  - intros (ck & p & H1 & H2 & H3). exists (ck, p). cbn [fst snd]. rewrite H2. auto.
Qed.
Lemma in_available_any idx ks x : In x (available_any idx ks) <-> exists k, In k ks /\ belongs idx k x.
Proof.
  unfold available_any, belongs. rewrite in_flat_map. split.
  - intros ([ck p] & H1 & H2). cbn [fst snd] in H2. destruct (existsb _ ks) eqn:E; [|destruct H2]. apply existsb_exists in E as (k & Hk & E). eauto 8.
  - intros (k & Hk & ck & p & H1 & H2 & H3). exists (ck, p). cbn [fst snd].
    replace (existsb (fun k0 => key_eq k0 ck) ks) with true; [auto|]. symmetry. apply existsb_exists. eauto.
Qed.
Lemma sub_nodup (c : mkey -> bool) (idx : index) : NoDup (all_rows idx) -> NoDup (flat_map (fun kp => if c (fst kp) then rows_of (snd kp) else []) idx).
Proof.
  unfold all_rows. induction idx as [|[k p] idx IH]; cbn; [auto|]. intros H. apply NoDup_app_iff in H as (H1 & H2 & H3).
  apply NoDup_app_iff. split; [destruct (c k); [exact H1|constructor]|]. split; [apply IH, H2|].
  intros x Hx. destruct (c k); [|destruct Hx]. specialize (H3 x Hx). intros Hy. apply H3. apply in_flat_map in Hy as ([k' p'] & Hi & Hy).
  cbn [fst snd] in Hy. destruct (c k'); [|destruct Hy]. apply in_flat_map. exists (k', p'). auto.
Qed.
Lemma available_nodup idx k : NoDup (all_rows idx) -> NoDup (available idx k).
Proof. apply (sub_nodup (key_eq k)). Qed.
Lemma available_any_nodup idx ks : NoDup (all_rows idx) -> NoDup (available_any idx ks).
Proof. apply (sub_nodup (fun ck => existsb (fun k => key_eq k ck) ks)). Qed.

(** The first [n] results. *)
Lemma split_at {A} (l : list A) i x : nth_error l i = Some x -> exists l1 l2, l = l1 ++ x :: l2 /\ length l1 = i.
Proof. apply nth_error_split. Qed.

Lemma first_failure (os : list nout) i : (forall c, nth_error os i <> Some (NChunk c)) -> (i < length os)%nat ->
  exists cs o rest, os = cs ++ o :: rest /\ Forall delivered cs /\ ~ delivered o /\ (length cs <= i)%nat.
Proof.
  revert i. induction os as [|o os IH]; intros i Hn Hi; [cbn in Hi; lia|].
  destruct o as [c| | |e].
  1: destruct i as [|i]; [exfalso; apply (Hn c); reflexivity|]; destruct (IH i Hn ltac:(cbn in Hi; lia)) as (cs & o & rest & -> & H1 & H2 & H3);
     exists (NChunk c :: cs), o, rest; (split; [reflexivity|]); (split; [constructor; [eexists; reflexivity|exact H1]|]); (split; [exact H2|cbn; lia]).
  all: eexists [], _, os; (split; [reflexivity|]); (split; [constructor|]); (split; [intros [c H]; discriminate|cbn; lia]).
Qed.

Lemma chunks_all cs : Forall delivered cs -> map (fun c => NChunk c) (chunks cs) = cs.
Proof. induction 1 as [|o cs [c ->] _ IH]; cbn; [reflexivity|]. f_equal. exact IH. Qed.
Lemma chunks_len cs : Forall delivered cs -> length (chunks cs) = length cs.
Proof. intros H. rewrite <- (chunks_all cs H) at 2. symmetry. apply map_length. Qed.

Lemma flat_length {A B} (f : A -> list B) n (l : list A) : (forall a, In a l -> Z.of_nat (length (f a)) = n) ->
  Z.of_nat (length (flat_map f l)) = Z.of_nat (length l) * n.
Proof.
  induction l as [|a l IH]; intros H; cbn [flat_map length]; [lia|]. rewrite app_length, Nat2Z.inj_add, (H a) by (left; reflexivity).
  rewrite IH by (intros; apply H; right; assumption). lia.
Qed.

Section Uniform.
  Context (fuel : nat) (idx : index) (order : list mkey) (h0 : heap) (r0 : ref) (son : bool) (ops : list qop) (q : qr) (os : list nout) (m : mixobj).
  Hypothesis Hix : index_ok idx.
  Hypothesis Hord : Permutation order (map fst idx).
  Hypothesis Hh : heap_ok h0.
  Hypothesis Hops : Forall (fun o => heap_ok (op_heap o)) ops.
  Hypothesis Hrun : qrun (S fuel) ops (qr_init idx order h0 r0 son) = (q, os).
  Hypothesis Hm : forall w, In w (working ops os r0 None) -> w = m.
  Hypothesis Hne : m_rows m <> [].

  Lemma reach : reachable (S fuel) idx order q os.
  Proof using Hh Hops Hrun. exists h0, r0, son, ops. auto. Qed.

  Lemma working_len : forall ops0 q0 q1 os1 inst held, qrun (S fuel) ops0 q0 = (q1, os1) -> length (working ops0 os1 inst held) = length os1.
  Proof using.
    induction ops0 as [|[h|h r] ops0 IH]; intros q0 q1 os1 inst held H; cbn [qrun] in H.
    - injection H as <- <-. reflexivity.
    - destruct (qr_next (S fuel) h q0) as [q2 o]. destruct (qrun (S fuel) ops0 q2) as [q3 os3] eqn:E. injection H as <- <-.
      rewrite working_cons. cbn [length]. f_equal. eapply IH; eauto.
    - cbn [working]. eapply IH; eauto.
  Qed.
  Lemma working_m i o : nth_error os i = Some o -> nth_error (working ops os r0 None) i = Some m.
  Proof using Hrun Hm.
    intros H. assert (Hi : (i < length os)%nat) by (apply nth_error_Some; congruence).
    destruct (nth_error (working ops os r0 None) i) as [w|] eqn:E; [f_equal; symmetry; symmetry; apply Hm, (nth_error_In _ _ E)|].
    apply nth_error_None in E. rewrite (working_len _ _ _ _ r0 None Hrun) in E. lia.
  Qed.

  (** The rows some chunks list: distinct rows of the query. *)
  Lemma listed_nodup (f : rchunk -> list row) cs1 cs2 : os = cs1 ++ cs2 ->
    (forall c, NoDup (all_rows (rc_index c)) -> NoDup (f c)) -> (forall c, incl (f c) (all_rows (rc_index c))) -> NoDup (flat_map f (chunks cs1)).
  Proof using Hix Hord Hh Hops Hrun.
    intros E F1 F2. pose proof (proj1 (C01_no_sample_twice _ _ _ _ _ Hix Hord reach)) as Hnd. rewrite E, chunks_app, flat_map_app in Hnd.
    apply NoDup_app_iff in Hnd as [Hnd _]. revert Hnd. clear - F1 F2. induction (chunks cs1) as [|c l IH]; cbn; [auto|]. intros H.
    apply NoDup_app_iff in H as (A1 & A2 & A3). apply NoDup_app_iff. split; [apply F1, A1|]. split; [apply IH, A2|].
    intros x Hx Hy. apply (A3 x (F2 c x Hx)). apply in_flat_map in Hy as (c' & Hc' & Hy). apply in_flat_map. exists c'. split; [exact Hc'|apply F2, Hy].
  Qed.
  Lemma under_nodup k c : NoDup (all_rows (rc_index c)) -> NoDup (rows_under k (rc_index c)).
  Proof using. apply (sub_nodup (fun k' => mkey_eqb k' k)). Qed.
  Lemma under_incl k c : incl (rows_under k (rc_index c)) (all_rows (rc_index c)).
  Proof using.
    intros x Hx. unfold rows_under in Hx. apply in_flat_map in Hx as ([k' p] & H1 & H2). cbn [fst snd] in H2. destruct (mkey_eqb k' k); [|destruct H2].
    apply in_flat_map. exists (k', p). auto.
  Qed.
  Lemma under_belongs k c x : In c (chunks os) -> In x (rows_under k (rc_index c)) -> belongs idx k x.
  Proof using Hix Hord Hh Hops Hrun.
    intros Hc Hx. unfold rows_under in Hx. apply in_flat_map in Hx as ([k' p] & H1 & H2). cbn [fst snd] in H2.
    destruct (mkey_eqb k' k) eqn:E; [|destruct H2]. apply mkey_eqb_spec in E. subst k'.
    exact (C02_rows_from_matching_key _ _ _ _ _ _ _ _ _ Hix Hord reach Hc H1 H2).
  Qed.

  Lemma in_chunks cs1 cs2 c : os = cs1 ++ cs2 -> In c (chunks cs1) -> In c (chunks os).
  Proof using. intros E H. rewrite E, chunks_app. apply in_or_app. auto. Qed.
  Lemma chunk_at c : In c (chunks os) -> exists i, nth_error os i = Some (NChunk c).
  Proof using.
    intros H. unfold chunks in H. apply in_flat_map in H as (o & Ho & Hc). destruct o; try destruct Hc as []; try contradiction. subst.
    apply In_nth_error, Ho.
  Qed.

  (** A prefix ending at the first failure. *)
  Lemma prefix_failure cs o rest : os = cs ++ o :: rest -> exists ops1 q1, qrun (S fuel) ops1 (qr_init idx order h0 r0 son) = (q1, cs ++ [o])
    /\ Forall (fun o => heap_ok (op_heap o)) ops1 /\ nth_error (working ops1 (cs ++ [o]) r0 None) (length cs) = Some m.
  Proof using Hrun Hm Hops.
    intros E. pose proof Hrun as R. rewrite E in R. replace (cs ++ o :: rest) with ((cs ++ [o]) ++ rest) in R by (rewrite <- app_assoc; reflexivity).
    destruct (qrun_prefix _ _ _ _ _ _ R) as (ops1 & q1 & R1 & I & W). exists ops1, q1. split; [exact R1|]. split.
    - apply Forall_forall. intros x Hx. rewrite Forall_forall in Hops. apply Hops, I, Hx.
    - rewrite W by (rewrite app_length; cbn; lia). rewrite <- app_assoc. cbn [app]. rewrite <- E. apply (working_m _ o). rewrite E.
      rewrite nth_error_app2, Nat.sub_diag by lia. reflexivity.
  Qed.
  Lemma m_ok : os <> [] -> NoDup (map fst (m_rows m)) /\ Forall (fun kv => 0 <= snd kv) (m_rows m).
  Proof using Hrun Hm Hh Hops.
    intros H. destruct os as [|o os'] eqn:Eo; [contradiction|]. rewrite <- Eo in *. assert (W := working_m 0 o ltac:(rewrite Eo; reflexivity)).
    assert (G : forall ops0 os0 inst held w, Forall (fun o => heap_ok (op_heap o)) ops0 -> In w (working ops0 os0 inst held) -> mixture_ok (m_rows w)).
    { clear. induction ops0 as [|[h|h r] ops0 IH]; intros os0 inst held w H Hw; cbn [working] in Hw; [destruct Hw| |].
      - inversion H; subst. destruct os0; [destruct Hw|]. destruct Hw as [<-|Hw]; [apply (H2 _)|eapply IH; eauto].
      - inversion H; subst. eapply IH; eauto. }
    apply (G _ _ _ _ m Hops (nth_error_In _ _ W)).
  Qed.
End Uniform.

(** ** How much the delivered chunks have used *)
(** Whatever the keys are: the chunks delivered so far have used, for every key of the mixture, that many times what the
    mixture asks for, and as many times its total in all, of distinct rows. *)
Theorem C92_strict_needs : forall fuel idx order h0 r0 son ops q os m,
  index_ok idx -> Permutation order (map fst idx) -> heap_ok h0 -> Forall (fun o => heap_ok (op_heap o)) ops ->
  qrun (S fuel) ops (qr_init idx order h0 r0 son) = (q, os) -> (forall w, In w (working ops os r0 None) -> w = m) ->
  m_rows m <> [] -> m_strict m = true ->
  (forall k n, In (k, n) (m_rows m) -> Z.of_nat (length (chunks os)) * n <= Z.of_nat (length (available idx k)))
  /\ Z.of_nat (length (chunks os)) * zsum (map snd (m_rows m)) <= Z.of_nat (length (available_any idx (map fst (m_rows m)))).
Proof.
  intros fuel idx order h0 r0 son ops q os m Hix Hord Hh Hops Hrun Hm Hne Hst.
  assert (E' : os = os ++ []) by (rewrite app_nil_r; reflexivity).
  assert (Hsize : forall c, In c (chunks os) -> (forall k, Z.of_nat (length (rows_under k (rc_index c))) = asked (m_rows m) k)
            /\ Z.of_nat (length (all_rows (rc_index c))) = zsum (map snd (m_rows m))).
  { intros c Hc. destruct (chunk_at os c Hc) as (j & Hj).
    destruct (C03_strict_exact _ _ _ _ _ _ _ _ _ _ _ _ Hix Hord Hh Hops Hrun Hj (working_m _ _ _ _ _ _ _ _ _ _ Hrun Hm _ _ Hj) Hne Hst) as (_ & A & B). auto. }
  split.
  - intros k n Hk. destruct os as [|o1 os1] eqn:Eos; [cbn; lia|]. rewrite <- Eos in *.
    destruct (m_ok _ _ _ _ _ _ _ _ _ _ Hh Hops Hrun Hm ltac:(congruence)) as [Hnd _].
    assert (Ha : asked (m_rows m) k = n) by (unfold asked; rewrite (in_aget _ mkey_eqb_spec k n _ Hnd Hk); reflexivity).
    assert (L := listed_nodup _ _ _ _ _ _ _ _ _ Hix Hord Hh Hops Hrun (fun c => rows_under k (rc_index c)) _ _ E' (under_nodup k) (under_incl k)).
    assert (I : incl (flat_map (fun c => rows_under k (rc_index c)) (chunks os)) (available idx k)).
    { intros x Hx. apply in_flat_map in Hx as (c & Hc & Hx). apply in_available. exact (under_belongs _ _ _ _ _ _ _ _ _ Hix Hord Hh Hops Hrun k c x Hc Hx). }
    pose proof (NoDup_incl_length L I) as Hl.
    pose proof (flat_length (fun c => rows_under k (rc_index c)) n _ (fun c Hc => eq_trans (proj1 (Hsize c Hc) k) Ha)) as Hf. lia.
  - assert (L := listed_nodup _ _ _ _ _ _ _ _ _ Hix Hord Hh Hops Hrun (fun c => all_rows (rc_index c)) _ _ E' (fun c H => H) (fun c => incl_refl _)).
    assert (I : incl (flat_map (fun c => all_rows (rc_index c)) (chunks os)) (available_any idx (map fst (m_rows m)))).
    { intros x Hx. apply in_flat_map in Hx as (c & Hc & Hx). apply in_available_any. unfold all_rows in Hx. apply in_flat_map in Hx as ([k p] & Hp & Hx). cbn [snd] in Hx.
      exists k. split; [|exact (C02_rows_from_matching_key _ _ _ _ _ _ _ _ _ Hix Hord (reach _ _ _ _ _ _ _ _ _ Hh Hops Hrun) Hc Hp Hx)].
      destruct (aget mkey_eqb k (m_rows m)) as [n|] eqn:Ek; [apply (aget_in _ mkey_eqb_spec), (in_map fst) in Ek; exact Ek|]. exfalso.
      pose proof (proj1 (Hsize c Hc) k) as Hz. unfold asked in Hz. rewrite Ek in Hz.
      assert (Hin : In x (rows_under k (rc_index c))) by (unfold rows_under; apply in_flat_map; exists (k, p); cbn [fst snd]; rewrite mkey_eqb_refl; auto).
      destruct (rows_under k (rc_index c)); [destruct Hin|cbn in Hz; lia]. }
    pose proof (NoDup_incl_length L I) as Hl. pose proof (flat_length (fun c => all_rows (rc_index c)) _ _ (fun c Hc => proj2 (Hsize c Hc))) as Hf. lia.
Qed.
Print Assumptions C92_strict_needs.

(** ** Rows that are still there *)
Definition minus (l d : list row) : list row := filter (fun x => if in_dec row_eq_dec x d then false else true) l.
Lemma in_minus l d x : In x (minus l d) <-> In x l /\ ~ In x d.
Proof. unfold minus. rewrite filter_In. destruct (in_dec row_eq_dec x d); intuition congruence. Qed.
Lemma minus_length l d D : NoDup l -> (forall x, In x l -> In x d -> In x D) -> (length l <= length (minus l d) + length D)%nat.
Proof.
  intros Hl H. rewrite <- app_length. apply NoDup_incl_length; [exact Hl|]. intros x Hx. apply in_or_app.
  destruct (in_dec row_eq_dec x d) as [Hi|Hi]; [right; auto|left; apply in_minus; auto].
Qed.

(** Either the first [i + 1] results are chunks, or there is a first one that is not. *)
Lemma chunks_or_failure (os : list nout) i o : nth_error os i = Some o ->
  (exists l1 l2, os = (l1 ++ [o]) ++ l2 /\ length l1 = i /\ Forall delivered (l1 ++ [o]))
  \/ exists cs o' rest, os = cs ++ o' :: rest /\ Forall delivered cs /\ ~ delivered o' /\ (length cs <= i)%nat.
Proof.
  intros H. destruct (nth_error_split _ _ H) as (l1 & l2 & -> & El).
  destruct (forallb (fun o => match o with NChunk _ => true | _ => false end) (l1 ++ [o])) eqn:E.
  - left. exists l1, l2. split; [rewrite <- app_assoc; reflexivity|]. split; [exact El|]. rewrite forallb_forall in E. apply Forall_forall. intros x Hx. specialize (E x Hx).
    destruct x; try discriminate. eexists; reflexivity.
  - right. assert (Hx : exists x, In x (l1 ++ [o]) /\ ~ delivered x).
    { clear - E. induction (l1 ++ [o]) as [|x l IH]; [discriminate|]. cbn in E. destruct x as [c| | |e].
      - destruct (IH E) as (x & H1 & H2). exists x. split; [right; exact H1|exact H2].
      - exists NNone. split; [left; reflexivity|intros [c Hc]; discriminate].
      - exists NStop. split; [left; reflexivity|intros [c Hc]; discriminate].
      - exists (NErr e). split; [left; reflexivity|intros [c Hc]; discriminate]. }
    destruct Hx as (x & Hx & Hd). apply In_nth_error in Hx as (j & Hj).
    assert (Hjl : (j < length (l1 ++ [o]))%nat) by (apply nth_error_Some; congruence). rewrite app_length in Hjl. cbn in Hjl.
    destruct (first_failure (l1 ++ o :: l2) j) as (cs & o' & rest & A & B & C & D).
    + intros c Hc. rewrite (app_assoc l1 [o] l2 : l1 ++ o :: l2 = _), nth_error_app1 in Hc by (rewrite app_length; cbn; lia). rewrite Hj in Hc. injection Hc as ->. apply Hd. eexists; reflexivity.
    + rewrite app_length. cbn. lia.
    + exists cs, o', rest. split; [exact A|]. split; [exact B|]. split; [exact C|lia].
Qed.

(** A later chunk lists rows that were not delivered before. *)
Lemma later_fresh fuel idx order q cs o rest i c : index_ok idx -> Permutation order (map fst idx) -> reachable fuel idx order q (cs ++ o :: rest) ->
  ~ delivered o -> (length cs <= i)%nat -> nth_error (cs ++ o :: rest) i = Some (NChunk c) ->
  NoDup (all_rows (rc_index c)) /\ forall x, In x (all_rows (rc_index c)) -> ~ In x (flat_map (fun c => all_rows (rc_index c)) (chunks cs)).
Proof.
  intros Hix Hord Hr Ho Hi Hn. pose proof (proj1 (C01_no_sample_twice _ _ _ _ _ Hix Hord Hr)) as Hnd.
  rewrite nth_error_app2 in Hn by exact Hi. destruct (i - length cs)%nat as [|j].
  { cbn in Hn. injection Hn as ->. exfalso. apply Ho. eexists; reflexivity. }
  cbn in Hn. rewrite chunks_app, flat_map_app in Hnd. apply NoDup_app_iff in Hnd as (_ & H2 & H3).
  apply nth_error_In, in_split in Hn as (r1 & r2 & ->).
  assert (Hin : In c (chunks (o :: r1 ++ NChunk c :: r2))).
  { change (o :: r1 ++ NChunk c :: r2) with ((o :: r1) ++ NChunk c :: r2). rewrite chunks_app. apply in_or_app. right. cbn. auto. }
  split.
  - clear - H2 Hin. revert H2. apply in_split in Hin as (a & b & ->). rewrite flat_map_app. intros H. apply NoDup_app_iff in H as (_ & H & _).
    cbn in H. apply NoDup_app_iff in H as (H & _). exact H.
  - intros x Hx Hy. apply (H3 x Hy). apply in_flat_map. exists c. auto.
Qed.

(** ** Strict mixtures *)
(** With a strict mixture in force whose keys share no property combination, call number i (counted from 0) gives a chunk exactly if the
    query has (i+1) times what the mixture asks for, of every key: min over the keys of the available rows divided by the asked ones, rounded down, chunks come.
    Other calls give no chunk or the end, never an error; a query that stops on None ends then.
    [_partial]: keys that share property combinations are refuted below. *)
Theorem C92_strict_partial : forall fuel idx order h0 r0 son ops q os m,
  index_ok idx -> Permutation order (map fst idx) -> heap_ok h0 -> Forall (fun o => heap_ok (op_heap o)) ops ->
  qrun (S fuel) ops (qr_init idx order h0 r0 son) = (q, os) -> (forall w, In w (working ops os r0 None) -> w = m) ->
  m_rows m <> [] -> m_strict m = true -> keys_apart idx (m_rows m) ->
  forall i o, nth_error os i = Some o ->
    (delivered o <-> forall k n, In (k, n) (m_rows m) -> (Z.of_nat i + 1) * n <= Z.of_nat (length (available idx k)))
    /\ (delivered o \/ o = NNone \/ o = NStop).
Proof.
  intros fuel idx order h0 r0 son ops q os m Hix Hord Hh Hops Hrun Hm Hne Hst Hap i o Ho.
  assert (Hnoerr : forall j e, nth_error os j <> Some (NErr e)).
  { intros j e Hj. assert (W := working_m _ _ _ _ _ _ _ _ _ _ Hrun Hm _ _ Hj).
    destruct (C50_no_errors_partial _ _ _ _ _ _ _ _ _ Hix Hord Hh Hops Hrun) with (i := j) (e := e) (m := m) as [E _]; auto.
    - intros w Hw. left. rewrite (Hm w Hw). exact Hst.
    - intros i' w w' _ W1 W2. rewrite (Hm w (nth_error_In _ _ W1)), (Hm w' (nth_error_In _ _ W2)). intros k. reflexivity. }
  assert (Hshape : delivered o \/ o = NNone \/ o = NStop).
  { destruct o as [c| | |e]; [left; eexists; reflexivity|auto|auto|exfalso; apply (Hnoerr i e Ho)]. }
  split; [|exact Hshape]. clear Hshape.
  destruct (m_ok _ _ _ _ _ _ _ _ _ _ Hh Hops Hrun Hm ltac:(intros X; rewrite X in Ho; destruct i; discriminate)) as [Hnd Hpos].
  destruct (chunks_or_failure os i o Ho) as [(l1 & l2 & E & El & Hall)|(cs & o' & rest & E & Hcs & Ho' & Hle)].
  - assert (Hd : delivered o) by (rewrite Forall_forall in Hall; apply Hall; apply in_or_app; right; left; reflexivity).
    split; [|intros _; exact Hd]. intros _ k n Hk.
    pose proof Hrun as R. rewrite E in R. destruct (qrun_prefix _ _ _ _ _ _ R) as (ops1 & q1 & R1 & I & W).
    assert (Hops1 : Forall (fun o => heap_ok (op_heap o)) ops1) by (apply Forall_forall; intros x Hx; rewrite Forall_forall in Hops; apply Hops, I, Hx).
    assert (Hm1 : forall w, In w (working ops1 (l1 ++ [o]) r0 None) -> w = m).
    { intros w Hw. apply In_nth_error in Hw as (j & Hj). assert (Hjl : (j < length (l1 ++ [o]))%nat).
      { rewrite <- (working_len _ _ _ _ _ r0 None R1). apply nth_error_Some. congruence. }
      rewrite W in Hj by exact Hjl. rewrite <- E in Hj. apply Hm, (nth_error_In _ _ Hj). }
    destruct (C92_strict_needs _ _ _ _ _ _ _ _ _ _ Hix Hord Hh Hops1 R1 Hm1 Hne Hst) as [A _]. specialize (A k n Hk).
    rewrite chunks_len, app_length, El in A by exact Hall. cbn in A. lia.
  - assert (Hlen : nth_error os (length cs) = Some o') by (rewrite E, nth_error_app2, Nat.sub_diag by lia; reflexivity).
    assert (Hns : o' = NNone \/ o' = NStop).
    { destruct o' as [c| | |e]; [exfalso; apply Ho'; eexists; reflexivity|auto|auto|exfalso; apply (Hnoerr _ e Hlen)]. }
    destruct (prefix_failure _ _ _ _ _ _ _ _ _ _ Hops Hrun Hm cs o' rest E) as (ops1 & q1 & R1 & Hops1 & W1).
    destruct (fail_run_strict idx order Hix Hord fuel ops1 _ [] r0 None None 0 q1 cs o' m Hops1 (qinit_inv idx order Hix Hord h0 r0 son)
              (hist_init idx order h0 r0 son) (chunk_only_init idx order Hix Hord h0 r0 son) Hcs Hns R1 W1 Hne Hst Hap) as (k & Hk & Hfew). cbn [app] in Hfew.
    destruct (aget_some_in _ mkey_eqb_spec k _ Hk) as [n En]. assert (Hin := aget_in _ mkey_eqb_spec _ _ _ En).
    assert (Ha : asked (m_rows m) k = n) by (unfold asked; rewrite En; reflexivity).
    set (D := flat_map (fun c => all_rows (rc_index c)) (chunks cs)) in *.
    assert (Hsize : forall c, In c (chunks os) -> (forall k, Z.of_nat (length (rows_under k (rc_index c))) = asked (m_rows m) k)).
    { intros c Hc. destruct (chunk_at os c Hc) as (j & Hj).
      destruct (C03_strict_exact _ _ _ _ _ _ _ _ _ _ _ _ Hix Hord Hh Hops Hrun Hj (working_m _ _ _ _ _ _ _ _ _ _ Hrun Hm _ _ Hj) Hne Hst) as (_ & A & B). auto. }
    split.
    + intros [c ->]. exfalso. pose proof (reach _ _ _ _ _ _ _ _ _ Hh Hops Hrun) as Hr. pose proof Hr as Hr'. rewrite E in Hr'. pose proof Ho as Hoc. rewrite E in Hoc.
      destruct (later_fresh _ _ _ _ _ _ _ _ _ Hix Hord Hr' Ho' Hle Hoc) as [F1 F2].
      assert (Hc : In c (chunks os)) by (apply in_flat_map; exists (NChunk c); split; [exact (nth_error_In _ _ Ho)|left; reflexivity]).
      assert (X := Hfew (rows_under k (rc_index c)) (under_nodup k c F1)).
      rewrite (Hsize c Hc k) in X. assert (asked (m_rows m) k < asked (m_rows m) k); [|lia]. apply X. intros x Hx.
      split; [|apply F2, (under_incl k c), Hx]. exact (under_belongs _ _ _ _ _ _ _ _ _ Hix Hord Hh Hops Hrun k c x Hc Hx).
    + intros Hall. exfalso. specialize (Hall k n Hin).
      assert (Hun := Hfew (minus (available idx k) D) (NoDup_filter _ (available_nodup idx k (ix_rows _ Hix)))).
      assert (Hlt : Z.of_nat (length (minus (available idx k) D)) < n).
      { rewrite <- Ha. apply Hun. intros x Hx. apply in_minus in Hx as [H1 H2]. split; [apply in_available, H1|exact H2]. }
      assert (Hmin := minus_length (available idx k) D (flat_map (fun c => rows_under k (rc_index c)) (chunks cs)) (available_nodup idx k (ix_rows _ Hix))).
      assert (Hsub : forall x, In x (available idx k) -> In x D -> In x (flat_map (fun c => rows_under k (rc_index c)) (chunks cs))).
      { intros x Hx HD. unfold D in HD. apply in_flat_map in HD as (c & Hc & HD). apply in_flat_map. exists c. split; [exact Hc|].
        assert (Hc' : In c (chunks os)) by (rewrite E, chunks_app; apply in_or_app; auto).
        unfold all_rows in HD. apply in_flat_map in HD as ([k' p] & Hp & HD). cbn [snd] in HD.
        destruct (C02_rows_from_matching_key _ _ _ _ _ _ _ _ _ Hix Hord (reach _ _ _ _ _ _ _ _ _ Hh Hops Hrun) Hc' Hp HD) as (ck & p' & B1 & B2 & B3).
        apply in_available in Hx as (ck' & p'' & C1 & C2 & C3).
        assert (Ec : ck' = ck) by (eapply (idx_rows_disj idx Hix); [exists p''; split; [exact C1|exact C3]|exists p'; split; [exact B1|exact B3]]). subst ck'.
        assert (Hin' : In x (rows_under k' (rc_index c))) by (unfold rows_under; apply in_flat_map; exists (k', p); cbn [fst snd]; rewrite mkey_eqb_refl; auto).
        assert (Hk' : In k' (map fst (m_rows m))).
        { destruct (aget mkey_eqb k' (m_rows m)) as [n'|] eqn:Ek; [apply (aget_in _ mkey_eqb_spec), (in_map fst) in Ek; exact Ek|]. exfalso.
          pose proof (Hsize c Hc' k') as Hz. unfold asked in Hz. rewrite Ek in Hz. destruct (rows_under k' (rc_index c)); [destruct Hin'|cbn in Hz; lia]. }
        assert (Ek : k' = k) by (apply (Hap ck); [apply (in_map fst) in B1; exact B1|exact Hk'|exact Hk|exact B2|exact C2]). subst k'. exact Hin'. }
      specialize (Hmin Hsub).
      assert (Hf : Z.of_nat (length (flat_map (fun c => rows_under k (rc_index c)) (chunks cs))) = Z.of_nat (length (chunks cs)) * n).
      { apply flat_length. intros c Hc. rewrite <- Ha. apply Hsize. rewrite E, chunks_app. apply in_or_app. auto. }
      rewrite chunks_len in Hf by exact Hcs. nia.
Qed.
Print Assumptions C92_strict_partial.

(** ** Best-effort mixtures *)
(** With a best-effort mixture of positive numbers in force, call number i gives a chunk exactly if i+1 chunks fit into the rows
    that match any of its keys -- whether or not its keys share property combinations. *)
Theorem C92_best_effort : forall fuel idx order h0 r0 son ops q os m,
  index_ok idx -> Permutation order (map fst idx) -> heap_ok h0 -> Forall (fun o => heap_ok (op_heap o)) ops ->
  qrun (S fuel) ops (qr_init idx order h0 r0 son) = (q, os) -> (forall w, In w (working ops os r0 None) -> w = m) ->
  m_rows m <> [] -> m_strict m = false -> Forall (fun kv => 0 < snd kv) (m_rows m) -> zsum (map snd (m_rows m)) = m_csize m ->
  forall i o, nth_error os i = Some o ->
    (delivered o <-> (Z.of_nat i + 1) * m_csize m <= Z.of_nat (length (available_any idx (map fst (m_rows m)))))
    /\ (delivered o \/ o = NNone \/ o = NStop).
Proof.
  intros fuel idx order h0 r0 son ops q os m Hix Hord Hh Hops Hrun Hm Hne Hst Hpos Hfull i o Ho.
  assert (Hnoerr : forall j e, nth_error os j <> Some (NErr e)).
  { intros j e Hj. assert (W := working_m _ _ _ _ _ _ _ _ _ _ Hrun Hm _ _ Hj).
    destruct (C50_no_errors_partial _ _ _ _ _ _ _ _ _ Hix Hord Hh Hops Hrun) with (i := j) (e := e) (m := m) as [E _]; auto.
    - intros w Hw. right. rewrite (Hm w Hw). exact Hpos.
    - intros i' w w' _ W1 W2. rewrite (Hm w (nth_error_In _ _ W1)), (Hm w' (nth_error_In _ _ W2)). intros k. reflexivity. }
  assert (Hshape : delivered o \/ o = NNone \/ o = NStop).
  { destruct o as [c| | |e]; [left; eexists; reflexivity|auto|auto|exfalso; apply (Hnoerr i e Ho)]. }
  split; [|exact Hshape]. clear Hshape.
  assert (Hsize : forall c, In c (chunks os) -> Z.of_nat (length (all_rows (rc_index c))) = m_csize m /\
            forall x, In x (all_rows (rc_index c)) -> In x (available_any idx (map fst (m_rows m)))).
  { intros c Hc. destruct (chunk_at os c Hc) as (j & Hj).
    destruct (C04_best_effort_full _ _ _ _ _ _ _ _ _ _ _ _ Hix Hord Hh Hops Hrun Hj (working_m _ _ _ _ _ _ _ _ _ _ Hrun Hm _ _ Hj) Hne Hfull) as (_ & A & mix & _ & B & C).
    split; [exact A|]. intros x Hx. apply in_available_any. unfold all_rows in Hx. apply in_flat_map in Hx as ([k p] & Hp & Hx). cbn [snd] in Hx.
    exists k. split; [|exact (C02_rows_from_matching_key _ _ _ _ _ _ _ _ _ Hix Hord (reach _ _ _ _ _ _ _ _ _ Hh Hops Hrun) Hc Hp Hx)].
    apply B. destruct (aget mkey_eqb k mix) as [n|] eqn:Ek; [apply (aget_in _ mkey_eqb_spec), (in_map fst) in Ek; exact Ek|]. exfalso.
    pose proof (C k) as Hz. unfold asked in Hz. rewrite Ek in Hz.
    assert (Hin : In x (rows_under k (rc_index c))) by (unfold rows_under; apply in_flat_map; exists (k, p); cbn [fst snd]; rewrite mkey_eqb_refl; auto).
    destruct (rows_under k (rc_index c)); [destruct Hin|cbn in Hz; lia]. }
  assert (Htotal : 0 < m_csize m).
  { rewrite <- Hfull. destruct (m_rows m) as [|kv l]; [contradiction|]. inversion Hpos as [|? ? P1 P2]; subst. cbn beta in P1. cbn [map]. change (zsum (snd kv :: map snd l)) with (snd kv + zsum (map snd l)).
    assert (0 <= zsum (map snd l)); [|lia]. clear - P2. induction P2 as [|x l' P _ IH]; [reflexivity|]. cbn beta in P. cbn [map]. change (zsum (snd x :: map snd l')) with (snd x + zsum (map snd l')). lia. }
  assert (Havail := available_any_nodup idx (map fst (m_rows m)) (ix_rows _ Hix)).
  destruct (chunks_or_failure os i o Ho) as [(l1 & l2 & E & El & Hall)|(cs & o' & rest & E & Hcs & Ho' & Hle)].
  - assert (Hd : delivered o) by (rewrite Forall_forall in Hall; apply Hall; apply in_or_app; right; left; reflexivity).
    split; [|intros _; exact Hd]. intros _.
    assert (L := listed_nodup _ _ _ _ _ _ _ _ _ Hix Hord Hh Hops Hrun (fun c => all_rows (rc_index c)) _ _ E (fun c H => H) (fun c => incl_refl _)).
    assert (I : incl (flat_map (fun c => all_rows (rc_index c)) (chunks (l1 ++ [o]))) (available_any idx (map fst (m_rows m)))).
    { intros x Hx. apply in_flat_map in Hx as (c & Hc & Hx). apply (Hsize c); [|exact Hx]. eapply in_chunks; eauto. }
    pose proof (NoDup_incl_length L I) as Hl.
    assert (Hf : Z.of_nat (length (flat_map (fun c => all_rows (rc_index c)) (chunks (l1 ++ [o])))) = Z.of_nat (length (chunks (l1 ++ [o]))) * m_csize m).
    { apply flat_length. intros c Hc. apply Hsize. eapply in_chunks; eauto. }
    rewrite chunks_len, app_length, El in Hf by exact Hall. cbn [length] in Hf. replace (Z.of_nat (i + 1)) with (Z.of_nat i + 1) in Hf by lia. lia.
  - assert (Hlen : nth_error os (length cs) = Some o') by (rewrite E, nth_error_app2, Nat.sub_diag by lia; reflexivity).
    assert (Hns : o' = NNone \/ o' = NStop).
    { destruct o' as [c| | |e]; [exfalso; apply Ho'; eexists; reflexivity|auto|auto|exfalso; apply (Hnoerr _ e Hlen)]. }
    destruct (prefix_failure _ _ _ _ _ _ _ _ _ _ Hops Hrun Hm cs o' rest E) as (ops1 & q1 & R1 & Hops1 & W1).
    destruct (fail_run idx order Hix Hord fuel ops1 _ [] r0 None None 0 q1 cs o' m Hops1 (qinit_inv idx order Hix Hord h0 r0 son)
              (hist_init idx order h0 r0 son) (chunk_only_init idx order Hix Hord h0 r0 son) Hcs Hns R1 W1 Hne) as (ks & _ & _ & Hks & Hfew).
    rewrite (Hks Hst) in Hfew. clear Hks ks. cbn [app] in Hfew. rewrite Hfull in Hfew.
    set (D := flat_map (fun c => all_rows (rc_index c)) (chunks cs)) in *.
    split.
    + intros [c ->]. exfalso. pose proof (reach _ _ _ _ _ _ _ _ _ Hh Hops Hrun) as Hr. rewrite E in Hr. pose proof Ho as Hoc. rewrite E in Hoc.
      destruct (later_fresh _ _ _ _ _ _ _ _ _ Hix Hord Hr Ho' Hle Hoc) as [F1 F2].
      assert (Hc : In c (chunks os)) by (apply in_flat_map; exists (NChunk c); split; [exact (nth_error_In _ _ Ho)|left; reflexivity]).
      destruct (Hsize c Hc) as [S1 S2]. assert (X := Hfew (all_rows (rc_index c)) F1). rewrite S1 in X.
      assert (m_csize m < m_csize m); [|lia]. apply X. intros x Hx. split; [|apply F2, Hx].
      apply S2, in_available_any in Hx. exact Hx.
    + intros Hall. exfalso.
      assert (Hun := Hfew (minus (available_any idx (map fst (m_rows m))) D) (NoDup_filter _ Havail)).
      assert (Hlt : Z.of_nat (length (minus (available_any idx (map fst (m_rows m))) D)) < m_csize m).
      { apply Hun. intros x Hx. apply in_minus in Hx as [H1 H2]. split; [apply in_available_any, H1|exact H2]. }
      assert (Hmin := minus_length (available_any idx (map fst (m_rows m))) D D Havail (fun x _ H => H)).
      assert (Hf : Z.of_nat (length D) = Z.of_nat (length (chunks cs)) * m_csize m).
      { apply flat_length. intros c Hc. apply Hsize. rewrite E, chunks_app. apply in_or_app. auto. }
      rewrite chunks_len in Hf by exact Hcs. nia.
Qed.
Print Assumptions C92_best_effort.

(** ** Queries that stop at the first failure *)
Lemma son_kept fuel h q q' o : qr_next fuel h q = (q', o) -> q_son q = true -> q_son q' = true /\ o <> NNone.
Proof.
  intros H Hs. unfold qr_next in H. destruct (_ && _).
  - injection H as <- <-. split; [exact Hs|discriminate].
  - destruct (gen_send _ _ _ _ _ _ _) as [[gn' sf'] out]. rewrite Hs in H. destruct out; injection H as <- <-; split; auto; discriminate.
Qed.
(** A query told to stop on None never answers None: the first call that gives no chunk ends the iteration. *)
Theorem C92_stops : forall fuel idx order h0 r0 ops q os, qrun (S fuel) ops (qr_init idx order h0 r0 true) = (q, os) -> ~ In NNone os.
Proof.
  intros fuel idx order h0 r0 ops q os. assert (G : forall ops q0 q os, q_son q0 = true -> qrun (S fuel) ops q0 = (q, os) -> ~ In NNone os).
  { induction ops0 as [|[h|h r] ops0 IH]; intros q0 q1 os1 Hs H; cbn [qrun] in H.
    - injection H as <- <-. intros [].
    - destruct (qr_next (S fuel) h q0) as [q2 o] eqn:E. destruct (qrun (S fuel) ops0 q2) as [q3 os3] eqn:E2. injection H as <- <-.
      destruct (son_kept _ _ _ _ _ E Hs) as [S1 S2]. intros [H|H]; [congruence|]. exact (IH _ _ _ S1 E2 H).
    - apply (IH _ _ _ (Hs : q_son (qr_update_mixture h r q0) = true) H). }
  apply G. reflexivity.
Qed.
Print Assumptions C92_stops.

(** ** Examples: 10 rows of [ka], 6 of [kb] *)
Definition heap92 : heap := fun _ => mkMix [(ka, 3); (kb, 2)] true 5.
Definition ops92 := repeat (Next heap92) 5.
Example C92_strict_example : exists q c1 c2 c3,
  qrun 20 ops92 (qr_init idx_ex order_ex heap92 0 false) = (q, [NChunk c1; NChunk c2; NChunk c3; NNone; NNone])
  /\ length (available idx_ex ka) = 10%nat /\ length (available idx_ex kb) = 6%nat
  /\ keys_apart idx_ex [(ka, 3); (kb, 2)] /\ heap_ok heap92
  /\ (forall w, In w (working ops92 [NChunk c1; NChunk c2; NChunk c3; NNone; NNone] 0 None) -> w = mkMix [(ka, 3); (kb, 2)] true 5).
Proof.
  do 4 eexists. split; [vm_compute; reflexivity|]. split; [reflexivity|]. split; [reflexivity|]. split; [|split].
  - intros ck k k' H1 H2 H3 H4 H5. cbn in H1, H2, H3. crush_in; subst; try reflexivity; vm_compute in H4; vm_compute in H5; (discriminate H4 || discriminate H5).
  - intros r. cbn. split; [split|lia]; repeat constructor; cbn; try lia; intros H; crush_in; discriminate.
  - intros w Hw. cbn in Hw. crush_in; subst; reflexivity.
Qed.
Example C92_best_effort_example : exists q c1 c2 c3,
  qrun 20 (repeat (Next heap51) 4) (qr_init idx_ex order_ex heap51 0 true) = (q, [NChunk c1; NChunk c2; NChunk c3; NStop])
  /\ length (available_any idx_ex [ka; kb]) = 16%nat
  /\ (forall w, In w (working (repeat (Next heap51) 4) [NChunk c1; NChunk c2; NChunk c3; NStop] 0 None) -> w = mkMix [(ka, 2); (kb, 3)] false 5).
Proof.
  do 4 eexists. split; [vm_compute; reflexivity|]. split; [reflexivity|]. intros w Hw. cbn in Hw. crush_in; subst; reflexivity.
Qed.

(** Keys that share property combinations: two property combinations with two rows each; the mixture asks for two rows with the
    value 10 and two that also have 20.  The rows are there, but the general key is served first and takes those the other one needs. *)
Definition kg : mkey := [([1], [[10]])].
Definition ks1 : mkey := [([1], [[10]]); ([2], [[20]])].
Definition ks2 : mkey := [([1], [[10]]); ([2], [[21]])].
Definition idx92 : index := [(ks1, [(0, [(0, [(0, 2)])])]); (ks2, [(0, [(0, [(2, 4)])])])].
Definition order92 : list mkey := [ks1; ks2].
Definition heap92s : heap := fun _ => mkMix [(kg, 2); (ks1, 2)] true 4.
Theorem C92_shared_refuted : exists q c, index_ok idx92 /\ Permutation order92 (map fst idx92) /\ heap_ok heap92s
  /\ qrun 20 [Next heap92s] (qr_init idx92 order92 heap92s 0 false) = (q, [NNone])
  /\ NoDup (all_rows c) /\ (forall k p x, In (k, p) c -> In x (rows_of p) -> belongs idx92 k x)
  /\ (forall k n, In (k, n) (m_rows (heap92s 0)) -> Z.of_nat (length (rows_under k c)) = n).
Proof.
  eexists _, [(kg, [(0, [(0, [(2, 4)])])]); (ks1, [(0, [(0, [(0, 2)])])])]. split; [|split; [|split; [|split; [|split; [|split]]]]].
  - constructor.
    + repeat constructor; cbn; unfold ks1, ks2; intuition discriminate.
    + intros k p H. cbn in H. crush_in; subst; repeat constructor; cbn; intuition discriminate.
    + intros k p H. cbn in H. crush_in; cbn; crush_nd.
    + intros k p d fs H H2. cbn in H. crush_in; cbn; crush_nd.
    + intros k p d fs f rs H H2 H3. cbn in H. crush_in; cbn; repeat split; repeat (apply Forall_cons || apply Forall_nil); cbn; lia.
    + replace (all_rows idx92) with (ltac:(let r := eval vm_compute in (all_rows idx92) in exact r)) by (vm_compute; reflexivity). crush_nd.
  - apply Permutation_refl.
  - intros r. cbn. split; [split|lia]; repeat constructor; cbn; try lia; unfold kg, ks1; intuition discriminate.
  - vm_compute. reflexivity.
  - match goal with |- NoDup ?l => replace l with (ltac:(let r := eval vm_compute in l in exact r)) by (vm_compute; reflexivity) end. crush_nd.
  - intros k p x H Hx. cbn in H. crush_in; subst.
    + exists ks2, [(0, [(0, [(2, 4)])])]. split; [cbn; auto|]. split; [vm_compute; reflexivity|exact Hx].
    + exists ks1, [(0, [(0, [(0, 2)])])]. split; [cbn; auto|]. split; [vm_compute; reflexivity|exact Hx].
  - intros k n H. cbn in H. crush_in; subst; vm_compute; reflexivity.
Qed.
Print Assumptions C92_shared_refuted.
