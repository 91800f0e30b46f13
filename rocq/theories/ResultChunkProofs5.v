(** Proofs about iterating a chunk. *)
From Verif Require Import Base MixtureKeyModel MixtureKeyProofs UtilsModel ChunkGenModel MixtureModel SpecSubseq SpecRoundRobin RoundRobin TokenModel
  SpecToken TokenProofs TokenProofs2 SpecResultChunk ResultChunkModel ResultChunkProofs ResultChunkProofs2 ResultChunkProofs3.
From Coq Require Import QArith ZifyBool ZifyNat.
Local Open Scope nat_scope.

(** The shuffles only reorder. *)
Record shuffle_ok (sh : shuffles) : Prop := {
  so_work : forall k l, Permutation (sh_work sh k l) l;
  so_keys : forall l, Permutation (sh_keys sh l) l;
  so_counts : forall l, Permutation (sh_counts sh l) l }.

Section Streams.
  Context {A : Type}.
  Variable read : Z -> Z -> list range -> stream A.

  Definition wl_samples (w : workload) : list A := let '(d, f, rs) := w in fst (read d f rs).
  Definition wl_ok (w : workload) : Prop := let '(d, f, rs) := w in snd (read d f rs) = None.

  Lemma st_iter_ok ws : Forall wl_ok ws -> st_iter read ws = (flat_map wl_samples ws, None).
  Proof.
    induction 1 as [|[[d f] rs] ws H _ IH]; [reflexivity|]. cbn in *. destruct (read d f rs) as [l o]. cbn in *. subst o.
    rewrite IH. reflexivity.
  Qed.
  (** A failed read shows. *)
  Lemma st_iter_none ws : snd (st_iter read ws) = None -> Forall wl_ok ws.
  Proof.
    induction ws as [|[[d f] rs] ws IH]; intros H; constructor; cbn in *.
    - destruct (read d f rs) as [l [e|]]; [discriminate|reflexivity].
    - destruct (read d f rs) as [l [e|]]; [discriminate|]. apply IH. destruct (st_iter read ws); exact H.
  Qed.

  Lemma flat_work_samples p : flat_map wl_samples (flat_work p) = part_samples read p.
  Proof.
    unfold part_samples. induction p as [|[d fs] p IH]; [reflexivity|].
    change (flat_work ((d, fs) :: p)) with (map (fun fr => (d, fst fr, snd fr)) fs ++ flat_work p). rewrite flat_map_app. cbn [flat_map fst snd].
    f_equal; [|exact IH]. clear IH. induction fs as [|[f rs] fs IHf]; [reflexivity|]. cbn. rewrite IHf. reflexivity.
  Qed.
  Lemma flat_work_ok idx k p : reads_ok read idx -> In (k, p) idx -> Forall wl_ok (flat_work p).
  Proof.
    intros H Hin. apply Forall_forall. intros [[d f] rs] Hw. unfold flat_work in Hw. apply in_flat_map in Hw as ([d' fs] & Hd & Hf).
    apply in_map_iff in Hf as ([f' rs'] & E & Hf). injection E as <- <- <-. cbn. eapply H; eassumption.
  Qed.

  Lemma perm_flat_map {X Y} (f : X -> list Y) l l' : Permutation l l' -> Permutation (flat_map f l) (flat_map f l').
  Proof.
    induction 1; cbn; [constructor|apply Permutation_app_head; assumption| |etransitivity; eassumption].
    rewrite !app_assoc. apply Permutation_app_tail, Permutation_app_comm.
  Qed.
  Lemma perm_Forall {X} (P : X -> Prop) l l' : Permutation l l' -> Forall P l -> Forall P l'.
  Proof. intros Hp H. rewrite Forall_forall in *. intros x Hx. apply H. eapply Permutation_in; [symmetry; exact Hp|exact Hx]. Qed.

  Lemma until_end_id is_end (l : list A) : Forall (fun a => is_end a = false) l -> until_end is_end l = l.
  Proof. induction 1 as [|a l H _ IH]; [reflexivity|]. cbn. rewrite H, IH. reflexivity. Qed.

  Lemma mt_iter_ok is_end parts :
    Forall wl_ok (concat parts) -> Forall (fun a => is_end a = false) (flat_map wl_samples (concat parts)) ->
    exists l, mt_iter read is_end parts = (l, None) /\ Permutation l (flat_map wl_samples (concat parts))
      /\ (forall w, In w (concat parts) -> subseq (wl_samples w) l).
  Proof.
    intros Ho He. unfold mt_iter. eexists. split; [reflexivity|]. split.
    2:{ intros w Hw. apply in_concat in Hw as (ws & Hws & Hw).
      assert (O : Forall wl_ok ws) by (apply Forall_forall; intros x Hx; refine (proj1 (Forall_forall _ _) Ho x _); apply in_concat; eauto).
      assert (E : Forall (fun a => is_end a = false) (flat_map wl_samples ws)).
      { apply Forall_forall. intros x Hx. refine (proj1 (Forall_forall _ _) He x _). apply in_flat_map in Hx as (v & Hv & Hx).
        apply in_flat_map. exists v. split; [apply in_concat; eauto|exact Hx]. }
      eapply sub_trans; [apply (sub_flat_map wl_samples ws w Hw)|]. apply rr_subseq.
      apply in_map_iff. exists ws. split; [|exact Hws]. rewrite (st_iter_ok ws O). apply until_end_id, E. }
    rewrite rr_perm. assert (E : concat (map (fun ws => until_end is_end (fst (st_iter read ws))) parts) = flat_map wl_samples (concat parts)); [|rewrite E; reflexivity].
    induction parts as [|ws parts IH]; [reflexivity|]. cbn [concat map] in *. apply Forall_app in Ho as [O1 O2].
    rewrite flat_map_app in He |- *. apply Forall_app in He as [E1 E2].
    rewrite (st_iter_ok ws O1). cbn [fst]. rewrite until_end_id by exact E1. rewrite IH by assumption. reflexivity.
  Qed.
End Streams.

Lemma aget_map {V W} (f : mkey -> V -> W) k (l : list (mkey * V)) :
  aget mkey_eqb k (map (fun kv => (fst kv, f (fst kv) (snd kv))) l) = match aget mkey_eqb k l with Some v => Some (f k v) | None => None end.
Proof.
  induction l as [|[k' v] l IH]; [reflexivity|]. cbn. destruct (mkey_eqb k k') eqn:E; [|exact IH].
  apply mkey_eqb_spec in E. subst. reflexivity.
Qed.
Lemma map_fst_map {V W} (f : mkey -> V -> W) (l : list (mkey * V)) : map fst (map (fun kv => (fst kv, f (fst kv) (snd kv))) l) = map fst l.
Proof. rewrite map_map. reflexivity. Qed.

Lemma process_counts_keys fl dop cpu csize (mix : list (mkey * Z)) : csize <> 0%Z -> mix <> [] ->
  exists pcs, process_counts fl dop cpu csize mix = Ok pcs /\ map fst pcs = map fst mix.
Proof.
  intros Hc Hm. unfold process_counts. replace (csize =? 0)%Z with false by lia. cbn [andb].
  destruct mix as [|[k v] mix]; [congruence|]. cbn [map fst snd]. eexists. split; [reflexivity|]. cbn [map fst]. f_equal. rewrite map_map. reflexivity.
Qed.

Section Init.
  Context {A : Type}.
  Variable fl : Q -> Q.
  Variable read : Z -> Z -> list range -> stream A.
  Variable is_end is_none : A -> bool.
  Variable sh : shuffles.
  Variable cpu : Z.
  Hypothesis Hsh : shuffle_ok sh.

  (** The mixture of the configuration, needed for parallel reading: a dict with the keys of the chunk. *)
  Definition mix_for (c : rc) (cf : rconf A) : Prop :=
    exists mix, rf_mix cf = Some mix /\ NoDup (map fst mix) /\ Permutation (map fst mix) (map fst (rc_index c)).

  (** No sample of the chunk is the text "END_OF_STREAM" or None. *)
  Definition plain (P : A -> bool) (idx : index) : Prop := forall k p, In (k, p) idx -> Forall (fun a => P a = false) (part_samples read p).

  Lemma in_work k p (idx : index) : NoDup (map fst idx) -> In (k, p) idx ->
    aget mkey_eqb k (prepare_workloads sh idx) = Some (sh_work sh k (flat_work p)).
  Proof.
    intros Hnd Hin. unfold prepare_workloads.
    rewrite (aget_map (fun k p => sh_work sh k (flat_work p)) k idx). rewrite (in_aget _ mkey_eqb_spec k p idx Hnd Hin). reflexivity.
  Qed.

  Definition reader_order (k : mkey) (p : part) : list A := flat_map (wl_samples read) (sh_work sh k (flat_work p)).
  Lemma reader_order_perm k p : Permutation (reader_order k p) (part_samples read p).
  Proof. unfold reader_order. rewrite <- flat_work_samples. apply perm_flat_map, so_work, Hsh. Qed.
  (** With one reader the files come one after the other; in any case the samples of a file keep their order. *)
  Definition delivered_order (cf : rconf A) (k : mkey) (p : part) (l : list A) : Prop :=
    (rf_dop cf = 1%Z -> l = reader_order k p)
    /\ (forall d f rs, In (d, f, rs) (flat_work p) -> subseq (fst (read d f rs)) l).
  Lemma reader_order_files k p d f rs : In (d, f, rs) (flat_work p) -> subseq (fst (read d f rs)) (reader_order k p).
  Proof.
    intros H. apply (sub_flat_map (wl_samples read) (sh_work sh k (flat_work p)) (d, f, rs)).
    eapply Permutation_in; [symmetry; apply so_work, Hsh|exact H].
  Qed.

  (** The readers. *)
  Lemma base_ok c cf :
    NoDup (map fst (rc_index c)) -> reads_ok read (rc_index c) ->
    (rf_dop cf <> 1%Z -> plain is_end (rc_index c) /\ mix_for c cf /\ rc_csize c <> 0%Z /\ rc_index c <> []) ->
    exists its0, base_iterators fl read is_end sh cpu c cf = Ok its0
      /\ Permutation (map fst its0) (map fst (rc_index c))
      /\ (rf_dop cf = 1%Z -> map fst its0 = map fst (rc_index c))
      /\ forall k p, In (k, p) (rc_index c) -> exists l, aget mkey_eqb k its0 = Some (l, None)
           /\ Permutation l (part_samples read p) /\ delivered_order cf k p l.
  Proof.
    intros Hnd Hok Hpar. unfold base_iterators.
    set (work := prepare_workloads sh (rc_index c)).
    assert (Hw : map fst work = map fst (rc_index c)) by (unfold work, prepare_workloads; rewrite map_map; reflexivity).
    assert (Hwl : forall k p, In (k, p) (rc_index c) -> Forall (wl_ok read) (sh_work sh k (flat_work p))).
    { intros k p Hin. eapply perm_Forall; [symmetry; apply so_work, Hsh|]. eapply flat_work_ok; eassumption. }
    destruct (Z.eqb_spec (rf_dop cf) 1) as [E|E].
      - eexists. split; [reflexivity|]. rewrite map_map. cbn [fst]. change (map (fun x : mkey * list workload => fst x) work) with (map fst work). rewrite Hw.
        split; [reflexivity|]. split; [reflexivity|]. intros k p Hin.
        rewrite (aget_map (fun _ ws => st_iter read ws) k work). unfold work. rewrite (in_work k p _ Hnd Hin).
        rewrite st_iter_ok by (apply Hwl, Hin). eexists. split; [reflexivity|]. split; [apply reader_order_perm|]. split; [reflexivity|]. intros d f rs. apply reader_order_files.
      - destruct (Hpar E) as (Hend & (mix & Hmix & Hmnd & Hmp) & Hcs & Hne). rewrite Hmix.
        destruct (process_counts_keys fl (rf_dop cf) cpu (rc_csize c) mix Hcs) as (pcs & -> & Hpk).
        { intros ->. apply Permutation_nil in Hmp. destruct (rc_index c); [congruence|discriminate]. }
        rewrite <- Hpk in Hmp, Hmnd.
        assert (Hall : forallb (fun kn => amem mkey_eqb (fst kn) work) pcs = true).
        { apply forallb_forall. intros [k n] Hin. cbn [fst]. unfold amem.
          destruct (aget_some_in mkey_eqb mkey_eqb_spec k work) as (x & ->); [|reflexivity].
          change (In k (map fst work)). rewrite Hw. eapply Permutation_in; [exact Hmp|]. apply in_map_iff. exists (k, n). auto. }
        rewrite Hall. clear Hall.
        set (F := fun (k : mkey) (n : Z) => mt_iter read is_end (partitions (match aget mkey_eqb k work with Some ws => ws | None => [] end) n)).
        exists (map (fun kn => (fst kn, F (fst kn) (snd kn))) pcs). split; [reflexivity|]. rewrite map_fst_map.
        split; [exact Hmp|]. split; [intros; contradiction|]. intros k p Hin.
        rewrite aget_map. destruct (aget_some_in mkey_eqb mkey_eqb_spec k pcs) as (n & Hn).
        { change (In k (map fst pcs)). eapply Permutation_in; [symmetry; exact Hmp|]. apply in_map_iff. exists (k, p). auto. }
        rewrite Hn. unfold F, work. rewrite (in_work k p _ Hnd Hin).
        destruct (mt_iter_ok read is_end (partitions (sh_work sh k (flat_work p)) n)) as (l & El & Hl & Hsub).
        + rewrite partitions_concat. apply Hwl, Hin.
        + rewrite partitions_concat. fold (reader_order k p). eapply perm_Forall; [symmetry; apply reader_order_perm|]. eapply Hend, Hin.
        + rewrite El. exists l. split; [reflexivity|]. split; [rewrite Hl, partitions_concat; apply reader_order_perm|].
          split; [contradiction|]. intros d f rs Hin'. apply (Hsub (d, f, rs)). rewrite partitions_concat.
          eapply Permutation_in; [symmetry; apply so_work, Hsh|exact Hin'].
  Qed.

  (** The iterators over the samples of the keys. *)
  Lemma init_text fuel c cf :
    NoDup (map fst (rc_index c)) -> reads_ok read (rc_index c) -> rf_tok cf = None ->
    (rf_dop cf <> 1%Z -> plain is_end (rc_index c) /\ mix_for c cf /\ rc_csize c <> 0%Z /\ rc_index c <> []) ->
    (rf_prefetch cf = true -> plain is_none (rc_index c)) ->
    exists its, init_iterators fl read is_end is_none sh cpu fuel c cf = Ok its
      /\ Permutation (map fst its) (map fst (rc_index c))
      /\ (rf_dop cf = 1%Z -> map fst its = map fst (rc_index c))
      /\ forall k p, In (k, p) (rc_index c) -> exists l, aget mkey_eqb k its = Some (map Text l, None)
           /\ Permutation l (part_samples read p) /\ delivered_order cf k p l.
  Proof.
    intros Hnd Hok Htok Hpar Hpf. unfold init_iterators. rewrite Htok.
    destruct (base_ok c cf Hnd Hok Hpar) as (its0 & -> & Hp0 & Hf0 & Hget0).
    set (its1 := map (fun ks => (fst ks, smap Text (snd ks))) its0).
    assert (H1 : map fst its1 = map fst its0) by (unfold its1; rewrite map_map; reflexivity).
    assert (G1 : forall k p, In (k, p) (rc_index c) -> exists l, aget mkey_eqb k its1 = Some (map Text l, None)
           /\ Permutation l (part_samples read p) /\ delivered_order cf k p l).
    { intros k p Hin. destruct (Hget0 k p Hin) as (l & Hl & Hr). exists l. split; [|exact Hr].
      unfold its1. rewrite (aget_map (fun _ s => smap Text s)), Hl. reflexivity. }
    destruct (rf_prefetch cf).
    - eexists. split; [reflexivity|]. rewrite map_map. cbn [fst]. change (map (fun x : mkey * stream (sample A) => fst x) its1) with (map fst its1). rewrite H1.
      split; [exact Hp0|]. split; [exact Hf0|]. intros k p Hin. destruct (G1 k p Hin) as (l & Hl & Hpl & Hr). exists l.
      split; [|auto]. rewrite (aget_map (fun _ s => pf_stream is_none s)), Hl. f_equal.
      destruct l as [|a l]; [reflexivity|]. cbn. specialize (Hpf eq_refl k p Hin). rewrite Forall_forall in Hpf.
      rewrite (Hpf a); [reflexivity|]. eapply Permutation_in; [exact Hpl|left; reflexivity].
    - eexists. split; [reflexivity|]. rewrite H1. auto.
  Qed.

  (** The iterators over the token windows of the keys. *)
  Lemma init_tokens c cf tc :
    NoDup (map fst (rc_index c)) -> reads_ok read (rc_index c) -> rf_tok cf = Some tc -> tk_valid tc = true ->
    1 <= tk_len tc -> 1 <= tk_batch tc ->
    (rf_dop cf <> 1%Z -> plain is_end (rc_index c) /\ mix_for c cf /\ rc_csize c <> 0%Z /\ rc_index c <> []) ->
    exists its N0, (forall fuel, N0 <= fuel -> init_iterators fl read is_end is_none sh cpu fuel c cf = Ok its)
      /\ Permutation (map fst its) (map fst (rc_index c))
      /\ forall k p, In (k, p) (rc_index c) -> exists l,
           aget mkey_eqb k its = Some (map Tokens (token_spec (tk_len tc) (tk_overlap tc) (tk_one tc) (token_stream (tk_ids tc) l)), None)
           /\ Permutation l (part_samples read p) /\ delivered_order cf k p l.
  Proof.
    intros Hnd Hok Htok Hval Hlen Hbat Hpar. unfold init_iterators. rewrite Htok, Hval. cbn [orb].
    destruct (base_ok c cf Hnd Hok Hpar) as (its0 & -> & Hp0 & Hf0 & Hget0).
    set (T := fun l => token_spec (tk_len tc) (tk_overlap tc) (tk_one tc) (token_stream (tk_ids tc) l)).
    set (its1 := map (fun ks => (fst ks, smap (@Tokens A) (T (fst (snd ks)), @None exn))) its0).
    assert (HN : exists N0, forall fuel, N0 <= fuel ->
              map (fun ks => (fst ks, smap Tokens (tok_stream fuel (rf_thread cf) tc (snd ks)))) its0 = its1).
    { assert (Hsub : forall k s, In (k, s) its0 -> snd s = None).
      { intros k s Hin.
        assert (Hn0 : NoDup (map fst its0)) by (eapply Permutation_NoDup; [symmetry; exact Hp0|exact Hnd]).
        assert (Hk : In k (map fst (rc_index c))) by (eapply Permutation_in; [exact Hp0|]; apply in_map_iff; exists (k, s); auto).
        apply in_map_iff in Hk as ([k' p] & Ek & Hp). cbn in Ek. subst k'. destruct (Hget0 k p Hp) as (l & Hl & _).
        rewrite (in_aget _ mkey_eqb_spec k s its0 Hn0 Hin) in Hl. injection Hl as ->. reflexivity. }
      unfold its1. clear its1 Hget0 Hp0 Hf0. induction its0 as [|[k [l f]] its0 IH]; [exists 0; reflexivity|].
      destruct IH as (N1 & IH); [intros; eapply Hsub; right; eassumption|].
      specialize (Hsub k (l, f) (or_introl eq_refl)). cbn in Hsub. subst f.
      destruct (sync_spec tc Hlen Hbat l) as (n0 & f0 & Hs). exists (N1 + n0 + f0). intros fuel Hf. cbn [map fst snd].
      rewrite (IH fuel) by lia. f_equal. f_equal. f_equal. unfold tok_stream. rewrite (Hs fuel fuel) by lia. reflexivity. }
    destruct HN as (N0 & HN). exists its1, N0.
    assert (H1 : map fst its1 = map fst its0) by (unfold its1; rewrite map_map; reflexivity).
    split; [|split].
    - intros fuel Hf. rewrite (HN fuel Hf). destruct (rf_prefetch cf); [|reflexivity]. f_equal.
      unfold its1. rewrite map_map. apply map_ext. intros [k s]. cbn [fst snd]. f_equal.
      unfold smap. cbn [fst snd]. destruct (T (fst s)) as [|t l]; reflexivity.
    - rewrite H1. exact Hp0.
    - intros k p Hin. destruct (Hget0 k p Hin) as (l & Hl & Hr). exists l. split; [|exact Hr].
      unfold its1. rewrite (aget_map (fun _ (s : stream A) => smap (@Tokens A) (T (fst s), @None exn))), Hl. reflexivity.
  Qed.

  (** ** Sample indices and skipping *)
  Definition numbered {B} (from : nat) (l : list (Z * B)) : list (nat * Z * B) :=
    map (fun p => ((fst p + from)%nat, fst (snd p), snd (snd p))) (combine (seq 0 (length l)) l).
  Lemma numbered_shift {B} (l : list (Z * B)) a n :
    map (fun p => ((fst p + n)%nat, fst (snd p), snd (snd p))) (combine (seq a (length l)) l)
    = map (fun p => (fst p, fst (snd p), snd (snd p))) (combine (seq (a + n) (length l)) l).
  Proof.
    revert a. induction l as [|x l IH]; intros a; [reflexivity|]. cbn. f_equal. apply (IH (S a)).
  Qed.
  Lemma skipn_combine {X Y} n (l : list X) (m : list Y) : skipn n (combine l m) = combine (skipn n l) (skipn n m).
  Proof.
    revert l m. induction n as [|n IH]; intros l m; [reflexivity|]. destruct l as [|x l], m as [|y m]; cbn; auto.
    - destruct (skipn n l); reflexivity.
  Qed.
  Lemma skipn_seq n a len : skipn n (seq a len) = seq (a + n) (len - n).
  Proof.
    revert a len. induction n as [|n IH]; intros a len; [cbn; f_equal; lia|]. destruct len as [|len]; [reflexivity|].
    cbn [seq skipn]. rewrite IH. f_equal; lia.
  Qed.
  Lemma numbered_skipn {B} (l : list (Z * B)) n : numbered n (skipn n l) = skipn n (numbered 0 l).
  Proof.
    unfold numbered. rewrite !numbered_shift. cbn [Nat.add]. rewrite skipn_map, skipn_combine, skipn_seq, skipn_length. reflexivity.
  Qed.

  Lemma iterate_skip fuel c cf n :
    let '(out, e) := iterate fl read is_end is_none sh cpu fuel (with_skip 0 c) cf in
    iterate fl read is_end is_none sh cpu fuel (with_skip n c) cf = (skipn n out, e).
  Proof.
    unfold iterate. cbn [rc_skip with_skip rc_kid rc_csize].
    change (init_iterators fl read is_end is_none sh cpu fuel (with_skip n c) cf) with (init_iterators fl read is_end is_none sh cpu fuel (with_skip 0 c) cf).
    destruct (init_iterators fl read is_end is_none sh cpu fuel (with_skip 0 c) cf) as [its|e].
    - match goal with |- context [match rf_type cf with MSimple => ?x | MWindow => ?y | MToken => ?z end] =>
        destruct (match rf_type cf with MSimple => x | MWindow => y | MToken => z end) as [out e] end.
      cbn [skipn]. f_equal. apply numbered_skipn.
    - destruct n; reflexivity.
  Qed.
End Init.
