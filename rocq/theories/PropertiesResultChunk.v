(** C21-C24: streaming the samples of a chunk.  Model: ResultChunkModel.v, specification: SpecResultChunk.v, SpecRoundRobin.v. *)
From Verif Require Import Base MixtureKeyModel MixtureKeyProofs UtilsModel ChunkGenModel MixtureModel SpecSubseq SpecRoundRobin RoundRobin TokenModel SpecToken
  ResultChunkModel ResultChunkProofs ResultChunkProofs2 ResultChunkProofs3 ResultChunkProofs4 ResultChunkProofs5 ResultChunkProofs6
  FloatModel SpecResultChunk.
From Coq Require Import QArith Qabs ZifyBool ZifyNat.
Local Open Scope nat_scope.

(** ** The configuration *)
(** What parallel reading and prefetching need: no sample is the text "END_OF_STREAM", the mixture is a dict with the
    chunk's keys, and no sample is None. *)
Definition readable {A} (read : Z -> Z -> list range -> stream A) (is_end is_none : A -> bool) (c : rc) (cf : rconf A) : Prop :=
  reads_ok read (rc_index c)
  /\ (rf_dop cf <> 1%Z -> plain read is_end (rc_index c) /\ mix_for c cf /\ rc_csize c <> 0%Z /\ rc_index c <> [])
  /\ (rf_prefetch cf = true -> plain read is_none (rc_index c)).

(** A chunk: a dict of keys, each with an id. *)
Definition chunk_ok (c : rc) : Prop := NoDup (map fst (rc_index c)) /\ ids_known (rc_kid c) (rc_index c).

Definition as_text {A} (l : list (Z * A)) : list (Z * sample A) := map (fun x => (fst x, Text (snd x))) l.
Lemma as_text_perm {A} (l l' : list (Z * A)) : Permutation l l' -> Permutation (as_text l) (as_text l').
Proof. apply Permutation_map. Qed.
Lemma as_text_pair {A} i (l : list A) : as_text (map (pair i) l) = map (pair i) (map Text l).
Proof. unfold as_text. rewrite !map_map. reflexivity. Qed.
Lemma as_text_flat {A X} (f : X -> list (Z * A)) l : as_text (flat_map f l) = flat_map (fun x => as_text (f x)) l.
Proof. unfold as_text. induction l as [|x l IH]; [reflexivity|]. cbn. rewrite map_app, IH. reflexivity. Qed.

Lemma flat_map_keys_perm {A B} (F : mkey -> list B) (G : mkey * A -> list B) (idx : list (mkey * A)) order :
  Permutation order (map fst idx) -> (forall kp, In kp idx -> Permutation (F (fst kp)) (G kp)) ->
  Permutation (flat_map F order) (flat_map G idx).
Proof.
  intros Ho H. rewrite (perm_flat_map F order _ Ho). clear Ho. induction idx as [|kp idx IH]; [constructor|]. cbn.
  apply Permutation_app; [apply H; left; reflexivity|apply IH; intros; apply H; right; assumption].
Qed.

(** ** C21 *)
(** Iterating a chunk without windows yields every sample of the chunk exactly once, with the id of its key, numbered
    0, 1, 2, ..., and then stops: for every degree of parallelism, with or without prefetching. *)
Theorem C21_once : forall A fl (read : Z -> Z -> list range -> stream A) is_end is_none sh cpu c cf,
  shuffle_ok sh -> chunk_ok c -> readable read is_end is_none c cf -> rc_skip c = 0 ->
  rf_type cf = MSimple -> rf_tok cf = None ->
  exists N, forall fuel, N <= fuel -> exists out,
    iterate fl read is_end is_none sh cpu fuel c cf = (out, StopIter)
    /\ Permutation (tags out) (as_text (all_samples read (rc_kid c) (rc_index c)))
    /\ positions out = seq 0 (length out).
Proof.
  intros A fl read is_end is_none sh cpu c cf Hsh [Hnd Hids] (Hok & Hpar & Hpf) Hskip Hty Htok.
  destruct (iterate_simple_gen fl read is_end is_none sh cpu Hsh c cf Hskip Hnd Hids Hty Htok Hok Hpar Hpf) as (order & l & N & Ho & Hl & Hrun).
  exists N. intros fuel Hf. eexists. split; [apply Hrun, Hf|].
  match goal with |- context [numbered 0 ?x] => destruct (numbered_spec x) as [E1 E2] end. rewrite E1, E2, numbered_len.
  split; [|reflexivity]. rewrite rr_perm, <- flat_map_concat_map. unfold all_samples. rewrite as_text_flat.
  apply flat_map_keys_perm; [exact Ho|]. intros [k p] Hin. cbn [fst snd]. rewrite as_text_pair.
  apply Permutation_map, Permutation_map, (Hl k p Hin).
Qed.

(** With one reader, the samples of a key come file after file in some order of its files, in file order; [flat_work]
    lists the files of a key. *)
Theorem C21_order : forall A fl (read : Z -> Z -> list range -> stream A) is_end is_none sh cpu c cf,
  shuffle_ok sh -> chunk_ok c -> ids_distinct (rc_kid c) (rc_index c) -> readable read is_end is_none c cf -> rc_skip c = 0 ->
  rf_type cf = MSimple -> rf_tok cf = None -> rf_dop cf = 1%Z ->
  exists N, forall fuel, N <= fuel -> exists out,
    iterate fl read is_end is_none sh cpu fuel c cf = (out, StopIter)
    /\ forall k p, In (k, p) (rc_index c) -> exists files, Permutation files (flat_work p)
         /\ map snd (filter (fun x => (fst x =? key_id (rc_kid c) k)%Z) (tags out))
            = map Text (flat_map (fun '(d, f, rs) => fst (read d f rs)) files).
Proof.
  intros A fl read is_end is_none sh cpu c cf Hsh [Hnd Hids] Hdist (Hok & Hpar & Hpf) Hskip Hty Htok Hdop.
  destruct (iterate_simple_gen fl read is_end is_none sh cpu Hsh c cf Hskip Hnd Hids Hty Htok Hok Hpar Hpf) as (order & l & N & Ho & Hl & Hrun).
  exists N. intros fuel Hf. eexists. split; [apply Hrun, Hf|]. intros k p Hin.
  exists (sh_work sh k (flat_work p)). split; [apply (so_work _ Hsh)|].
  match goal with |- context [numbered 0 ?x] => destruct (numbered_spec x) as [E1 _] end. rewrite E1.
  assert (Hk : In k order) by (eapply Permutation_in; [symmetry; exact Ho|]; apply in_map_iff; exists (k, p); auto).
  rewrite (rr_filter_key order (key_id (rc_kid c)) (fun k => map Text (l k)) k).
  - rewrite map_map. cbn [snd]. rewrite map_id. f_equal. apply (proj1 (proj2 (Hl k p Hin))), Hdop.
  - eapply Permutation_NoDup; [symmetry; exact Ho|exact Hnd].
  - exact Hk.
  - intros k' Hk' E. apply Hdist; [eapply Permutation_in; [exact Ho|exact Hk']|eapply Permutation_in; [exact Ho|exact Hk]|exact E].
Qed.

(** With any number of reader processes, the samples of each file keep their order. *)
Theorem C21_file_order : forall A fl (read : Z -> Z -> list range -> stream A) is_end is_none sh cpu c cf,
  shuffle_ok sh -> chunk_ok c -> ids_distinct (rc_kid c) (rc_index c) -> readable read is_end is_none c cf -> rc_skip c = 0 ->
  rf_type cf = MSimple -> rf_tok cf = None ->
  exists N, forall fuel, N <= fuel -> exists out,
    iterate fl read is_end is_none sh cpu fuel c cf = (out, StopIter)
    /\ forall k p d f rs, In (k, p) (rc_index c) -> In (d, f, rs) (flat_work p) ->
         subseq (map Text (fst (read d f rs))) (map snd (filter (fun x => (fst x =? key_id (rc_kid c) k)%Z) (tags out))).
Proof.
  intros A fl read is_end is_none sh cpu c cf Hsh [Hnd Hids] Hdist (Hok & Hpar & Hpf) Hskip Hty Htok.
  destruct (iterate_simple_gen fl read is_end is_none sh cpu Hsh c cf Hskip Hnd Hids Hty Htok Hok Hpar Hpf) as (order & l & N & Ho & Hl & Hrun).
  exists N. intros fuel Hf. eexists. split; [apply Hrun, Hf|]. intros k p d f rs Hin Hw.
  match goal with |- context [numbered 0 ?x] => destruct (numbered_spec x) as [E1 _] end. rewrite E1.
  assert (Hk : In k order) by (eapply Permutation_in; [symmetry; exact Ho|]; apply in_map_iff; exists (k, p); auto).
  rewrite (rr_filter_key order (key_id (rc_kid c)) (fun k => map Text (l k)) k).
  - rewrite map_map. cbn [snd]. rewrite map_id. apply sub_map. apply (proj2 (proj2 (Hl k p Hin)) d f rs Hw).
  - eapply Permutation_NoDup; [symmetry; exact Ho|exact Hnd].
  - exact Hk.
  - intros k' Hk' E. apply Hdist; [eapply Permutation_in; [exact Ho|exact Hk']|eapply Permutation_in; [exact Ho|exact Hk]|exact E].
Qed.
Print Assumptions C21_file_order.

(** With one reader and without prefetching, a failing read is raised to the user. *)
Theorem C21_errors_visible : forall A fl (read : Z -> Z -> list range -> stream A) is_end is_none sh cpu c cf,
  shuffle_ok sh -> chunk_ok c -> rc_skip c = 0 ->
  rf_type cf = MSimple -> rf_tok cf = None -> rf_dop cf = 1%Z -> rf_prefetch cf = false -> ~ reads_ok read (rc_index c) ->
  exists N, forall fuel, N <= fuel -> exists out e k p d fs f rs,
    iterate fl read is_end is_none sh cpu fuel c cf = (out, Raise e)
    /\ In (k, p) (rc_index c) /\ In (d, fs) p /\ In (f, rs) fs /\ snd (read d f rs) = Some e.
Proof.
  intros A fl read is_end is_none sh cpu c cf Hsh [Hnd Hids] Hskip Hty Htok Hdop Hpf Hbad.
  eapply iterate_simple_fail; eassumption.
Qed.

(** ** C22 *)
(** The mixture of a chunk: a dict of non-negative numbers that sum to the chunk size. *)
Definition chunk_mix_ok (c : rc) : Prop :=
  exists mix, rc_mix c = Some mix /\ NoDup (map fst mix) /\ Forall (fun kv => (0 <= snd kv)%Z) mix /\ zsum (map snd mix) = rc_csize c
    /\ (0 < rc_csize c)%Z.

(** The numbers per window that windows of size [w] with mixture [mix] should have: every key but the first its share
    rounded down, or one less because of float rounding ([u] = relative rounding error; exact arithmetic has [u] = 0);
    the first the rest. *)
Definition window_counts (u : Q) (w csize : Z) (mix : list (mkey * Z)) (n : mkey -> nat) : Prop :=
  zsum (map (fun kv => Z.of_nat (n (fst kv))) mix) = w
  /\ forall i k v, nth_error mix i = Some (k, v) ->
       let x := (w * v / csize)%Z in
       (x - 1 <= Z.of_nat (n k) <= x + 2 * Z.of_nat (length mix))%Z
       /\ (i <> 0 -> (Z.of_nat (n k) <= x)%Z /\ ((u == 0)%Q -> Z.of_nat (n k) = x)) /\ ((u == 0)%Q -> (x <= Z.of_nat (n k))%Z).

Lemma filter_id {X} (P : X -> bool) l : Forall (fun x => P x = true) l -> filter P l = l.
Proof. induction 1 as [|x l H _ IH]; [reflexivity|]. cbn. rewrite H, IH. reflexivity. Qed.

Lemma same_keys_perm {V W} (a : list (mkey * V)) (b : list (mkey * W)) :
  NoDup (map fst a) -> NoDup (map fst b) -> same_keys a b = true -> Permutation (map fst a) (map fst b).
Proof.
  intros Ha Hb H. unfold same_keys in H. apply andb_true_iff in H as [H1 H2]. rewrite forallb_forall in H1, H2.
  apply NoDup_Permutation; [exact Ha|exact Hb|]. intros k. split; intros Hk; apply in_map_iff in Hk as ([k' v] & <- & Hk).
  - specialize (H1 _ Hk). cbn in H1. unfold amem in H1. destruct (aget mkey_eqb k' b) as [x|] eqn:E; [|discriminate].
    apply (aget_in _ mkey_eqb_spec) in E. apply in_map_iff. exists (k', x). auto.
  - specialize (H2 _ Hk). cbn in H2. unfold amem in H2. destruct (aget mkey_eqb k' a) as [x|] eqn:E; [|discriminate].
    apply (aget_in _ mkey_eqb_spec) in E. apply in_map_iff. exists (k', x). auto.
Qed.

(** What configure_result_streaming gives for a chunk with a mixture: the mixture without its zeros, with the chunk's keys. *)
Lemma configured {A} fl c (a : rargs A) cf :
  configure fl c a = Ok cf -> chunk_ok c -> chunk_mix_ok c ->
  exists mix mix0, rc_mix c = Some mix0 /\ rf_mix cf = Some mix /\ mix = filter (fun kv => (0 <? snd kv)%Z) mix0
    /\ NoDup (map fst mix) /\ Permutation (map fst mix) (map fst (rc_index c))
    /\ Forall (fun kv => (0 < snd kv)%Z) mix /\ zsum (map snd mix) = rc_csize c
    /\ rf_type cf = ra_type a /\ rf_prefetch cf = ra_prefetch a /\ rf_dop cf = Z.max 1 (ra_dop a)
    /\ (ra_type a = MWindow -> rf_best cf = ra_best a /\ rf_tok cf = None /\ (0 < rf_window cf)%Z
          /\ ((0 < ra_window a)%Z -> rf_window cf = Z.min (ra_window a) (rc_csize c)))
    /\ (ra_type a = MSimple -> rf_tok cf = None)
    /\ (ra_type a = MToken -> rf_best cf = false /\ rf_window cf = rc_csize c /\
          exists tc, rf_tok cf = Some tc /\ 1 <= tk_len tc /\ 1 <= tk_batch tc /\ tk_len tc = Z.to_nat (ra_seqlen a)
            /\ tk_overlap tc = ra_overlap a /\ tk_one tc = ra_one a).
Proof.
  intros Hc [Hnd Hids] (mix0 & Hm0 & Hn0 & Hp0 & Hs0 & Hcs). exists (filter (fun kv => (0 <? snd kv)%Z) mix0), mix0.
  unfold configure in Hc. rewrite Hm0 in Hc.
  assert (Hne : mix0 <> []) by (intros ->; cbn in Hs0; lia).
  replace (match mix0 with [] => true | _ => false end) with false in Hc by (destruct mix0; [congruence|reflexivity]).
  rewrite andb_false_r in Hc.
  set (mix := if existsb (fun kv => (snd kv =? 0)%Z) mix0 then filter (fun kv => (0 <? snd kv)%Z) mix0 else mix0) in Hc.
  assert (Em : mix = filter (fun kv => (0 <? snd kv)%Z) mix0).
  { unfold mix. destruct (existsb (fun kv => (snd kv =? 0)%Z) mix0) eqn:Ex; [reflexivity|]. symmetry. apply filter_id.
    rewrite Forall_forall in *. intros kv Hin. specialize (Hp0 kv Hin). cbn in Hp0.
    destruct (Z.eqb_spec (snd kv) 0) as [E0|E0]; [|lia].
    assert (existsb (fun kv => (snd kv =? 0)%Z) mix0 = true); [|congruence]. apply existsb_exists. exists kv. split; [exact Hin|]. apply Z.eqb_eq, E0. }
  rewrite Em in Hc. set (m := filter (fun kv => (0 <? snd kv)%Z) mix0) in *. clear mix Em.
  assert (Hmn : NoDup (map fst m)).
  { unfold m. clear -Hn0. induction mix0 as [|[k v] l IH]; [constructor|]. cbn in Hn0. inversion Hn0 as [|? ? H1 H2]; subst. cbn. destruct (0 <? v)%Z; cbn; [|auto].
    constructor; [|auto]. intros H. apply H1. apply in_map_iff in H as (x & <- & Hx). apply in_map_iff. exists x. apply filter_In in Hx as [Hx _]. auto. }
  assert (Hmp : Forall (fun kv => (0 < snd kv)%Z) m).
  { unfold m. apply Forall_forall. intros kv H. apply filter_In in H as [_ H]. lia. }
  assert (Hms : zsum (map snd m) = rc_csize c).
  { rewrite <- Hs0. unfold m. clear -Hp0. induction Hp0 as [|[k v] l H _ IH]; [reflexivity|]. cbn [filter snd map] in *. destruct (Z.ltb_spec 0 v).
    - cbn [map snd]. rewrite !zsum_cons, IH. reflexivity.
    - rewrite zsum_cons, IH. lia. }
  destruct (negb (same_keys m (rc_index c))) eqn:Ek; [discriminate|]. apply negb_false_iff in Ek.
  pose proof (same_keys_perm _ _ Hmn Hnd Ek) as Hperm.
  assert (Hdop : (if (ra_dop a <? 1)%Z then 1%Z else ra_dop a) = Z.max 1 (ra_dop a)) by (destruct (Z.ltb_spec (ra_dop a) 1); lia).
  destruct (ra_type a) eqn:Ety; cbn [negb] in Hc.
  - injection Hc as <-. cbn [rf_mix rf_type rf_prefetch rf_dop rf_best rf_tok rf_window]. do 7 (split; [first [assumption|reflexivity]|]).
    do 2 (split; [reflexivity|]). split; [exact Hdop|]. split; [discriminate|]. split; [reflexivity|discriminate].
  - injection Hc as <-. cbn [rf_mix rf_type rf_prefetch rf_dop rf_best rf_tok rf_window]. do 7 (split; [first [assumption|reflexivity]|]).
    do 2 (split; [reflexivity|]). split; [exact Hdop|]. split; [|split; discriminate]. intros _. split; [reflexivity|]. split; [reflexivity|].
    cbn [andb]. destruct (Z.ltb_spec (rc_csize c) (ra_window a)) as [E1|E1].
    + destruct (Z.ltb_spec (rc_csize c) 1); [lia|]. split; [lia|]. intros. lia.
    + destruct (Z.ltb_spec (ra_window a) 1); split; lia.
  - destruct (Z.ltb_spec (ra_seqlen a) 1) as [E1|E1]; [discriminate|]. destruct (ra_tok a) as [[[enc eo] bo]|]; [|discriminate].
    destruct (Z.ltb_spec (ra_tokbs a) 1) as [E2|E2]; [discriminate|]. injection Hc as <-.
    cbn [rf_mix rf_type rf_prefetch rf_dop rf_best rf_tok rf_window]. do 7 (split; [first [assumption|reflexivity]|]).
    do 2 (split; [reflexivity|]). split; [exact Hdop|]. split; [discriminate|]. split; [discriminate|].
    intros _. split; [reflexivity|]. split; [reflexivity|]. eexists. split; [reflexivity|]. cbn. split; [lia|]. split; [lia|]. auto.
Qed.

Lemma zsum_perm_map {X} (f : X -> Z) a b : Permutation a b -> zsum (map f a) = zsum (map f b).
Proof. intros H. apply zsum_perm, Permutation_map, H. Qed.

(** Iterating with windows: the output is a sequence of windows; window number [v] holds the [v]-th [n k] samples of
    every key [k] (as far as there are some), in turns over the keys.  Best effort goes on until all keys have run dry
    and so yields every sample exactly once; otherwise the iteration stops with the first window some key cannot fill.
    Missing for the full C22: a key whose share of the window rounds to zero (C22_zero_share_never_ends), shares that are one
    too low because of float rounding (C22_float_share_refuted). *)
Theorem C22_windows_partial : forall A fl u (read : Z -> Z -> list range -> stream A) is_end is_none sh cpu c a cf,
  float_ok fl u -> shuffle_ok sh -> chunk_ok c -> chunk_mix_ok c -> rc_skip c = 0 ->
  configure fl c a = Ok cf -> ra_type a = MWindow -> readable read is_end is_none c cf ->
  (3 * u * inject_Z (rf_window cf * rc_csize c) < 1)%Q ->
  exists mix order (n : mkey -> nat) (l : mkey -> list A),
    rf_mix cf = Some mix /\ window_counts u (rf_window cf) (rc_csize c) mix n
    /\ Permutation order (map fst (rc_index c))
    /\ (forall k p, In (k, p) (rc_index c) -> Permutation (l k) (part_samples read p))
    /\ ((ra_best a = false \/ forall k, In k order -> 0 < n k) ->
        exists N v, first_over (ra_best a) order l n v /\ forall fuel, N <= fuel -> exists out,
          iterate fl read is_end is_none sh cpu fuel c cf = (out, StopIter)
          /\ tags out = flat_map (window_at order (key_id (rc_kid c)) n (fun k => map Text (l k))) (seq 0 v)
          /\ positions out = seq 0 (length out)
          /\ (ra_best a = true -> Permutation (tags out) (as_text (all_samples read (rc_kid c) (rc_index c))))
          /\ (ra_best a = false -> forall w k, S w < v -> In k order -> length (share (n k) w (l k)) = n k)).
Proof.
  intros A fl u read is_end is_none sh cpu c a cf Hfl Hsh Hck Hcm Hskip Hconf Hty (Hok & Hpar & Hpf) Hsm.
  destruct (configured fl c a cf Hconf Hck Hcm) as (mix & mix0 & Hm0 & Hmix & _ & Hmnd & Hmp & Hpos & Hsum & Hty' & _ & _ & Hwin & _).
  destruct (Hwin Hty) as (Hbest & Htok & Hw & _). rewrite Hty in Hty'. destruct Hck as [Hnd Hids].
  assert (Hcs : (0 < rc_csize c)%Z) by (destruct Hcm as (m & _ & _ & _ & _ & H); exact H).
  assert (Hpos' : Forall (fun kv : mkey * Z => (0 <= snd kv)%Z) mix) by (eapply Forall_impl; [|exact Hpos]; cbn; intros; lia).
  destruct (iterate_window_gen fl read is_end is_none sh cpu Hsh c cf Hskip Hnd Hids u mix Hfl Hty' Htok Hok Hmix Hmnd Hmp Hpos' Hsum Hcs Hw Hsm
              (fun H => proj1 (Hpar H)) Hpf) as (order & n & l & C1 & C2 & C3 & C4 & C5 & _).
  exists mix, order, n, l. split; [exact Hmix|]. split; [split; [|exact C3]|].
  { rewrite <- C2. rewrite <- (map_map fst (fun k => Z.of_nat (n k))). apply zsum_perm_map. rewrite Hmp. symmetry. exact C1. }
  split; [exact C1|]. split; [intros k p Hin; apply (C4 k p Hin)|].
  intros Hb. rewrite Hbest in C5. destruct (C5 Hb) as (N & v & Hv & Hrun). exists N, v. split; [exact Hv|]. intros fuel Hf.
  eexists. split; [apply Hrun, Hf|].
  match goal with |- context [numbered 0 ?x] => destruct (numbered_spec x) as [E1 E2] end. rewrite E1, E2, numbered_len.
  split; [reflexivity|]. split; [reflexivity|]. split.
  - intros Eb. rewrite Eb in Hv. rewrite windows_all.
    + unfold all_samples. rewrite as_text_flat. apply flat_map_keys_perm; [exact C1|]. intros [k p] Hin. cbn [fst snd]. rewrite as_text_pair.
      apply Permutation_map, Permutation_map, (C4 k p Hin).
    + eapply first_over_len; [|exact Hv]. intros k _. rewrite map_length. reflexivity.
  - intros Eb w k Hwv Hk. rewrite Eb in Hv. eapply windows_full; eassumption.
Qed.

(** A full window holds every key exactly [n k] times. *)
Theorem C22_full_window : forall B order tag (n : mkey -> nat) (l : mkey -> list B) w k,
  NoDup order -> In k order -> (forall k', In k' order -> tag k' = tag k -> k' = k) -> S w * n k <= length (l k) ->
  length (filter (fun x => (fst x =? tag k)%Z) (window_at order tag n l w)) = n k.
Proof. intros. apply window_full_count; assumption. Qed.

(** With best effort, if the share of some key rounds to zero the iteration never ends. *)
Theorem C22_zero_share_never_ends : forall A fl u (read : Z -> Z -> list range -> stream A) is_end is_none sh cpu c a cf,
  float_ok fl u -> shuffle_ok sh -> chunk_ok c -> chunk_mix_ok c -> rc_skip c = 0 ->
  configure fl c a = Ok cf -> ra_type a = MWindow -> ra_best a = true -> readable read is_end is_none c cf ->
  (3 * u * inject_Z (rf_window cf * rc_csize c) < 1)%Q ->
  forall mix i k v, rf_mix cf = Some mix -> nth_error mix i = Some (k, v) -> i <> 0 -> (rf_window cf * v < rc_csize c)%Z ->
  forall fuel, snd (iterate fl read is_end is_none sh cpu fuel c cf) = Raise OutOfFuel.
Proof.
  intros A fl u read is_end is_none sh cpu c a cf Hfl Hsh Hck Hcm Hskip Hconf Hty Hb (Hok & Hpar & Hpf) Hsm mix1 i k v Hmix1 Hi Hi0 Hlt.
  destruct (configured fl c a cf Hconf Hck Hcm) as (mix & mix0 & Hm0 & Hmix & _ & Hmnd & Hmp & Hpos & Hsum & Hty' & _ & _ & Hwin & _).
  destruct (Hwin Hty) as (Hbest & Htok & Hw & _). rewrite Hty in Hty'. destruct Hck as [Hnd Hids]. rewrite Hmix in Hmix1. injection Hmix1 as <-.
  assert (Hcs : (0 < rc_csize c)%Z) by (destruct Hcm as (m & _ & _ & _ & _ & H); exact H).
  assert (Hpos' : Forall (fun kv : mkey * Z => (0 <= snd kv)%Z) mix) by (eapply Forall_impl; [|exact Hpos]; cbn; intros; lia).
  destruct (iterate_window_gen fl read is_end is_none sh cpu Hsh c cf Hskip Hnd Hids u mix Hfl Hty' Htok Hok Hmix Hmnd Hmp Hpos' Hsum Hcs Hw Hsm
              (fun H => proj1 (Hpar H)) Hpf) as (order & n & l & C1 & C2 & C3 & C4 & _ & C6).
  apply C6; [congruence|]. exists k. split.
  - eapply Permutation_in; [symmetry; exact C1|]. eapply Permutation_in; [exact Hmp|]. apply in_map_iff. exists (k, v).
    split; [reflexivity|]. eapply nth_error_In; exact Hi.
  - destruct (C3 i k v Hi) as (_ & B2 & _). destruct (B2 Hi0) as [B _].
    rewrite Z.div_small in B; [lia|]. split; [|exact Hlt].
    rewrite Forall_forall in Hpos. specialize (Hpos _ (nth_error_In _ _ Hi)). cbn in Hpos. nia.
Qed.

(** Token mode: windows of [chunk_size] token sequences; the "samples" of a key are the token windows of C25 over its
    texts; the iteration stops with the first window some key cannot fill. *)
Theorem C22_tokens_partial : forall A fl u (read : Z -> Z -> list range -> stream A) is_end is_none sh cpu c a cf tc,
  float_ok fl u -> shuffle_ok sh -> chunk_ok c -> chunk_mix_ok c -> rc_skip c = 0 ->
  configure fl c a = Ok cf -> ra_type a = MToken -> readable read is_end is_none c cf ->
  rf_tok cf = Some tc -> tk_valid tc = true ->
  (3 * u * inject_Z (rc_csize c * rc_csize c) < 1)%Q ->
  exists mix order (n : mkey -> nat) (l : mkey -> list A) N v,
    let toks := fun k => token_spec (tk_len tc) (tk_overlap tc) (tk_one tc) (token_stream (tk_ids tc) (l k)) in
    rf_mix cf = Some mix /\ window_counts u (rc_csize c) (rc_csize c) mix n
    /\ Permutation order (map fst (rc_index c))
    /\ (forall k p, In (k, p) (rc_index c) -> Permutation (l k) (part_samples read p))
    /\ first_over false order toks n v
    /\ (forall w k, S w < v -> In k order -> length (share (n k) w (toks k)) = n k)
    /\ forall fuel, N <= fuel -> exists out,
          iterate fl read is_end is_none sh cpu fuel c cf = (out, StopIter)
          /\ tags out = flat_map (window_at order (key_id (rc_kid c)) n (fun k => map Tokens (toks k))) (seq 0 v)
          /\ positions out = seq 0 (length out).
Proof.
  intros A fl u read is_end is_none sh cpu c a cf tc Hfl Hsh Hck Hcm Hskip Hconf Hty (Hok & Hpar & Hpf) Htok Hval Hsm.
  destruct (configured fl c a cf Hconf Hck Hcm) as (mix & mix0 & Hm0 & Hmix & _ & Hmnd & Hmp & Hpos & Hsum & Hty' & _ & _ & _ & _ & Htk).
  destruct (Htk Hty) as (Hbest & Hw & tc' & Htok' & Hlen & Hbat & _). rewrite Htok in Htok'. injection Htok' as <-. rewrite Hty in Hty'. destruct Hck as [Hnd Hids].
  assert (Hcs : (0 < rc_csize c)%Z) by (destruct Hcm as (m & _ & _ & _ & _ & H); exact H).
  assert (Hpos' : Forall (fun kv : mkey * Z => (0 <= snd kv)%Z) mix) by (eapply Forall_impl; [|exact Hpos]; cbn; intros; lia).
  assert (Hw' : (0 < rf_window cf)%Z) by lia. rewrite <- Hw in Hsm at 1.
  destruct (iterate_token_gen fl read is_end is_none sh cpu Hsh c cf Hskip Hnd Hids u mix tc Hfl Hty' Htok Hval Hlen Hbat Hok Hbest Hmix Hmnd Hmp Hpos' Hsum Hcs Hw' Hsm
              (fun H => proj1 (Hpar H))) as (order & n & l & N & v & C1 & C2 & C3 & C4 & C5 & C6).
  exists mix, order, n, l, N, v. cbv zeta in *. rewrite Hw in C2, C3. split; [exact Hmix|]. split; [split; [|exact C3]|].
  { rewrite <- C2. rewrite <- (map_map fst (fun k => Z.of_nat (n k))). apply zsum_perm_map. rewrite Hmp. symmetry. exact C1. }
  split; [exact C1|]. split; [intros k p Hin; apply (C4 k p Hin)|]. split; [exact C5|]. split.
  { intros w k Hwv Hk. exact (windows_full order n _ v w k C5 Hwv Hk). }
  intros fuel Hf. eexists. split; [apply C6, Hf|].
  match goal with |- context [numbered 0 ?x] => destruct (numbered_spec x) as [E1 E2] end. rewrite E1, E2, numbered_len. auto.
Qed.

(** ** C23 *)
(** A chunk restored with [k] samples to skip yields what the chunk yields after its first [k] samples, with the same
    indices, and ends in the same way: for every kind of mixing, parallelism and tokenizing. *)
Theorem C23_resume : forall A fl (read : Z -> Z -> list range -> stream A) is_end is_none sh cpu fuel c cf k out e,
  iterate fl read is_end is_none sh cpu fuel (with_skip 0 c) cf = (out, e) ->
  iterate fl read is_end is_none sh cpu fuel (with_skip k c) cf = (skipn k out, e).
Proof.
  intros A fl read is_end is_none sh cpu fuel c cf k out e H.
  pose proof (iterate_skip fl read is_end is_none sh cpu fuel c cf k) as Hs. rewrite H in Hs. exact Hs.
Qed.

(** ** C24 *)
(** The reader processes of a key together get every workload of the key exactly once, in order. *)
Theorem C24_distribution : forall ws process_count, concat (partitions ws process_count) = ws.
Proof. apply partitions_concat. Qed.

(** Whatever the interleaving of the reader processes and the consumer: what has been delivered is a round robin of
    what each process has delivered, which are first samples of that process's samples; when the iterator has ended,
    every process that was not killed has delivered all its samples before an "END_OF_STREAM" text. *)
Theorem C24_interleavings : forall A (read : Z -> Z -> list range -> stream A) is_end parts sched,
  let s := mt_run is_end sched (mt_init read parts) in
  let samples := fun i => until_end is_end (fst (st_iter read (nth i parts []))) in
  exists got : nat -> list A,
    mt_out s = round_robin (map got (seq 0 (length parts)))
    /\ (forall i, i < length parts -> exists rest, got i ++ rest = samples i)
    /\ (mt_state s = MDone -> forall i, i < length parts -> ~ In (TKill i) sched -> got i = samples i)
    /\ (mt_state s = MError -> In TTimeout sched).
Proof. intros A read is_end parts sched. apply mt_run_spec. Qed.

(** So, if nothing is killed, no read fails and no sample is the text "END_OF_STREAM", the processes together yield
    every sample exactly once, whatever the interleaving. *)
Theorem C24_once_partial : forall A (read : Z -> Z -> list range -> stream A) is_end ws process_count sched,
  let s := mt_run is_end sched (mt_init read (partitions ws process_count)) in
  let samples := flat_map (fun '(d, f, rs) => fst (read d f rs)) ws in
  (forall d f rs, In (d, f, rs) ws -> snd (read d f rs) = None) ->
  Forall (fun x => is_end x = false) samples ->
  (forall i, ~ In (TKill i) sched) -> mt_state s = MDone ->
  Permutation (mt_out s) samples.
Proof.
  intros A read is_end ws pc sched s samples Hok Hend Hk Hd.
  destruct (mt_run_spec read is_end (partitions ws pc) sched) as (got & Hout & _ & Hdone & _). fold s in Hout, Hdone.
  assert (Hok' : Forall (wl_ok read) (concat (partitions ws pc))).
  { rewrite partitions_concat. apply Forall_forall. intros [[d f] rs] Hin. exact (Hok d f rs Hin). }
  assert (Hend' : Forall (fun a => is_end a = false) (flat_map (wl_samples read) (concat (partitions ws pc)))) by (rewrite partitions_concat; exact Hend).
  destruct (mt_iter_ok read is_end (partitions ws pc) Hok' Hend') as (l & Hl & Hp). rewrite partitions_concat in Hp.
  assert (E : mt_out s = l); [|rewrite E; exact (proj1 Hp)].
  unfold mt_iter in Hl. injection Hl as <-. rewrite Hout. f_equal.
  transitivity (map (fun i => until_end is_end (fst (st_iter read (nth i (partitions ws pc) [])))) (seq 0 (length (partitions ws pc)))).
  - apply map_ext_in. intros i Hi. apply in_seq in Hi. apply Hdone; [exact Hd|lia|apply Hk].
  - generalize (partitions ws pc). clear. intros P. rewrite <- (map_map (fun i => nth i P []) (fun w => until_end is_end (fst (st_iter read w)))). f_equal.
    induction P as [|x P IH]; [reflexivity|]. cbn [length seq map]. cbn [nth]. f_equal. rewrite <- seq_shift, map_map. exact IH.
Qed.

(** The iterator cannot get stuck and cannot run forever: only boundedly many turns do something, and while it has not
    ended, a process or the consumer can run, or the consumer waits for a process that has ended and its timeout drops it. *)
Theorem C24_progress : forall A (read : Z -> Z -> list range -> stream A) is_end parts,
  exists bound, forall sched,
    let s := mt_run is_end sched (mt_init read parts) in
    turns_taken is_end sched (mt_init read parts) <= bound
    /\ (mt_state s = MRun ->
        (exists i, mt_step is_end (TProc i) s <> None) \/ mt_step is_end TCons s <> None
        \/ exists s', mt_step is_end TTimeout s = Some s' /\ mt_state s' = MRun).
Proof.
  intros A read is_end parts. exists (Z.to_nat (mweight parts (mt_init read parts))). intros sched s.
  assert (HM : MI read is_end parts (fun _ => true) 0 (fun _ => []) (mt_init read parts)) by (eapply mi_le; [|apply mi_init]; discriminate).
  split.
  - pose proof (turns_bounded read is_end parts sched (fun _ => true) 0 _ _ HM (fun _ _ => eq_refl)). lia.
  - intros Hr. destruct (mi_run read is_end parts (fun _ => true) sched 0 _ _ HM (fun _ _ => eq_refl)) as (j & t & HM' & _).
    exact (mi_progress read is_end parts _ _ _ _ HM' Hr).
Qed.

Print Assumptions C21_once.
Print Assumptions C21_order.
Print Assumptions C21_errors_visible.
Print Assumptions C22_windows_partial.
Print Assumptions C22_full_window.
Print Assumptions C22_zero_share_never_ends.
Print Assumptions C22_tokens_partial.
Print Assumptions C23_resume.
Print Assumptions C24_distribution.
Print Assumptions C24_interleavings.
Print Assumptions C24_once_partial.
Print Assumptions C24_progress.

(** ** Concrete cases *)
Section Concrete.
  Open Scope Z_scope.
  Definition kA : mkey := [([1], [[10]])].
  Definition kB : mkey := [([1], [[11]])].
  (** A sample is 1000 * file + row. *)
  Definition ex_read (d f : Z) (rs : list range) : stream Z :=
    (flat_map (fun r => map (fun i => 1000 * f + fst r + Z.of_nat i) (seq 0 (Z.to_nat (snd r - fst r)))) rs, None).
  Definition ex_sh : shuffles := mkShuf (fun _ l => rev l) (fun l => l) (fun l => l).
  Definition ex_idx : index := [(kA, [(1, [(1, [(0, 2)]); (2, [(5, 6)])])]); (kB, [(1, [(3, [(0, 1)])])])].
  Definition ex_chunk : rc := mkRC ex_idx 4 [(kA, 0); (kB, 1)] (Some [(kA, 3); (kB, 1)]) 0.
  Definition ex_args (ty : mtype) (dop w : Z) (best : bool) : rargs Z :=
    mkRA dop ty w best true (Some (fun x => [x; x], Some 7, None)) 2 2 true false true false false.
  Definition never (x : Z) : bool := false.

  Lemma ex_shuffle_ok : shuffle_ok ex_sh.
  Proof. split; intros; cbn; [symmetry; apply Permutation_rev|reflexivity|reflexivity]. Qed.
  Lemma ex_chunk_ok : chunk_ok ex_chunk.
  Proof.
    split.
    - cbn. constructor; [intros [H|[]]; discriminate|]. constructor; [intros []|constructor].
    - intros k H. exact H.
  Qed.
  Lemma ex_mix_ok : chunk_mix_ok ex_chunk.
  Proof.
    exists [(kA, 3); (kB, 1)]. split; [reflexivity|]. split; [exact (proj1 ex_chunk_ok)|].
    split; [repeat constructor; cbn; lia|]. split; [reflexivity|]. cbn. lia.
  Qed.
  Lemma ex_readable cf : rf_mix cf = Some [(kA, 3); (kB, 1)] -> readable ex_read never never ex_chunk cf.
  Proof.
    intros H. split; [intros ? ? ? ? ? ? _ _ _; reflexivity|]. split.
    - intros _. split; [intros ? ? _; apply Forall_forall; reflexivity|]. split; [|split; [discriminate|discriminate]].
      exists [(kA, 3); (kB, 1)]. split; [exact H|]. split; [exact (proj1 ex_chunk_ok)|]. reflexivity.
    - intros _ ? ? _. apply Forall_forall. reflexivity.
  Qed.
  Lemma ex_float_ok : float_ok fl64 (1 # 2 ^ 53).
  Proof. split; [discriminate|]. split; [discriminate|]. intros x Hx. apply fl64_close, Hx. Qed.

  Definition ex_conf (ty : mtype) (dop w : Z) (best : bool) : rconf Z :=
    match configure fl64 ex_chunk (ex_args ty dop w best) with Ok cf => cf | Err _ => mkConf 0 ty 0 best false None false None end.
  Definition ex_run (ty : mtype) (dop w : Z) (best : bool) :=
    iterate fl64 ex_read never never ex_sh 8 100 ex_chunk (ex_conf ty dop w best).

  (** C21: the hypotheses hold, with one reader and with three. *)
  Example C21_ex dop : dop = 1 \/ dop = 3 ->
    let cf := ex_conf MSimple dop 1 true in
    shuffle_ok ex_sh /\ chunk_ok ex_chunk /\ ids_distinct (rc_kid ex_chunk) (rc_index ex_chunk) /\ readable ex_read never never ex_chunk cf
    /\ rc_skip ex_chunk = 0%nat /\ rf_type cf = MSimple /\ rf_tok cf = None /\ rf_dop cf = dop.
  Proof.
    intros Hd cf. split; [exact ex_shuffle_ok|]. split; [exact ex_chunk_ok|]. split.
    - intros k k' [<-|[<-|[]]] [<-|[<-|[]]]; vm_compute; congruence.
    - destruct Hd; subst dop cf; (split; [apply ex_readable; vm_compute; reflexivity|]); vm_compute; auto.
  Qed.
  Example C21_out1 : ex_run MSimple 1 1 true
    = ([(0%nat, 0, Text 2005); (1%nat, 1, Text 3000); (2%nat, 0, Text 1000); (3%nat, 0, Text 1001)], StopIter).
  Proof. vm_compute. reflexivity. Qed.
  Example C21_out3 : ex_run MSimple 3 1 true
    = ([(0%nat, 0, Text 2005); (1%nat, 1, Text 3000); (2%nat, 0, Text 1000); (3%nat, 0, Text 1001)], StopIter).
  Proof. vm_compute. reflexivity. Qed.
  (** Two files of one key: one reader gives one file after the other, several readers take turns between the files. *)
  Example C21_file_order_ex :
    let idx := [(kA, [(1, [(1, [(0, 2)]); (2, [(5, 7)])])])] in
    let c := mkRC idx 4 [(kA, 0)] (Some [(kA, 4)]) 0 in
    let run dop := match configure fl64 c (ex_args MSimple dop 1 true) with
                   | Ok cf => map (fun x => snd x) (fst (iterate fl64 ex_read never never ex_sh 8 100 c cf)) | Err _ => [] end in
    run 1 = [Text 2005; Text 2006; Text 1000; Text 1001] /\ run 3 = [Text 2005; Text 1000; Text 2006; Text 1001].
  Proof. vm_compute. auto. Qed.
  (** A failing read: all samples before it, then the error. *)
  Example C21_errors_ex :
    let read' := fun d f rs => if f =? 3 then ([], Some RuntimeError) else ex_read d f rs in
    ~ reads_ok read' (rc_index ex_chunk)
    /\ iterate fl64 read' never never ex_sh 8 100 ex_chunk (mkConf 1 MSimple 1 true false None false None) = ([(0%nat, 0, Text 2005)], Raise RuntimeError).
  Proof.
    intros read'. split; [|vm_compute; reflexivity].
    intros H. specialize (H kB [(1, [(3, [(0, 1)])])] 1 [(3, [(0, 1)])] 3 [(0, 1)]). unfold read' in H. cbn in H.
    discriminate H; auto.
  Qed.
  (** C22: windows of 4. *)
  Example C22_ex best : let cf := ex_conf MWindow 1 9 best in
    float_ok fl64 (1 # 2 ^ 53) /\ shuffle_ok ex_sh /\ chunk_ok ex_chunk /\ chunk_mix_ok ex_chunk /\ rc_skip ex_chunk = 0%nat
    /\ configure fl64 ex_chunk (ex_args MWindow 1 9 best) = Ok cf /\ readable ex_read never never ex_chunk cf
    /\ (3 * (1 # 2 ^ 53) * inject_Z (rf_window cf * rc_csize ex_chunk) < 1)%Q.
  Proof.
    intros cf. split; [exact ex_float_ok|]. split; [exact ex_shuffle_ok|]. split; [exact ex_chunk_ok|]. split; [exact ex_mix_ok|].
    split; [reflexivity|]. destruct best; (split; [vm_compute; reflexivity|]); (split; [apply ex_readable; vm_compute; reflexivity|]); vm_compute; reflexivity.
  Qed.
  Example C22_out : ex_run MWindow 1 9 true
    = ([(0%nat, 0, Text 2005); (1%nat, 1, Text 3000); (2%nat, 0, Text 1000); (3%nat, 0, Text 1001)], StopIter).
  Proof. vm_compute. reflexivity. Qed.
  Example C22_tokens_ex : exists tc, let cf := ex_conf MToken 1 9 true in
    configure fl64 ex_chunk (ex_args MToken 1 9 true) = Ok cf /\ rf_tok cf = Some tc /\ tk_valid tc = true
    /\ readable ex_read never never ex_chunk cf
    /\ iterate fl64 ex_read never never ex_sh 8 100 ex_chunk cf
       = ([(0%nat, 0, Tokens [2005; 2005; 7]); (1%nat, 1, Tokens [3000; 3000; 7]); (2%nat, 0, Tokens [1000; 1000; 7]); (3%nat, 0, Tokens [1001; 1001; 7])], StopIter).
  Proof. eexists. split; [vm_compute; reflexivity|]. split; [vm_compute; reflexivity|]. split; [vm_compute; reflexivity|].
    split; [apply ex_readable; vm_compute; reflexivity|]. vm_compute. reflexivity. Qed.

  (** Best effort with windows of 2: the share of B is 2 * 1 / 4, rounded to 0: the iteration never ends. *)
  Theorem C22_livelock_refuted : forall fuel,
    configure fl64 ex_chunk (ex_args MWindow 1 2 true) = Ok (ex_conf MWindow 1 2 true)
    /\ snd (iterate fl64 ex_read never never ex_sh 8 fuel ex_chunk (ex_conf MWindow 1 2 true)) = Raise OutOfFuel.
  Proof.
    intros fuel. split; [vm_compute; reflexivity|].
    apply (C22_zero_share_never_ends Z fl64 (1 # 2 ^ 53) ex_read never never ex_sh 8 ex_chunk (ex_args MWindow 1 2 true) _) with (mix := [(kA, 3); (kB, 1)]) (i := 1%nat) (k := kB) (v := 1).
    - exact ex_float_ok.
    - exact ex_shuffle_ok.
    - exact ex_chunk_ok.
    - exact ex_mix_ok.
    - reflexivity.
    - vm_compute; reflexivity.
    - reflexivity.
    - reflexivity.
    - apply ex_readable. vm_compute. reflexivity.
    - vm_compute. reflexivity.
    - vm_compute. reflexivity.
    - reflexivity.
    - discriminate.
    - vm_compute. reflexivity.
  Qed.

  (** One window with all samples of a chunk with 71 and 29 samples: float rounding makes the shares 72 and 28, so a
      sample of the chunk is never delivered (without best effort). *)
  Definition ex_idx100 : index := [(kA, [(1, [(1, [(0, 71)])])]); (kB, [(1, [(2, [(0, 29)])])])].
  Definition ex_chunk100 : rc := mkRC ex_idx100 100 [(kA, 0); (kB, 1)] (Some [(kA, 71); (kB, 29)]) 0.
  Theorem C22_float_share_refuted : exists cf out,
    configure fl64 ex_chunk100 (ex_args MWindow 1 100 false) = Ok cf
    /\ element_counts fl64 100 100 [(kA, 71); (kB, 29)] = Ok [(kA, 72); (kB, 28)]
    /\ iterate fl64 ex_read never never ex_sh 8 1000 ex_chunk100 cf = (out, StopIter)
    /\ length out = 99%nat /\ length (all_samples ex_read (rc_kid ex_chunk100) (rc_index ex_chunk100)) = 100%nat.
  Proof.
    eexists. eexists. split; [vm_compute; reflexivity|]. split; [vm_compute; reflexivity|]. split; [vm_compute; reflexivity|]. vm_compute. auto.
  Qed.

  (** C23 *)
  Example C23_ex : iterate fl64 ex_read never never ex_sh 8 100 (with_skip 2 ex_chunk) (ex_conf MSimple 1 1 true)
    = ([(2%nat, 0, Text 1000); (3%nat, 0, Text 1001)], StopIter).
  Proof. vm_compute. reflexivity. Qed.

  (** C24: a schedule of two processes that meets the hypotheses. *)
  Example C24_ex :
    let ws := [(1, 1, [(0, 2)]); (1, 2, [(0, 1)])] in
    let s := mt_run never [TProc 1; TCons; TProc 0; TProc 0; TCons; TProc 1; TCons; TCons; TCons; TCons; TProc 0; TCons; TCons; TCons; TCons] (mt_init ex_read (partitions ws 2)) in
    mt_state s = MDone /\ mt_out s = [1000; 2000; 1001].
  Proof. vm_compute. auto. Qed.

  (** A reader process that fails (or is killed) is dropped: the iteration ends normally with samples missing. *)
  Definition bad_read (d f : Z) (rs : list range) : stream Z := if f =? 2 then ([], Some RuntimeError) else ex_read d f rs.
  Theorem C24_failed_reader_refuted :
    (let s := mt_run never [TProc 0; TProc 0; TProc 1; TCons; TTimeout; TCons; TProc 0; TCons; TCons; TCons; TCons]
                (mt_init bad_read (partitions [(1, 1, [(0, 2)]); (1, 2, [(0, 1)])] 2)) in
     mt_state s = MDone /\ mt_out s = [1000; 1001])
    /\ (exists out, iterate fl64 bad_read never never ex_sh 8 100 ex_chunk (ex_conf MSimple 3 1 true) = (out, StopIter) /\ length out = 3%nat)
    /\ (let s := mt_run never [TProc 0; TProc 0; TKill 1; TCons; TTimeout; TCons; TProc 0; TCons; TCons; TCons; TCons]
                   (mt_init ex_read (partitions [(1, 1, [(0, 2)]); (1, 2, [(0, 1)])] 2)) in
        mt_state s = MDone /\ mt_out s = [1000; 1001]).
  Proof. split; [vm_compute; auto|]. split; [eexists; split; vm_compute; reflexivity|]. vm_compute. auto. Qed.

  (** A sample equal to the text "END_OF_STREAM" (here: 1000) cuts off the samples of its reader process. *)
  Theorem C24_end_text_refuted : exists out out1,
    iterate fl64 ex_read (Z.eqb 1000) never ex_sh 8 100 ex_chunk (ex_conf MSimple 3 1 true) = (out, StopIter)
    /\ length out = 2%nat
    /\ iterate fl64 ex_read (Z.eqb 1000) never ex_sh 8 100 ex_chunk (ex_conf MSimple 1 1 true) = (out1, StopIter)
    /\ length out1 = 4%nat.
  Proof. eexists. eexists. split; [vm_compute; reflexivity|]. split; [vm_compute; reflexivity|]. split; vm_compute; reflexivity. Qed.

  (** A key with share 0 but with samples in the chunk: configuring fails although the chunk is complete. *)
  Theorem C22_zero_weight_refuted :
    configure fl64 (mkRC ex_idx 4 [(kA, 0); (kB, 1)] (Some [(kA, 4); (kB, 0)]) 0) (ex_args MSimple 1 1 true) = Err RuntimeError.
  Proof. vm_compute. reflexivity. Qed.
  (** More reader processes than requested: 5 files for 3 processes give 5 processes. *)
  Theorem C24_process_count_refuted :
    length (partitions (map (fun f => (1, f, [(0, 1)])) [1; 2; 3; 4; 5]) 3) = 5%nat.
  Proof. vm_compute. reflexivity. Qed.
End Concrete.
Print Assumptions C22_livelock_refuted.
Print Assumptions C22_float_share_refuted.
Print Assumptions C24_failed_reader_refuted.
Print Assumptions C24_end_text_refuted.
