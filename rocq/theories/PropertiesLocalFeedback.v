(** C84: feedback in local training.  Model: LocalFeedbackModel.v. *)
From Verif Require Import Base MixtureKeyModel MixtureKeyProofs UtilsModel UtilsProofs ChunkGenModel SpecChunk ConcurrentModel
  ChunkGenProofs1 ChunkGenProofs2 ChunkGenProofs3 ChunkGenProofs4 ChunkGenProofs5 ChunkGenProofs6 ChunkGenProofs10 ChunkGenProofs11
  PropertiesChunk PropertiesChunk2 PropertiesConcurrent DistributorModel SpecDistributor LocalModel SpecLocal LocalProofs
  PropertiesLocal LocalFeedbackModel.
From Coq Require Import ZifyBool ZifyNat.
Open Scope Z_scope.

(** ** Without data loader workers *)
(** The contents of the mixtures at each request: what the last report before it left. *)
Fixpoint mixtures_at (h : heap) (evs : list mevent) : list heap :=
  match evs with
  | [] => []
  | MAsk :: evs' => h :: mixtures_at h evs'
  | MReport h' :: evs' => mixtures_at h' evs'
  end.

Lemma wdist_init_main nw cached calls s w : dist_init 1 1 nw cached calls = Ok s -> 0 <= w < eff_workers nw -> wdist_ok (eff_workers nw) w s.
Proof.
  intros Hs Hw. pose proof (wdist_init nw cached calls s w Hs Hw) as [A1 A2 A3 A4 A5].
  constructor; auto; destruct s; exact A5 || assumption.
Qed.

Lemma frun_app fuel wid a : forall b w, frun fuel wid (a ++ b) w
  = (fst (frun fuel wid b (fst (frun fuel wid a w))), snd (frun fuel wid a w) ++ snd (frun fuel wid b (fst (frun fuel wid a w)))).
Proof.
  induction a as [|ev a IH]; intros b w; cbn [app frun].
  - cbn [fst snd app]. destruct (frun fuel wid b w); reflexivity.
  - destruct (fstep fuel wid ev w) as [w1 r1]. specialize (IH b w1). destruct (frun fuel wid a w1) as [w2 r2]. rewrite IH.
    cbn [fst snd]. rewrite app_assoc. reflexivity.
Qed.

Lemma set_count_id q : set_count q (q_count q) = q.
Proof. destruct q; reflexivity. Qed.

Lemma over_done fuel wid evs : forall w, l_done (lw_procs (f_streams w) 0%nat) = true -> l_pend (lw_procs (f_streams w) 0%nat) = None ->
  snd (frun fuel wid (flat_map main_event evs) w) = [].
Proof.
  induction evs as [|[|h] evs IH]; intros w Hd Hp; [reflexivity| |]; cbn [flat_map main_event]; rewrite frun_app; cbn [fst snd].
  - assert (E : frun fuel wid [Work (Take 0); Work (Finish 0)] w = (w, [])).
    { cbn [frun fstep lstep ev_proc]. rewrite Hp, Hd. cbn [f_streams f_heaps]. rewrite Hp. cbn. destruct w; reflexivity. }
    rewrite E. cbn [fst snd app]. apply IH; assumption.
  - cbn [frun fstep fst snd app]. apply IH; assumption.
Qed.

Lemma main_run nw fuel wid evs : forall h q s (w : fworld),
  wdist_ok nw (wid 0%nat) s -> f_heaps w 0%nat = h -> lw_count (f_streams w) = q_count q ->
  lw_procs (f_streams w) 0%nat = mkLP q s None false ->
  exists n qn os, qrun fuel (firstn n (map Next (mixtures_at h evs))) q = (qn, os)
    /\ snd (frun fuel wid (flat_map main_event evs) w) = map (fun o => (0%nat, conv o)) os
    /\ (forall j, (S j < length os)%nat -> exists c, nth_error os j = Some (NChunk c))
    /\ (length os = length (mixtures_at h evs) \/ exists o os', os = os' ++ [o] /\ ~ is_chunk o).
Proof.
  induction evs as [|[|h'] evs IH]; intros h q s w Hd Hh Hc Hp.
  - exists 0%nat, q, []. cbn. repeat split; auto. intros; lia.
  - cbn [flat_map main_event]. rewrite frun_app. cbn [fst snd mixtures_at map].
    destruct (wdist_next _ _ _ (fun _ => to_qout (snd (qr_next fuel h q))) Hd) as (s' & E' & D' & _).
    set (q' := fst (qr_next fuel h q)) in *. set (o := snd (qr_next fuel h q)) in *.
    assert (E : exists w', frun fuel wid [Work (Take 0); Work (Finish 0)] w = (w', [(0%nat, conv o)])
                /\ f_heaps w' 0%nat = h /\ lw_count (f_streams w') = q_count q'
                /\ lw_procs (f_streams w') 0%nat = mkLP q' s' None (l_over (conv o))).
    { cbn [frun fstep lstep ev_proc]. rewrite Hp. cbn [l_pend l_done l_dist l_qr]. rewrite (wdist_asks _ _ _ Hd).
      cbn [f_streams f_heaps set_lproc lw_procs]. rewrite Nat.eqb_refl. cbn [l_pend l_qr l_dist]. rewrite Hc, set_count_id, Hh.
      destruct (qr_next fuel h q) as [q1 o1] eqn:Eq. subst q' o. cbn [fst snd] in E' |- *. rewrite E'. eexists. split; [|split; [|split]].
      - f_equal. cbn [app]. f_equal. f_equal. destruct o1; reflexivity.
      - cbn [f_heaps]. exact Hh.
      - cbn [f_streams lw_count set_lproc]. lia.
      - cbn [f_streams lw_procs set_lproc]. rewrite Nat.eqb_refl. f_equal. destruct o1; reflexivity. }
    destruct E as (w' & -> & W1 & W2 & W3). cbn [fst snd].
    assert (Q : forall m, qrun fuel (firstn (S m) (Next h :: map Next (mixtures_at h evs))) q
                 = (fst (qrun fuel (firstn m (map Next (mixtures_at h evs))) q'), o :: snd (qrun fuel (firstn m (map Next (mixtures_at h evs))) q'))).
    { intros m. cbn [firstn qrun]. subst q' o. destruct (qr_next fuel h q) as [q1 o1]. cbn [fst snd].
      destruct (qrun fuel (firstn m (map Next (mixtures_at h evs))) q1); reflexivity. }
    destruct (l_over (conv o)) eqn:Eo.
    + exists 1%nat, q', [o]. rewrite Q. cbn [firstn qrun fst snd]. split; [reflexivity|]. split.
      * rewrite over_done; [reflexivity| |]; rewrite W3; reflexivity.
      * split; [cbn; intros; lia|]. right. exists o, []. split; [reflexivity|]. intros E. destruct o; try contradiction. discriminate Eo.
    + destruct (IH h q' s' w' D' W1 W2 W3) as (n & qn & os & I1 & I2 & I3 & I4).
      exists (S n), qn, (o :: os). rewrite Q, I1. cbn [fst snd]. split; [reflexivity|]. split; [rewrite I2; reflexivity|]. split.
      * intros [|j] Hj; [|apply I3; cbn in Hj; lia].
        destruct o; try discriminate Eo. eexists. reflexivity.
      * cbn [length]. destruct I4 as [I4|(o' & os' & -> & I4)]; [left; congruence|right; exists o', (o :: os'); auto].
  - cbn [flat_map main_event]. rewrite frun_app. cbn [frun fstep fst snd app mixtures_at].
    apply (IH h' q s); auto.
Qed.

(** The training process streams itself: each chunk follows the mixture left by the last report before the request, and
    requests are answered with chunks until the first that is not (then the stream is over). *)
Theorem C84_main_process_partial : forall fuel idx order h0 r0 son nw cached calls s wid evs res,
  index_ok idx -> Permutation order (map fst idx) -> heap_ok h0 -> (forall h, In (MReport h) evs -> heap_ok h) ->
  dist_init 1 1 nw cached calls = Ok s -> 0 <= wid 0%nat < eff_workers nw ->
  snd (frun (S fuel) wid (flat_map main_event evs) (fmain h0 (qr_init idx order h0 r0 son) s)) = res ->
  (forall i p c h, nth_error res i = Some (p, LChunk c) -> nth_error (mixtures_at h0 evs) i = Some h ->
     m_rows (h r0) <> [] -> m_strict (h r0) = true ->
     forall k, Z.of_nat (length (rows_under k (rc_index c))) = asked (m_rows (h r0)) k)
  /\ (forall i p o, nth_error res i = Some (p, o) -> (S i < length res)%nat -> exists c, o = LChunk c)
  /\ (length res = length (mixtures_at h0 evs) \/ exists res' p o, res = res' ++ [(p, o)] /\ forall c, o <> LChunk c).
Proof.
  intros fuel idx order h0 r0 son nw cached calls s wid evs res Hix Hord Hh Hev Hs Hw Hres.
  destruct (main_run (eff_workers nw) (S fuel) wid evs h0 (qr_init idx order h0 r0 son) s (fmain h0 (qr_init idx order h0 r0 son) s))
    as (n & qn & os & I1 & I2 & I3 & I4); try reflexivity; [eapply wdist_init_main; eassumption|].
  rewrite Hres in I2.
  assert (Hops : Forall (fun o => heap_ok (op_heap o)) (firstn n (map Next (mixtures_at h0 evs)))).
  { apply Forall_forall. intros o Ho. assert (Ho' : In o (map Next (mixtures_at h0 evs))).
    { rewrite <- (firstn_skipn n). apply in_or_app. left. exact Ho. }
    apply in_map_iff in Ho' as (h & <- & Hin). cbn [op_heap]. clear - Hh Hev Hin. revert h0 Hh Hin.
    induction evs as [|[|h'] evs IH]; intros h0 Hh Hin; cbn [mixtures_at In] in Hin; [contradiction| |].
    - destruct Hin as [<- |Hin]; [exact Hh|]. apply (IH (fun h H => Hev h (or_intror H)) h0 Hh Hin).
    - apply (IH (fun h H => Hev h (or_intror H)) h' (Hev h' (or_introl eq_refl)) Hin). }
  split; [|split].
  - intros i p c h Hr Hm Hne Hst.
    rewrite I2, nth_error_map in Hr. destruct (nth_error os i) as [o|] eqn:Eo; [|discriminate]. cbn in Hr. injection Hr as _ Hc.
    assert (o = NChunk c) as -> by (destruct o; try discriminate Hc; injection Hc as ->; reflexivity).
    assert (Hl : (i < length os)%nat) by (apply nth_error_Some; congruence).
    eapply (C49_installed_partial fuel idx order h0 r0 son _ qn os i c (h r0) Hix Hord Hh Hops I1 Eo); auto.
    + intros j ->. destruct (I3 j Hl) as (c' & E). exists c'. exact E.
    + assert (Hn : (i < n)%nat).
      { enough (length os <= n)%nat by lia. clear - I1. revert n qn os I1. generalize (qr_init idx order h0 r0 son).
        generalize (mixtures_at h0 evs) as l. induction l as [|x l IH]; intros q n qn os H; destruct n as [|n]; cbn [map firstn qrun] in H;
          try (injection H as <- <-; cbn; lia).
        destruct (qr_next (S fuel) x q) as [q1 o]. destruct (qrun (S fuel) (firstn n (map Next l)) q1) as [q2 os2] eqn:E.
        injection H as <- <-. specialize (IH _ _ _ _ E). cbn. lia. }
      clear - Hm Hn. revert i n Hm Hn. generalize (mixtures_at h0 evs) as l. induction l as [|x l IH]; intros [|i] [|n] Hm Hn; try lia; cbn in *; try discriminate.
      * injection Hm as ->. reflexivity.
      * apply IH; [exact Hm|lia].
  - intros i p o Hr Hl. rewrite I2, map_length in Hl. destruct (I3 i Hl) as (c & E).
    rewrite I2, nth_error_map, E in Hr. cbn in Hr. injection Hr as _ <-. exists c. reflexivity.
  - destruct I4 as [I4|(o & os' & -> & I4)]; [left; rewrite I2, map_length; exact I4|right].
    exists (map (fun o => (0%nat, conv o)) os'), 0%nat, (conv o). rewrite I2, map_app. split; [reflexivity|].
    intros c Hc. destruct o; try discriminate Hc. apply I4. exact I.
Qed.
Print Assumptions C84_main_process_partial.

(** ** With data loader workers *)
(** The steps of the streams among the events. *)
Definition stream_steps (evs : list fevent) : list event :=
  flat_map (fun e => match e with Work e => [e] | Report _ _ => [] end) evs.

(** The training process is [p0]; it reports and does not stream, the workers stream. *)
Definition trainer_and_workers (p0 : nat) (evs : list fevent) : Prop :=
  (forall p h, In (Report p h) evs -> p = p0) /\ (forall e, In (Work e) evs -> ev_proc e <> p0).

Lemma reports_ignored fuel wid p0 h evs : forall hs lw, trainer_and_workers p0 evs -> (forall p, p <> p0 -> hs p = h) ->
  snd (frun fuel wid evs (mkFW hs lw)) = snd (lrun fuel h wid (stream_steps evs) lw).
Proof.
  induction evs as [|[e|p h'] evs IH]; intros hs lw [H1 H2] Hh; [reflexivity| |].
  - cbn [frun fstep stream_steps flat_map app lrun f_heaps f_streams]. rewrite (Hh (ev_proc e)) by (apply H2; left; reflexivity).
    destruct (lstep fuel h wid e lw) as [lw1 r1].
    assert (H : trainer_and_workers p0 evs) by (split; [intros p hp Hin; apply (H1 p hp); right; exact Hin|intros e' Hin; apply H2; right; exact Hin]).
    specialize (IH hs lw1 H Hh). fold (stream_steps evs). destruct (frun fuel wid evs (mkFW hs lw1)) as [w2 r2].
    destruct (lrun fuel h wid (stream_steps evs) lw1) as [w3 r3]. cbn [snd] in *. rewrite IH. reflexivity.
  - cbn [frun fstep stream_steps flat_map app]. fold (stream_steps evs).
    assert (H : trainer_and_workers p0 evs) by (split; [intros p1 hp Hin; apply (H1 p1 hp); right; exact Hin|intros e' Hin; apply H2; right; exact Hin]).
    specialize (IH (fun p' => if Nat.eqb p p' then h' else hs p') lw H).
    destruct (frun fuel wid evs _) as [w2 r2]. cbn [snd app] in *. apply IH. intros p' Hp'.
    assert (p = p0) as -> by (apply (H1 p h'); left; reflexivity). destruct (Nat.eqb p0 p') eqn:E; [apply Nat.eqb_eq in E; congruence|apply Hh, Hp'].
Qed.

(** Whatever the training process reports, and whenever: the streams of forked workers are the same as without reports,
    and all their chunks follow the mixture the job had when the workers were started. *)
Theorem C84_workers_refuted : forall F fuel idx order h0 r0 son cs nw s wid p0 evs res,
  let q0 := qr_init idx order h0 r0 son in
  index_ok idx -> Permutation order (map fst idx) ->
  local_job F fuel idx order h0 q0 cs nw s -> (forall p, 0 <= wid p < eff_workers nw) -> trainer_and_workers p0 evs ->
  snd (frun (S fuel) wid evs (fforked h0 q0 s)) = res ->
  res = snd (lrun (S fuel) h0 wid (stream_steps evs) (lforked q0 s))
  /\ (forall p c, In (p, LChunk c) res -> m_rows (h0 r0) <> [] -> m_strict (h0 r0) = true ->
       forall k, Z.of_nat (length (rows_under k (rc_index c))) = asked (m_rows (h0 r0)) k).
Proof.
  intros F fuel idx order h0 r0 son cs nw s wid p0 evs res q0 Hix Hord HJ Hwid Hev Hres.
  assert (E : res = snd (lrun (S fuel) h0 wid (stream_steps evs) (lforked q0 s))).
  { rewrite <- Hres. unfold fforked. eapply reports_ignored; [exact Hev|auto]. }
  split; [exact E|]. intros p c Hin Hne Hst.
  destruct (lrun (S fuel) h0 wid (stream_steps evs) (lforked q0 s)) as [w res'] eqn:El. cbn [snd] in E. subst res'.
  destruct (C82_forked_partial _ _ _ _ _ _ _ _ _ _ _ _ _ HJ Hwid El) as (C1 & _).
  destruct (C1 _ _ Hin) as [(c' & [= <-] & Hc)|X]; [|discriminate X].
  destruct HJ as [Hh _ (qN & Hsingle & _) _ _].
  apply In_nth_error in Hc as (i & Hi).
  assert (Hl : (i < length cs)%nat) by (apply nth_error_Some; congruence).
  eapply (C49_installed_partial F idx order h0 r0 son (repeat (Next h0) (length cs)) qN (map NChunk cs) i c (h0 r0)); auto.
  - apply Forall_forall. intros o Ho. apply repeat_spec in Ho as ->. exact Hh.
  - rewrite nth_error_map, Hi. reflexivity.
  - intros j ->. destruct (nth_error cs j) as [x|] eqn:Ej; [|apply nth_error_None in Ej; lia]. exists x. rewrite nth_error_map, Ej. reflexivity.
  - clear - Hl. revert i Hl. induction (length cs) as [|n IH]; intros [|i] Hl; try lia; cbn; [reflexivity|]. apply IH. lia.
Qed.
Print Assumptions C84_workers_refuted.

(** 10 rows under ka, 6 under kb.  The job starts with 2 rows of ka and 1 of kb per chunk; the report changes that to 1 and
    2.  Without workers the next chunk follows the report; with a worker it does not. *)
Definition heap84 : heap := fun _ => mkMix [(ka, 2); (kb, 1)] true 3.
Definition heap84' : heap := fun _ => mkMix [(ka, 1); (kb, 2)] true 3.
Lemma heap84_ok : heap_ok heap84 /\ heap_ok heap84'.
Proof. split; intros r; cbn; (split; [split|lia]); repeat constructor; cbn; try lia; intros H; crush_in; discriminate. Qed.
Definition rows84 (x : nat * lout) : option (nat * nat) :=
  match snd x with LChunk c => Some (length (rows_under ka (rc_index c)), length (rows_under kb (rc_index c))) | _ => None end.
Example C84_example : exists s cs,
  dist_init 1 1 0 false 0 = Ok s
  /\ local_job 30 60 idx_ex order_ex heap84 (qr_init idx_ex order_ex heap84 0 false) cs 0 s
  /\ trainer_and_workers 1 [Work (Take 0); Work (Finish 0); Report 1 heap84'; Work (Take 0); Work (Finish 0)]
  /\ map rows84 (snd (frun 61 (fun _ => 0) (flat_map main_event [MAsk; MReport heap84'; MAsk]) (fmain heap84 (qr_init idx_ex order_ex heap84 0 false) s)))
     = [Some (2%nat, 1%nat); Some (1%nat, 2%nat)]
  /\ map rows84 (snd (frun 61 (fun _ => 0) [Work (Take 0); Work (Finish 0); Report 1 heap84'; Work (Take 0); Work (Finish 0)]
                        (fforked heap84 (qr_init idx_ex order_ex heap84 0 false) s)))
     = [Some (2%nat, 1%nat); Some (2%nat, 1%nat)].
Proof.
  eexists. exists (chunks (snd (qrun 31 (repeat (Next heap84) 5) (qr_init idx_ex order_ex heap84 0 false)))).
  split; [reflexivity|]. split; [|split; [|split]].
  - constructor.
    + apply heap84_ok.
    + exists heap84, 0, false, [], []. split; [reflexivity|constructor].
    + eexists. split; [vm_compute; reflexivity|]. left. vm_compute. reflexivity.
    + vm_compute. apply Nat.leb_le. reflexivity.
    + exists false, 0%nat. reflexivity.
  - split; [intros p h Hin|intros e Hin]; cbn in Hin; repeat (destruct Hin as [Hin|Hin]; try discriminate Hin); try contradiction;
      injection Hin; intros; subst; auto; cbn; discriminate.
  - vm_compute. reflexivity.
  - vm_compute. reflexivity.
Qed.
